(** Running the loop of the setter to its end. *)
From Coq Require Import ZArith Bool List Lia.
From Verif Require Import PyBase FiltAttach_Model FiltAttach_Spec FiltAttach_Proofs.
Import ListNotations.
Open Scope nat_scope.

Section Proofs2.
  Variable A : Type.
  Variable A_dec : forall x y : A, {x = y} + {x <> y}.
  Notation step := (step A_dec).
  Notation run := (run A_dec).

  Lemma run_app l1 l2 s : run (l1 ++ l2) s = run l2 (run l1 s).
  Proof. apply fold_left_app. Qed.

  Lemma run_on n s : at_ s = On -> run (repeat Go n) s = s.
  Proof.
    intros H. induction n as [|n IH]; [reflexivity|]. cbn [repeat]. cbn [FiltAttach_Model.run fold_left].
    change (run (repeat Go n) (step s Go) = s).
    assert (E : step s Go = s) by (simpl; unfold go; rewrite H; reflexivity). rewrite E. exact IH.
  Qed.

  Lemma run_go n s : run (repeat Go (S n)) s = run (repeat Go n) (go A A_dec s).
  Proof. reflexivity. Qed.

  (** One turn of the loop. *)
  Lemma turn_in c t m ks k r x n :
    nth_error c k = Some x -> In x m ->
    run (repeat Go (S (S n))) (mkSt c t m ks (Loop k) r) = mkSt c t m ks On (AssertionError :: r).
  Proof.
    intros E I. rewrite run_go. unfold go at 1. cbn [at_ cont told master keys raised]. rewrite E.
    rewrite run_go. unfold go. cbn [at_ cont told master keys raised].
    unfold item_inserted. apply (inb_in A A_dec) in I. rewrite I. apply run_on. reflexivity.
  Qed.

  Lemma turn_out c t m ks k r x n :
    nth_error c k = Some x -> ~ In x m ->
    run (repeat Go (S (S n))) (mkSt c t m ks (Loop k) r) =
    run (repeat Go n) (mkSt c t (py_insert (Z.of_nat k) x m) (x :: ks) (Loop (S k)) r).
  Proof.
    intros E I. rewrite run_go. unfold go at 1. cbn [at_ cont told master keys raised]. rewrite E.
    rewrite run_go. unfold go. cbn [at_ cont told master keys raised].
    unfold item_inserted. rewrite (inb_out A A_dec _ _ I). reflexivity.
  Qed.

  Lemma loop_err d : forall c t m ks k r x n,
    nth_error c (k + d) = Some x -> In x m -> 2 * d + 2 <= n ->
    exists m' ks', run (repeat Go n) (mkSt c t m ks (Loop k) r) = mkSt c t m' ks' On (AssertionError :: r).
  Proof.
    induction d as [|d IH]; intros c t m ks k r x n E I L.
    - destruct n as [|[|n]]; try lia. rewrite Nat.add_0_r in E.
      exists m, ks. eapply turn_in; eassumption.
    - destruct n as [|[|n]]; try lia.
      destruct (nth_error c k) as [y|] eqn:Ey.
      2: { apply nth_error_None in Ey. assert (k + S d < length c) by (apply nth_error_Some; rewrite E; discriminate). lia. }
      destruct (in_dec A_dec y m) as [J|J].
      + exists m, ks. eapply turn_in; eassumption.
      + rewrite (turn_out _ _ _ _ _ _ _ _ Ey J). apply IH with (x := x).
        * replace (S k + d) with (k + S d) by lia. exact E.
        * unfold py_insert. apply in_insert_at. right. exact I.
        * lia.
  Qed.

  Lemma loop_end c t m ks k r n :
    length c <= k -> run (repeat Go (S n)) (mkSt c t m ks (Loop k) r) = mkSt c t m ks On r.
  Proof.
    intros L. rewrite run_go. unfold go. cbn [at_ cont told master keys raised].
    apply nth_error_None in L. rewrite L. apply run_on. reflexivity.
  Qed.

  Lemma loop_append d : forall c t m ks k r n,
    length c = k + d -> length m <= k -> NoDup c -> (forall x, In x (skipn k c) -> ~ In x m) ->
    2 * d + 1 <= n ->
    exists ks', run (repeat Go n) (mkSt c t m ks (Loop k) r) = mkSt c t (m ++ skipn k c) ks' On r.
  Proof.
    induction d as [|d IH]; intros c t m ks k r n L Lm N O Ln.
    - destruct n as [|n]; [lia|]. exists ks. rewrite loop_end by lia.
      rewrite skipn_all2 by lia. rewrite app_nil_r. reflexivity.
    - destruct n as [|[|n]]; try lia.
      destruct (nth_error c k) as [y|] eqn:Ey; [|apply nth_error_None in Ey; lia].
      assert (S1 : skipn k c = y :: skipn (S k) c).
      { pose proof (split_nth _ _ _ _ Ey) as Q. rewrite Q at 1.
        rewrite skipn_app, firstn_length, Nat.min_l by lia. rewrite Nat.sub_diag.
        rewrite skipn_all2 by (rewrite firstn_length; lia). reflexivity. }
      rewrite (turn_out _ _ _ _ _ _ y n Ey (O y ltac:(rewrite S1; left; reflexivity))).
      rewrite py_insert_end by exact Lm.
      destruct (IH c t (m ++ [y]) (y :: ks) (S k) r n) as (ks' & E).
      + lia.
      + rewrite app_length. simpl. lia.
      + exact N.
      + intros x Ix. rewrite in_app_iff. simpl. intros [I|[-> |[]]].
        * apply (O x); [rewrite S1; right; exact Ix|exact I].
        * pose proof (split_nth _ _ _ _ Ey) as Q. rewrite Q in N. apply NoDup_remove_2 in N.
          apply N. rewrite in_app_iff. right. exact Ix.
      + lia.
      + exists ks'. rewrite E, S1, <- app_assoc. reflexivity.
  Qed.

  (** An insertion told in the loop. *)
  Lemma insert_in_loop s k i x n :
    inv A s -> told s = None -> at_ s = Loop k -> i <= length (cont s) -> ~ In x (cont s) ->
    2 * length (cont s) + 4 <= n ->
    let s' := run (EIns i x :: Tell :: repeat Go n) s in
    at_ s' = On /\ raised s' = [AssertionError].
  Proof.
    intros (N & R & K & D) T P Li Nx Ln. unfold due in D. rewrite T, P in D. destruct D as [V Lk].
    cbn [FiltAttach_Model.run fold_left]. fold (run (repeat Go n)).
    assert (O : ~ In x (master s)).
    { rewrite V. intros I. apply Nx. rewrite <- (firstn_skipn k (cont s)). apply in_or_app. left. exact I. }
    destruct s as [c t m ks p r]. cbn [cont told master keys at_ raised] in *. subst t p r.
    simpl (step _ (EIns _ _)). simpl (step _ Tell). unfold tell. cbn [cont told master keys at_ raised hears_ins].
    unfold item_inserted. rewrite (inb_out A A_dec _ _ O).
    change (fold_left step (repeat Go n)) with (run (repeat Go n)).
    destruct (Nat.le_gt_cases k i) as [Le|Gt].
    - destruct (loop_err (i - k) (insert_at i x c) None (py_insert (Z.of_nat i) x m) (x :: ks) k [] x n) as (m' & ks' & E).
      + replace (k + (i - k)) with i by lia. rewrite nth_error_insert_at by exact Li.
        rewrite Nat.ltb_irrefl, Nat.eqb_refl. reflexivity.
      + unfold py_insert. apply in_insert_at. left. reflexivity.
      + lia.
      + rewrite E. split; reflexivity.
    - destruct (nth_error c (k - 1)) as [y|] eqn:Ey; [|apply nth_error_None in Ey; lia].
      destruct (loop_err 0 (insert_at i x c) None (py_insert (Z.of_nat i) x m) (x :: ks) k [] y n) as (m' & ks' & E).
      + rewrite Nat.add_0_r, nth_error_insert_at by exact Li.
        destruct (Nat.ltb_spec k i); [lia|]. destruct (Nat.eqb_spec k i); [lia|]. exact Ey.
      + unfold py_insert. apply in_insert_at. right. rewrite V.
        replace k with (S (k - 1)) by lia. rewrite (firstn_S_nth _ _ _ _ Ey). apply in_or_app. right. left. reflexivity.
      + lia.
      + rewrite E. split; reflexivity.
  Qed.

  Lemma insert_in_put s k y i x n :
    inv A s -> told s = None -> at_ s = Put k y -> i <= length (cont s) -> ~ In x (cont s) ->
    2 * length (cont s) + 4 <= n ->
    let s' := run (EIns i x :: Tell :: repeat Go n) s in
    at_ s' = On /\ raised s' = [AssertionError].
  Proof.
    intros (N & R & K & D) T P Li Nx Ln. unfold due in D. rewrite T, P in D. destruct D as [V Ey].
    assert (Lk : k < length (cont s)) by (apply nth_error_Some; rewrite Ey; discriminate).
    cbn [FiltAttach_Model.run fold_left].
    assert (O : ~ In x (master s)).
    { rewrite V. intros I. apply Nx. rewrite <- (firstn_skipn k (cont s)). apply in_or_app. left. exact I. }
    assert (Oy : ~ In y (master s)) by (rewrite V; apply nth_not_before; assumption).
    assert (Dxy : y <> x) by (intros ->; apply Nx; eapply nth_error_In, Ey).
    destruct s as [c t m ks p r]. cbn [cont told master keys at_ raised] in *. subst t p r.
    simpl (step _ (EIns _ _)). simpl (step _ Tell). unfold tell. cbn [cont told master keys at_ raised hears_ins].
    unfold item_inserted. rewrite (inb_out A A_dec _ _ O).
    change (fold_left step (repeat Go n)) with (run (repeat Go n)).
    destruct n as [|n]; [lia|]. rewrite run_go. unfold go. cbn [at_ cont told master keys raised].
    unfold item_inserted.
    assert (Oy2 : ~ In y (py_insert (Z.of_nat i) x m)).
    { unfold py_insert. rewrite in_insert_at. intros [Q|Q]; contradiction. }
    rewrite (inb_out A A_dec _ _ Oy2).
    destruct (Nat.le_gt_cases i k) as [Le|Gt].
    - destruct (loop_err 0 (insert_at i x c) None (py_insert (Z.of_nat k) y (py_insert (Z.of_nat i) x m)) (y :: x :: ks) (S k) [] y n) as (m' & ks' & E).
      + rewrite Nat.add_0_r, nth_error_insert_at by exact Li.
        destruct (Nat.ltb_spec (S k) i); [lia|]. destruct (Nat.eqb_spec (S k) i); [lia|].
        replace (S k - 1) with k by lia. exact Ey.
      + unfold py_insert at 1. apply in_insert_at. left. reflexivity.
      + lia.
      + rewrite E. split; reflexivity.
    - destruct (loop_err (i - S k) (insert_at i x c) None (py_insert (Z.of_nat k) y (py_insert (Z.of_nat i) x m)) (y :: x :: ks) (S k) [] x n) as (m' & ks' & E).
      + replace (S k + (i - S k)) with i by lia. rewrite nth_error_insert_at by exact Li.
        rewrite Nat.ltb_irrefl, Nat.eqb_refl. reflexivity.
      + unfold py_insert at 1. apply in_insert_at. right. unfold py_insert. apply in_insert_at. left. reflexivity.
      + lia.
      + rewrite E. split; reflexivity.
  Qed.

  Lemma firstn_delete_before (l : list A) k i :
    i < k -> k <= length l -> delete_at i (firstn k l) = firstn (k - 1) (delete_at i l).
  Proof.
    intros H L. unfold delete_at. rewrite firstn_app, firstn_length, Nat.min_l by lia.
    rewrite !firstn_firstn, Nat.min_l, Nat.min_r by lia. f_equal.
    rewrite skipn_firstn_comm. f_equal. lia.
  Qed.

  Lemma delete_unfold (l : list A) j : delete_at j l = firstn j l ++ skipn (S j) l.
  Proof. reflexivity. Qed.

  (** A removal told in the loop of an item already read. *)
  Lemma remove_behind s k i n :
    inv A s -> told s = None -> at_ s = Loop k -> i < k -> 2 * length (cont s) + 4 <= n ->
    let s' := run (ERem i :: Tell :: repeat Go n) s in
    at_ s' = On /\ raised s' = [] /\ cont s' = delete_at i (cont s) /\
    master s' = delete_at (k - 1) (delete_at i (cont s)).
  Proof.
    intros (N & R & K & D) T P Li Ln. unfold due in D. rewrite T, P in D. destruct D as [V Lk].
    cbn [FiltAttach_Model.run fold_left].
    destruct (nth_error (cont s) i) as [x|] eqn:Ex; [|apply nth_error_None in Ex; lia].
    assert (Em : nth_error (master s) i = Some x).
    { rewrite V. pose proof Ex as Q. rewrite <- (firstn_skipn k (cont s)) in Q.
      rewrite nth_error_app1 in Q by (rewrite firstn_length; lia). exact Q. }
    destruct (known_rem A A_dec s x i (cont s) K Em) as (ks' & E2 & _).
    destruct s as [c t m ks p r]. cbn [cont told master keys at_ raised] in *. subst t p r.
    cbn [FiltAttach_Model.step told cont]. rewrite Ex. unfold tell.
    cbn [cont told master keys at_ raised hears_rem]. rewrite E2.
    change (fold_left step (repeat Go n)) with (run (repeat Go n)).
    assert (Lc : length (delete_at i c) = length c - 1) by (apply delete_at_length; lia).
    assert (M : delete_at i m = firstn (k - 1) (delete_at i c)).
    { rewrite V. apply firstn_delete_before; lia. }
    destruct (Nat.eq_dec k (length c)) as [Ek|Ek].
    - destruct n as [|n]; [lia|].
      rewrite loop_end by lia. cbn [at_ raised cont master].
      split; [reflexivity|split; [reflexivity|split; [reflexivity|]]].
      rewrite M. rewrite (delete_unfold (delete_at i c) (k - 1)). rewrite skipn_all2 by lia. rewrite app_nil_r. reflexivity.
    - destruct (loop_append (length (delete_at i c) - k) (delete_at i c) None (delete_at i m) ks' k [] n) as (ks2 & E).
      + lia.
      + rewrite M, firstn_length. lia.
      + apply NoDup_delete_at, N.
      + intros y Iy. rewrite M. intros Iy2.
        assert (ND : NoDup (delete_at i c)) by apply NoDup_delete_at, N.
        apply In_nth_error in Iy2. destruct Iy2 as (a & Ha).
        apply In_nth_error in Iy. destruct Iy as (b & Hb).
        assert (La : a < k - 1).
        { assert (a < length (firstn (k - 1) (delete_at i c))) by (apply nth_error_Some; rewrite Ha; discriminate).
          rewrite firstn_length in H. lia. }
        assert (Ha2 : nth_error (delete_at i c) a = Some y).
        { rewrite <- (firstn_skipn (k - 1) (delete_at i c)). rewrite nth_error_app1; [exact Ha|].
          rewrite firstn_length. lia. }
        assert (Hb2 : nth_error (delete_at i c) (k + b) = Some y).
        { rewrite <- (firstn_skipn k (delete_at i c)). rewrite nth_error_app2 by (rewrite firstn_length; lia).
          rewrite firstn_length, Nat.min_l by lia. replace (k + b - k) with b by lia. exact Hb. }
        assert (a = k + b); [|lia]. rewrite NoDup_nth_error in ND. apply ND; [lia|congruence].
      + lia.
      + rewrite E. cbn [at_ raised cont master].
        split; [reflexivity|split; [reflexivity|split; [reflexivity|]]].
        rewrite M. rewrite (delete_unfold (delete_at i c) (k - 1)). replace (S (k - 1)) with k by lia. reflexivity.
  Qed.

  (** A quiet attachment. *)
  Lemma attach_quiet c t n :
    NoDup c -> 2 * length c + 2 <= n ->
    exists ks, run (Attach :: repeat Go n) (mkSt c t [] [] Off []) = mkSt c t c ks On [].
  Proof.
    intros N L. cbn [FiltAttach_Model.run fold_left FiltAttach_Model.step at_ cont told master keys raised].
    change (fold_left step (repeat Go n)) with (run (repeat Go n)).
    destruct n as [|n]; [lia|]. rewrite run_go. unfold go. cbn [at_ cont told master keys raised].
    destruct (loop_append (length c) c t [] [] 0 [] n) as (ks & E); simpl; auto; try lia.
    exists ks. rewrite E. reflexivity.
  Qed.
End Proofs2.
