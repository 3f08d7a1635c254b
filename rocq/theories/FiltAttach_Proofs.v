(** The invariant behind attaching and detaching a container under gentle edits. *)
From Coq Require Import ZArith Bool List Lia.
From Verif Require Import PyBase FiltAttach_Model FiltAttach_Spec.
Import ListNotations.
Open Scope nat_scope.

Section Proofs.
  Variable A : Type.
  Variable A_dec : forall x y : A, {x = y} + {x <> y}.
  Notation step := (step A_dec).
  Notation run := (run A_dec).

  Lemma inb_in x l : inb A A_dec x l = true <-> In x l.
  Proof. unfold inb. destruct (in_dec A_dec x l); split; intros; auto; discriminate. Qed.
  Lemma inb_out x l : ~ In x l -> inb A A_dec x l = false.
  Proof. unfold inb. destruct (in_dec A_dec x l); tauto. Qed.

  Lemma py_insert_end (x : A) l (k : nat) : length l <= k -> py_insert (Z.of_nat k) x l = l ++ [x].
  Proof.
    intros H. unfold py_insert, insert_at, py_insert_pos.
    assert (E : (Z.of_nat k <? 0)%Z = false) by (apply Z.ltb_ge; lia). rewrite E.
    replace (Z.to_nat _) with (length l) by lia. rewrite firstn_all, skipn_all. reflexivity.
  Qed.
  Lemma py_insert_at (x : A) l (k : nat) : k <= length l -> py_insert (Z.of_nat k) x l = insert_at k x l.
  Proof. intros H. unfold py_insert. rewrite py_insert_pos_nat by exact H. reflexivity. Qed.
  Lemma py_del_at (l : list A) (k : nat) : k < length l -> py_del l (Z.of_nat k) = Ok (delete_at k l).
  Proof. intros H. unfold py_del. rewrite py_index_nat by exact H. reflexivity. Qed.
  Lemma py_del_beyond (l : list A) (k : nat) : length l <= k -> py_del l (Z.of_nat k) = Err IndexError.
  Proof.
    intros H. unfold py_del, py_index.
    assert (E : (Z.of_nat k <? 0)%Z = false) by (apply Z.ltb_ge; lia). rewrite E.
    assert (E2 : (Z.of_nat k <? Z.of_nat (length l))%Z = false) by (apply Z.ltb_ge; lia).
    rewrite E2, andb_false_r. reflexivity.
  Qed.

  Lemma in_insert_at (x y : A) k l : In y (insert_at k x l) <-> y = x \/ In y l.
  Proof.
    unfold insert_at. rewrite in_app_iff. simpl. rewrite <- (firstn_skipn k l) at 3.
    rewrite in_app_iff. intuition.
  Qed.
  Lemma NoDup_insert_at (x : A) k l : NoDup l -> ~ In x l -> NoDup (insert_at k x l).
  Proof.
    intros N H. unfold insert_at. rewrite <- (firstn_skipn k l) in N, H.
    apply NoDup_Add with (a := x) (l := firstn k l ++ skipn k l); [apply Add_app|]. split; assumption.
  Qed.
  Lemma split_nth (l : list A) k x : nth_error l k = Some x -> l = firstn k l ++ x :: skipn (S k) l.
  Proof.
    revert l. induction k as [|k IH]; intros [|a l] H; try discriminate.
    - injection H as ->. reflexivity.
    - simpl in H |- *. f_equal. apply IH, H.
  Qed.
  Lemma NoDup_delete_at k (l : list A) : NoDup l -> NoDup (delete_at k l).
  Proof.
    intros N. destruct (nth_error l k) as [x|] eqn:E.
    - rewrite (split_nth _ _ _ E) in N. apply NoDup_remove_1 in N. exact N.
    - apply nth_error_None in E. unfold delete_at. rewrite firstn_all2, skipn_all2 by lia.
      rewrite app_nil_r. exact N.
  Qed.
  Lemma in_delete_at (l : list A) k x y :
    NoDup l -> nth_error l k = Some x -> (In y (delete_at k l) <-> In y l /\ y <> x).
  Proof.
    intros N E. pose proof (split_nth _ _ _ E) as S. rewrite S in N.
    apply NoDup_remove_2 in N. unfold delete_at. rewrite S at 3. rewrite in_app_iff in *.
    simpl. destruct (A_dec y x) as [->|D]; [tauto|]. rewrite in_app_iff in *. simpl. intuition congruence.
  Qed.
  Lemma firstn_S_nth (l : list A) k x : nth_error l k = Some x -> firstn (S k) l = firstn k l ++ [x].
  Proof.
    revert l. induction k as [|k IH]; intros [|a l] H; try discriminate.
    - injection H as ->. reflexivity.
    - simpl in H. change (firstn (S (S k)) (a :: l)) with (a :: firstn (S k) l). rewrite (IH _ H). reflexivity.
  Qed.
  Lemma nth_not_before (l : list A) k x : NoDup l -> nth_error l k = Some x -> ~ In x (firstn k l).
  Proof.
    intros N E. rewrite (split_nth _ _ _ E) in N. apply NoDup_remove_2 in N.
    rewrite in_app_iff in N. tauto.
  Qed.
  Lemma firstn_delete_at (l : list A) k i : k <= i -> firstn k (delete_at i l) = firstn k l.
  Proof.
    intros H. unfold delete_at. rewrite firstn_app, firstn_firstn, Nat.min_l by exact H.
    rewrite firstn_length. destruct (Nat.le_gt_cases i (length l)) as [L|L].
    - rewrite Nat.min_l by exact L. replace (k - i) with 0 by lia. apply app_nil_r.
    - rewrite skipn_all2 by lia. rewrite firstn_nil. apply app_nil_r.
  Qed.
  Lemma insert_at_end (x : A) (l : list A) k : k = length l -> insert_at k x l = l ++ [x].
  Proof. intros ->. unfold insert_at. rewrite firstn_all, skipn_all. reflexivity. Qed.

  (** The master items at each place, given the container items that were told. *)
  Definition view (p : place A) (m c : list A) : Prop :=
    match p with
    | Off | Half => m = []
    | Loop k => m = firstn k c /\ k <= length c
    | Put k x => m = firstn k c /\ nth_error c k = Some x
    | On | Deaf | Copy => m = c
    | Drop l => m = rev l
    | Stuck => False
    end.

  Definition known (s : st A) : Prop :=
    NoDup (master s) /\ forall x, In x (keys s) <-> In x (master s).

  Definition due (s : st A) : Prop :=
    match told s with
    | None => view (at_ s) (master s) (cont s)
    | Some (NIns x i) => exists c0, cont s = insert_at i x c0 /\ i <= length c0 /\ ~ In x c0 /\
        ins_ok (at_ s) /\ view (at_ s) (master s) c0
    | Some (NRem x i) => exists c0, cont s = delete_at i c0 /\ nth_error c0 i = Some x /\ NoDup c0 /\
        rem_ok i (at_ s) /\ view (at_ s) (master s) c0
    end.

  Definition inv (s : st A) : Prop :=
    NoDup (cont s) /\ raised s = [] /\ known s /\ due s.

  Lemma inv_start l : NoDup l -> inv (start l).
  Proof.
    intros N. split; [exact N|]. split; [reflexivity|]. split; [|reflexivity].
    split; [constructor|]. intros x. simpl. tauto.
  Qed.

  Lemma known_ins s x (i : nat) c :
    known s -> ~ In x (master s) ->
    exists m ks, item_inserted A A_dec (master s) (keys s) x (Z.of_nat i) = (m, ks, None) /\
      m = py_insert (Z.of_nat i) x (master s) /\
      forall t p, known (mkSt c t m ks p []).
  Proof.
    intros [N K] H. unfold item_inserted. rewrite (inb_out _ _ H).
    eexists _, _. split; [reflexivity|]. split; [reflexivity|]. intros t p. split; simpl.
    - apply NoDup_insert_at; assumption.
    - intros y. unfold py_insert. rewrite in_insert_at, K. intuition.
  Qed.

  Lemma known_rem s x (i : nat) c :
    known s -> nth_error (master s) i = Some x ->
    exists ks, item_removed A A_dec (master s) (keys s) x (Z.of_nat i) =
        (delete_at i (master s), ks, None) /\
      forall t p, known (mkSt c t (delete_at i (master s)) ks p []).
  Proof.
    intros [N K] H. unfold item_removed.
    assert (L : i < length (master s)) by (apply nth_error_Some; rewrite H; discriminate).
    rewrite py_del_at by exact L.
    assert (I : In x (keys s)) by (apply K; eapply nth_error_In, H).
    apply inb_in in I. rewrite I. eexists. split; [reflexivity|]. intros t p. split; simpl.
    - apply NoDup_delete_at, N.
    - intros y. rewrite (in_delete_at _ _ _ _ N H). rewrite <- (K y). split.
      + intros Hy. apply in_remove in Hy. exact Hy.
      + intros [Hy D]. apply in_in_remove; assumption.
  Qed.

  Lemma inv_tell s : inv s -> inv (tell A A_dec s).
  Proof.
    intros (N & R & K & D). unfold tell. unfold due in D.
    destruct (told s) as [[x i|x i]|] eqn:T; [| |split; [exact N|split; [exact R|split; [exact K|]]]; unfold due; rewrite T; exact D].
    - destruct D as (c0 & C & Li & Nx & O & V).
      destruct (at_ s) as [| |k|k y| | | |l|] eqn:P; simpl in O; try contradiction; simpl.
      + split; [exact N|]. split; [exact R|]. split; [exact K|]. unfold due; simpl. exact V.
      + simpl in V. rewrite <- V in *.
        destruct (known_ins s x i (cont s) K Nx) as (m & ks & E & M & K').
        rewrite E. split; [exact N|]. split; [exact R|]. split; [rewrite R; apply K'|].
        unfold due; simpl. rewrite C, M. apply py_insert_at. exact Li.
      + split; [exact N|]. split; [exact R|]. split; [exact K|]. unfold due; simpl. exact V.
    - destruct D as (c0 & C & E & N0 & O & V).
      assert (Li : i < length c0) by (apply nth_error_Some; rewrite E; discriminate).
      assert (BEY : length (master s) <= i ->
        item_removed A A_dec (master s) (keys s) x (Z.of_nat i) = (master s, keys s, Some IndexError)).
      { intros L. unfold item_removed. rewrite py_del_beyond by exact L. reflexivity. }
      destruct (at_ s) as [| |k|k y| | | |l|] eqn:P; simpl in O; try contradiction; simpl.
      + split; [exact N|]. split; [exact R|]. split; [exact K|]. unfold due; simpl. exact V.
      + split; [exact N|]. split; [exact R|]. split; [exact K|]. unfold due; simpl. exact V.
      + destruct V as [V Lk]. rewrite BEY by (rewrite V, firstn_length; lia).
        split; [exact N|]. split; [exact R|]. split; [exact K|]. unfold due; simpl. rewrite C, V.
        rewrite firstn_delete_at by lia. split; [reflexivity|]. rewrite delete_at_length by exact Li. lia.
      + destruct V as [V Ly]. rewrite BEY by (rewrite V, firstn_length; lia).
        split; [exact N|]. split; [exact R|]. split; [exact K|]. unfold due; simpl. rewrite C, V.
        rewrite firstn_delete_at by lia. split; [reflexivity|].
        rewrite nth_error_delete_at by exact Li.
        destruct (Nat.ltb_spec k i); [exact Ly|lia].
      + simpl in V. rewrite <- V in *.
        destruct (known_rem s x i (cont s) K E) as (ks & E2 & K').
        rewrite E2. split; [exact N|]. split; [exact R|]. split; [rewrite R; apply K'|].
        unfold due; simpl. symmetry. exact C.
      + split; [exact N|]. split; [exact R|]. split; [exact K|]. unfold due; simpl. exact V.
  Qed.

  Lemma inv_go s : inv s -> told s = None -> inv (go A A_dec s).
  Proof.
    intros (N & R & K & D) T. unfold due in D. rewrite T in D. unfold go.
    destruct (at_ s) as [| |k|k y| | | |[|y l]|] eqn:P; simpl in D; try contradiction.
    - split; [exact N|split; [exact R|split; [exact K|]]]. unfold due. rewrite T, P. exact D.
    - split; [exact N|split; [exact R|split; [exact K|]]]. unfold due. simpl. rewrite T. simpl.
      split; [exact D|lia].
    - destruct D as [V L]. destruct (nth_error (cont s) k) as [x|] eqn:E.
      + split; [exact N|split; [exact R|split; [exact K|]]]. unfold due. simpl. rewrite T. simpl. auto.
      + split; [exact N|split; [exact R|split; [exact K|]]]. unfold due. simpl. rewrite T. simpl.
        apply nth_error_None in E. rewrite V. apply firstn_all2. exact E.
    - destruct D as [V E].
      assert (L : k < length (cont s)) by (apply nth_error_Some; rewrite E; discriminate).
      assert (O : ~ In y (master s)) by (rewrite V; apply nth_not_before; assumption).
      destruct (known_ins s y k (cont s) K O) as (m & ks & E2 & M & K'). rewrite E2.
      split; [exact N|split; [exact R|split; [rewrite R; apply K'|]]].
      unfold due. simpl. rewrite T. simpl. split; [|lia].
      rewrite M, py_insert_end, V; [symmetry; apply firstn_S_nth, E|]. rewrite V, firstn_length. lia.
    - split; [exact N|split; [exact R|split; [exact K|]]]. unfold due. rewrite T, P. exact D.
    - split; [exact N|split; [exact R|split; [exact K|]]]. unfold due. simpl. rewrite T. exact D.
    - split; [exact N|split; [exact R|split; [exact K|]]]. unfold due. simpl. rewrite T. simpl.
      rewrite rev_involutive. exact D.
    - split; [exact N|split; [exact R|split; [exact K|]]]. unfold due. simpl. rewrite T. exact D.
    - assert (LM : length (master s) = S (length l)).
      { rewrite D. simpl. rewrite app_length, rev_length. simpl. lia. }
      replace (Z.of_nat (length (master s)) - 1)%Z with (Z.of_nat (length l)) by lia.
      assert (E : nth_error (master s) (length l) = Some y).
      { rewrite D. simpl. rewrite nth_error_app2 by (rewrite rev_length; lia).
        rewrite rev_length, Nat.sub_diag. reflexivity. }
      destruct (known_rem s y (length l) (cont s) K E) as (ks & E2 & K'). rewrite E2.
      split; [exact N|split; [exact R|split; [rewrite R; apply K'|]]].
      unfold due. simpl. rewrite T. simpl. rewrite D. simpl.
      rewrite <- (rev_length l). rewrite delete_at_app. apply app_nil_r.
  Qed.

  Lemma inv_step s a : inv s -> gentle s a -> inv (step s a).
  Proof.
    intros I G. destruct a as [i x|i| | | |]; simpl in G.
    - destruct G as (T & Li & Nx & O). destruct I as (N & R & K & D). simpl. rewrite T.
      split; [apply NoDup_insert_at; assumption|split; [exact R|split; [exact K|]]].
      unfold due in *. rewrite T in D. simpl. exists (cont s). auto.
    - destruct G as (T & Li & O). destruct I as (N & R & K & D). simpl. rewrite T.
      destruct (nth_error (cont s) i) as [x|] eqn:E;
        [|apply nth_error_None in E; lia].
      split; [apply NoDup_delete_at; assumption|split; [exact R|split; [exact K|]]].
      unfold due in *. rewrite T in D. simpl. exists (cont s). auto.
    - apply inv_tell, I.
    - destruct I as (N & R & K & D). unfold due in D. rewrite G in D. simpl.
      destruct (at_ s) eqn:P;
        try (split; [exact N|split; [exact R|split; [exact K|]]]; unfold due; rewrite G, P; exact D).
      + split; [exact N|split; [exact R|split; [exact K|]]]. unfold due. simpl. rewrite G. exact D.
      + contradiction.
    - destruct I as (N & R & K & D). unfold due in D. rewrite G in D. simpl.
      destruct (at_ s) eqn:P;
        try (split; [exact N|split; [exact R|split; [exact K|]]]; unfold due; rewrite G, P; exact D).
      + split; [exact N|split; [exact R|split; [exact K|]]]. unfold due. simpl. rewrite G. exact D.
      + contradiction.
    - apply inv_go; assumption.
  Qed.

  Lemma inv_run l s : inv s -> gentle_all step s l -> inv (run l s).
  Proof.
    revert s. induction l as [|a l IH]; intros s I G; [exact I|].
    destruct G as [G1 G2]. apply IH; [apply inv_step; assumption|exact G2].
  Qed.
End Proofs.
