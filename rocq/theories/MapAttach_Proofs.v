(** The walk of the setter to its end, and the invariant behind gentle edits. *)
From Coq Require Import ZArith Bool List Lia Permutation.
From Verif Require Import PyBase MapAttach_Model MapAttach_Spec.
Import ListNotations.
Open Scope nat_scope.

Section Lists.
  Variable B : Type.
  Implicit Types l : list B.

  Lemma py_insert_split (x : B) l (k : nat) : py_insert (Z.of_nat k) x l = firstn k l ++ x :: skipn k l.
  Proof.
    unfold py_insert. destruct (Nat.le_gt_cases k (length l)) as [L|L].
    - rewrite py_insert_pos_nat by exact L. reflexivity.
    - unfold insert_at, py_insert_pos.
      assert (E : (Z.of_nat k <? 0)%Z = false) by (apply Z.ltb_ge; lia). rewrite E.
      replace (Z.to_nat _) with (length l) by lia.
      rewrite firstn_all, skipn_all, firstn_all2, skipn_all2 by lia. reflexivity.
  Qed.
  Lemma py_index_in l (k : nat) : k < length l -> py_index (length l) (Z.of_nat k) = Some k.
  Proof. apply py_index_nat. Qed.
  Lemma py_index_out l (k : nat) : length l <= k -> py_index (length l) (Z.of_nat k) = None.
  Proof.
    intros H. unfold py_index.
    assert (E : (Z.of_nat k <? 0)%Z = false) by (apply Z.ltb_ge; lia). rewrite E.
    assert (E2 : (Z.of_nat k <? Z.of_nat (length l))%Z = false) by (apply Z.ltb_ge; lia).
    rewrite E2, andb_false_r. reflexivity.
  Qed.
  Lemma split_nth l k x : nth_error l k = Some x -> l = firstn k l ++ x :: skipn (S k) l.
  Proof.
    revert l. induction k as [|k IH]; intros [|a l] H; try discriminate.
    - injection H as ->. reflexivity.
    - simpl in H |- *. f_equal. apply IH, H.
  Qed.
  Lemma skipn_nth l k x : nth_error l k = Some x -> skipn k l = x :: skipn (S k) l.
  Proof.
    revert l. induction k as [|k IH]; intros [|a l] H; try discriminate.
    - injection H as ->. reflexivity.
    - simpl in H. simpl. apply IH, H.
  Qed.
  Lemma firstn_S_nth l k x : nth_error l k = Some x -> firstn (S k) l = firstn k l ++ [x].
  Proof.
    revert l. induction k as [|k IH]; intros [|a l] H; try discriminate.
    - injection H as ->. reflexivity.
    - simpl in H. change (firstn (S (S k)) (a :: l)) with (a :: firstn (S k) l). rewrite (IH _ H). reflexivity.
  Qed.
  Lemma firstn_delete_at l k i : k <= i -> firstn k (delete_at i l) = firstn k l.
  Proof.
    intros H. unfold delete_at. rewrite firstn_app, firstn_firstn, Nat.min_l by exact H.
    rewrite firstn_length. destruct (Nat.le_gt_cases i (length l)) as [L|L].
    - rewrite Nat.min_l by exact L. replace (k - i) with 0 by lia. apply app_nil_r.
    - rewrite skipn_all2 by lia. rewrite firstn_nil. apply app_nil_r.
  Qed.
  Lemma firstn_delete_before l k i :
    i < k -> k <= length l -> delete_at i (firstn k l) = firstn (k - 1) (delete_at i l).
  Proof.
    intros H L. unfold delete_at. rewrite firstn_app, firstn_length, Nat.min_l by lia.
    rewrite !firstn_firstn, Nat.min_l, Nat.min_r by lia. f_equal.
    rewrite skipn_firstn_comm. f_equal. lia.
  Qed.
  Lemma firstn_insert_behind l k i (x : B) :
    i <= k -> k <= length l -> insert_at i x (firstn k l) = firstn (S k) (insert_at i x l).
  Proof.
    intros H L. unfold insert_at. rewrite firstn_app, firstn_length, Nat.min_l by lia.
    rewrite !firstn_firstn, Nat.min_l, Nat.min_r by lia. f_equal.
    replace (S k - i) with (S (k - i)) by lia. simpl. f_equal. apply skipn_firstn_comm.
  Qed.
  Lemma firstn_insert_ahead l k i (x : B) : k <= i -> i <= length l -> firstn k (insert_at i x l) = firstn k l.
  Proof.
    intros H L. unfold insert_at. rewrite firstn_app, firstn_firstn, Nat.min_l by exact H.
    rewrite firstn_length, Nat.min_l by exact L. replace (k - i) with 0 by lia. apply app_nil_r.
  Qed.
  Lemma delete_beyond l k : length l <= k -> delete_at k l = l.
  Proof. intros H. unfold delete_at. rewrite firstn_all2, skipn_all2 by lia. apply app_nil_r. Qed.
End Lists.

Lemma map_insert_at {B C} (f : B -> C) k x l : map f (insert_at k x l) = insert_at k (f x) (map f l).
Proof. unfold insert_at. rewrite map_app. simpl. rewrite firstn_map, skipn_map. reflexivity. Qed.
Lemma map_delete_at {B C} (f : B -> C) k l : map f (delete_at k l) = delete_at k (map f l).
Proof. unfold delete_at. rewrite map_app, firstn_map, skipn_map. reflexivity. Qed.

Section Proofs.
  Variable A : Type.
  Implicit Types s : st A.

  Lemma numbered_snd n (l : list A) : map snd (numbered n l) = l.
  Proof.
    unfold numbered. revert n. induction l as [|x l IH]; intros n; [reflexivity|]. simpl. f_equal. apply IH.
  Qed.
  Lemma numbered_app n (l1 l2 : list A) : numbered n (l1 ++ l2) = numbered n l1 ++ numbered (n + length l1) l2.
  Proof.
    unfold numbered. revert n. induction l1 as [|x l1 IH]; intros n; [rewrite Nat.add_0_r; reflexivity|].
    simpl. f_equal. rewrite IH. f_equal. f_equal. f_equal. lia.
  Qed.

  Lemma run_app l1 l2 s : run (l1 ++ l2) s = run l2 (run l1 s).
  Proof. apply fold_left_app. Qed.
  Lemma run_go n s : run (repeat Go (S n)) s = run (repeat Go n) (go s).
  Proof. reflexivity. Qed.
  Lemma run_on n s : at_ s = On -> run (repeat Go n) s = s.
  Proof.
    intros H. induction n as [|n IH]; [reflexivity|]. rewrite run_go.
    assert (E : go s = s) by (unfold go; rewrite H; reflexivity). rewrite E. exact IH.
  Qed.
  Lemma run_off n s : at_ s = Off -> run (repeat Go n) s = s.
  Proof.
    intros H. induction n as [|n IH]; [reflexivity|]. rewrite run_go.
    assert (E : go s = s) by (unfold go; rewrite H; reflexivity). rewrite E. exact IH.
  Qed.
  Lemma run_stuck n s : at_ s = Stuck -> run (repeat Go n) s = s.
  Proof.
    intros H. induction n as [|n IH]; [reflexivity|]. rewrite run_go.
    assert (E : go s = s) by (unfold go; rewrite H; reflexivity). rewrite E. exact IH.
  Qed.

  (** The rest of the walk, undisturbed. *)
  Lemma walk d : forall s k n,
    at_ s = Loop k -> length (cont s) - k = d -> 2 * d + 1 <= n ->
    let s' := run (repeat Go n) s in
    at_ s' = On /\ raised s' = raised s /\ cont s' = cont s /\ told s' = told s /\
    items s' = firstn k (items s) ++ numbered (length (made s)) (skipn k (cont s)) ++ skipn k (items s).
  Proof.
    induction d as [|d IH]; intros s k n P L Ln.
    - destruct n as [|n]; [lia|]. rewrite run_go. unfold go. rewrite P.
      assert (E : nth_error (cont s) k = None) by (apply nth_error_None; lia). rewrite E.
      rewrite run_on by reflexivity. cbn [at_ raised cont told items set_at].
      rewrite (skipn_all2 (cont s)) by lia. cbn [numbered length seq combine app].
      rewrite firstn_skipn. auto.
    - destruct n as [|[|n]]; try lia. rewrite !run_go. unfold go at 2. rewrite P.
      destruct (nth_error (cont s) k) as [x|] eqn:E; [|apply nth_error_None in E; lia].
      unfold go. cbn [at_ set_at].
      set (s1 := set_at (Loop (S k)) (item_inserted (set_at (Put k x) s) x k)).
      destruct (IH s1 (S k) n) as (P' & R & C & T & I); [reflexivity|simpl; lia|lia|].
      rewrite P', R, C, T, I. cbn [s1 raised cont told items made set_at item_inserted].
      repeat (split; [reflexivity|]). rewrite (skipn_nth _ _ _ _ E). rewrite py_insert_split.
      rewrite app_length. cbn [length]. rewrite Nat.add_1_r.
      unfold numbered at 2. cbn [length seq combine]. fold (numbered (S (length (made s))) (skipn (S k) (cont s))).
      set (N := numbered (S (length (made s))) (skipn (S k) (cont s))).
      set (b := (length (made s), x)).
      destruct (Nat.le_gt_cases k (length (items s))) as [Lk|Lk].
      + assert (LF : length (firstn k (items s)) = k) by (rewrite firstn_length; lia).
        rewrite firstn_app, skipn_app, LF. replace (S k - k) with 1 by lia.
        rewrite (firstn_all2 (n := S k) (firstn k (items s))) by lia.
        rewrite (skipn_all2 (n := S k) (firstn k (items s))) by lia.
        cbn [firstn skipn app]. rewrite <- !app_assoc. reflexivity.
      + rewrite (firstn_all2 (n := k) (items s)), (skipn_all2 (n := k) (items s)) by lia.
        rewrite firstn_all2, skipn_all2 by (rewrite app_length; simpl; lia).
        rewrite !app_nil_r, <- app_assoc. reflexivity.
  Qed.

  (** What is shown at each place, given the container items that were told. *)
  Definition view (p : place A) (m c : list A) : Prop :=
    match p with
    | Off | Half => m = []
    | Loop k => m = firstn k c /\ k <= length c
    | Put k x => m = firstn k c /\ nth_error c k = Some x
    | On | Deaf | Copy => m = c
    | Drop l => m = rev l
    | Stuck => False
    end.

  Definition due s : Prop :=
    match told s with
    | None => view (at_ s) (shown s) (cont s)
    | Some (NIns x i) => exists c0, cont s = insert_at i x c0 /\ i <= length c0 /\
        ins_ok (at_ s) /\ view (at_ s) (shown s) c0
    | Some (NRem x i) => exists c0, cont s = delete_at i c0 /\ nth_error c0 i = Some x /\
        rem_ok i (at_ s) /\ view (at_ s) (shown s) c0
    end.

  Definition inv s : Prop := raised s = [] /\ due s.

  Lemma inv_start l : inv (start l).
  Proof. split; reflexivity. Qed.

  Lemma shown_inserted s x i : shown (item_inserted s x i) = firstn i (shown s) ++ x :: skipn i (shown s).
  Proof.
    unfold shown. cbn [items item_inserted]. rewrite py_insert_split, map_app, firstn_map, skipn_map. reflexivity.
  Qed.
  Lemma shown_length s : length (shown s) = length (items s).
  Proof. apply map_length. Qed.
  Lemma removed_in s (i : nat) : i < length (items s) ->
    exists b, nth_error (items s) i = Some b /\
      item_removed s (Z.of_nat i) =
      (mkSt (cont s) (told s) (delete_at i (items s)) (made s) (b :: gone s) (NRem b i :: said s) (at_ s) (raised s), None).
  Proof.
    intros L. destruct (nth_error (items s) i) as [b|] eqn:E; [|apply nth_error_None in E; lia].
    exists b. split; [reflexivity|]. unfold item_removed. rewrite py_index_in by exact L. rewrite E. reflexivity.
  Qed.
  Lemma removed_out s (i : nat) : length (items s) <= i -> item_removed s (Z.of_nat i) = (s, Some IndexError).
  Proof. intros L. unfold item_removed. rewrite py_index_out by exact L. reflexivity. Qed.
  Lemma removed_last s : items s <> [] ->
    exists b, item_removed s (Z.of_nat (length (items s)) - 1) =
      (mkSt (cont s) (told s) (firstn (length (items s) - 1) (items s)) (made s) (b :: gone s)
         (NRem b (length (items s) - 1) :: said s) (at_ s) (raised s), None).
  Proof.
    intros H. assert (L : 0 < length (items s)) by (destruct (items s); [contradiction|simpl; lia]).
    replace (Z.of_nat (length (items s)) - 1)%Z with (Z.of_nat (length (items s) - 1)) by lia.
    destruct (removed_in s (length (items s) - 1)) as (b & _ & E); [lia|]. exists b. rewrite E.
    do 2 f_equal. unfold delete_at. rewrite (skipn_all2 (n := S (length (items s) - 1))) by lia. apply app_nil_r.
  Qed.
  Lemma removed_none s : items s = [] -> item_removed s (Z.of_nat (length (items s)) - 1) = (s, Some IndexError).
  Proof. intros H. unfold item_removed. rewrite H. reflexivity. Qed.

  Lemma inv_tell s : inv s -> inv (tell s).
  Proof.
    intros (R & D). unfold tell. unfold due in D.
    destruct (told s) as [[x i|x i]|] eqn:T; [| |split; [exact R|]; unfold due; rewrite T; exact D].
    - destruct D as (c0 & C & Li & O & V).
      destruct (at_ s) as [| |k|k y| | | |l|] eqn:P; simpl in O; try contradiction; cbn [hears_ins].
      + split; [exact R|]. unfold due. cbn [set_told told at_ cont]. rewrite P. exact V.
      + split; [exact R|]. unfold due. cbn [set_told item_inserted told at_ cont]. rewrite P. simpl.
        rewrite shown_inserted. change (shown (set_told None s)) with (shown s). simpl in V. rewrite V, C. reflexivity.
      + split; [exact R|]. unfold due. cbn [set_told told at_ cont]. rewrite P. exact V.
    - destruct D as (c0 & C & E & O & V).
      assert (Li : i < length c0) by (apply nth_error_Some; rewrite E; discriminate).
      assert (IN : shown s = c0 -> shown (fst (item_removed (set_told None s) (Z.of_nat i))) = cont s /\
                   told (fst (item_removed (set_told None s) (Z.of_nat i))) = None /\
                   at_ (fst (item_removed (set_told None s) (Z.of_nat i))) = at_ s /\
                   cont (fst (item_removed (set_told None s) (Z.of_nat i))) = cont s /\
                   raised (fst (item_removed (set_told None s) (Z.of_nat i))) = []).
      { intros Q. destruct (removed_in (set_told None s) i) as (b & _ & E2).
        { change (items (set_told None s)) with (items s). rewrite <- shown_length, Q. exact Li. }
        rewrite E2. cbn [fst set_told told at_ cont raised items]. split; [|auto].
        unfold shown in *. cbn [items]. rewrite map_delete_at, Q. symmetry. exact C. }
      destruct (at_ s) as [| |k|k y| | | |l|] eqn:P; simpl in O; try contradiction; cbn [hears_rem].
      + split; [exact R|]. unfold due. cbn [set_told told at_ cont]. rewrite P. exact V.
      + split; [exact R|]. unfold due. cbn [set_told told at_ cont]. rewrite P. exact V.
      + destruct V as [V Lk].
        rewrite removed_out.
        2: { change (items (set_told None s)) with (items s). rewrite <- shown_length, V, firstn_length. lia. }
        split; [exact R|]. unfold due. cbn [fst set_told told at_ cont]. rewrite P. simpl.
        change (shown (set_told None s)) with (shown s). rewrite C, V.
        rewrite firstn_delete_at by lia. split; [reflexivity|]. rewrite delete_at_length by exact Li. lia.
      + destruct V as [V Ly].
        rewrite removed_out.
        2: { change (items (set_told None s)) with (items s). rewrite <- shown_length, V, firstn_length. lia. }
        split; [exact R|]. unfold due. cbn [fst set_told told at_ cont]. rewrite P. simpl.
        change (shown (set_told None s)) with (shown s). rewrite C, V.
        rewrite firstn_delete_at by lia. split; [reflexivity|]. rewrite nth_error_delete_at by exact Li.
        destruct (Nat.ltb_spec k i); [exact Ly|lia].
      + destruct (IN V) as (S' & T' & P' & C' & R'). split; [exact R'|]. unfold due. rewrite T', P', C', S'. reflexivity.
      + destruct (IN V) as (S' & T' & P' & C' & R'). split; [exact R'|]. unfold due. rewrite T', P', C', S'. reflexivity.
      + split; [exact R|]. unfold due. cbn [set_told told at_ cont]. rewrite P. exact V.
  Qed.

  Lemma inv_go s : inv s -> told s = None -> inv (go s).
  Proof.
    intros (R & D) T. unfold due in D. rewrite T in D. unfold go.
    destruct (at_ s) as [| |k|k y| | | |[|y l]|] eqn:P; simpl in D; try contradiction.
    - split; [exact R|]. unfold due. rewrite T, P. exact D.
    - split; [exact R|]. unfold due. cbn [set_at told at_]. rewrite T. simpl. split; [exact D|lia].
    - destruct D as [V L]. destruct (nth_error (cont s) k) as [x|] eqn:E.
      + split; [exact R|]. unfold due. cbn [set_at told at_]. rewrite T. simpl. auto.
      + split; [exact R|]. unfold due. cbn [set_at told at_]. rewrite T. simpl.
        apply nth_error_None in E. change (shown (set_at On s)) with (shown s). rewrite V. apply firstn_all2. exact E.
    - destruct D as [V E].
      assert (L : k < length (cont s)) by (apply nth_error_Some; rewrite E; discriminate).
      split; [exact R|]. unfold due. cbn [set_at item_inserted told at_]. rewrite T. simpl. split; [|lia].
      change (shown (set_at _ ?t)) with (shown t). rewrite shown_inserted, V.
      rewrite firstn_all2, skipn_all2 by (rewrite firstn_length; lia). symmetry. apply firstn_S_nth, E.
    - split; [exact R|]. unfold due. rewrite T, P. exact D.
    - split; [exact R|]. unfold due. cbn [set_at told at_]. rewrite T. exact D.
    - split; [exact R|]. unfold due. cbn [set_at told at_]. rewrite T. simpl. rewrite rev_involutive. exact D.
    - split; [exact R|]. unfold due. cbn [set_at told at_]. rewrite T. exact D.
    - assert (LM : length (items s) = S (length l)).
      { rewrite <- shown_length, D. rewrite app_length, rev_length. simpl. lia. }
      destruct (removed_last s) as (b & E). { intros Q. rewrite Q in LM. discriminate. }
      rewrite E. split; [exact R|]. unfold due. cbn [set_at told at_ cont]. rewrite T. simpl.
      unfold shown in *. cbn [items set_at]. rewrite <- firstn_map, D, LM.
      replace (S (length l) - 1) with (length (rev l)) by (rewrite rev_length; lia).
      rewrite firstn_app, firstn_all, Nat.sub_diag. simpl. apply app_nil_r.
  Qed.

  Lemma inv_step s a : inv s -> gentle s a -> inv (step s a).
  Proof.
    intros I G. destruct a as [i x|i| | | |]; simpl in G.
    - destruct G as (T & Li & O). destruct I as (R & D). simpl. rewrite T.
      split; [exact R|]. unfold due in *. rewrite T in D. simpl. exists (cont s). auto.
    - destruct G as (T & Li & O). destruct I as (R & D). simpl. rewrite T.
      destruct (nth_error (cont s) i) as [x|] eqn:E; [|apply nth_error_None in E; lia].
      split; [exact R|]. unfold due in *. rewrite T in D. simpl. exists (cont s). auto.
    - apply inv_tell, I.
    - destruct I as (R & D). unfold due in D. rewrite G in D. simpl.
      destruct (at_ s) eqn:P;
        try (split; [exact R|]; unfold due; rewrite G, P; exact D).
      + split; [exact R|]. unfold due. simpl. rewrite G. exact D.
      + contradiction.
    - destruct I as (R & D). unfold due in D. rewrite G in D. simpl.
      destruct (at_ s) eqn:P;
        try (split; [exact R|]; unfold due; rewrite G, P; exact D).
      + split; [exact R|]. unfold due. simpl. rewrite G. exact D.
      + contradiction.
    - apply inv_go; assumption.
  Qed.

  Lemma inv_run l s : inv s -> always gentle s l -> inv (run l s).
  Proof.
    revert s. induction l as [|a l IH]; intros s I G; [exact I|].
    destruct G as [G1 G2]. apply IH; [apply inv_step; assumption|exact G2].
  Qed.
End Proofs.
