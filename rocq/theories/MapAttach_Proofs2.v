(** Edits in the walk, what stays behind, and the account of mapped items. *)
From Coq Require Import ZArith Bool List Lia Permutation.
From Verif Require Import PyBase MapAttach_Model MapAttach_Spec MapAttach_Proofs.
Import ListNotations.
Open Scope nat_scope.

Section Proofs2.
  Variable A : Type.
  Implicit Types s : st A.

  Lemma walk_shown s k n :
    at_ s = Loop k -> 2 * length (cont s) + 1 <= n ->
    let s' := run (repeat Go n) s in
    at_ s' = On /\ raised s' = raised s /\ cont s' = cont s /\ told s' = told s /\
    shown s' = firstn k (shown s) ++ skipn k (cont s) ++ skipn k (shown s).
  Proof.
    intros P L. destruct (walk A (length (cont s) - k) s k n P eq_refl ltac:(lia)) as (P' & R & C & T & I).
    simpl. rewrite P', R, C, T. repeat (split; [reflexivity|]).
    unfold shown. rewrite I, !map_app, numbered_snd, firstn_map, skipn_map. reflexivity.
  Qed.

  Lemma tell_ins s x i : told s = Some (NIns x i) -> hears_ins (at_ s) = true ->
    tell s = item_inserted (set_told None s) x i.
  Proof. intros T H. unfold tell. rewrite T, H. reflexivity. Qed.

  Lemma inserted_loop s k i x n :
    inv A s -> told s = None -> at_ s = Loop k -> i <= length (cont s) ->
    2 * length (cont s) + 4 <= n ->
    let s' := run (EIns i x :: Tell :: repeat Go n) s in
    at_ s' = On /\ raised s' = [] /\ cont s' = insert_at i x (cont s) /\
    exists z, shown s' = cont s' ++ [z] /\
      (i <= k -> nth_error (cont s') k = Some z) /\ (k < i -> z = x).
  Proof.
    intros (R & D) T P Li Ln. unfold due in D. rewrite T, P in D. destruct D as [V Lk].
    change (run (EIns i x :: Tell :: repeat Go n) s) with (run (repeat Go n) (tell (step s (EIns i x)))).
    cbn [step]. rewrite T.
    rewrite (tell_ins _ x i) by (cbn [edit told at_]; rewrite ?P; reflexivity).
    set (s1 := item_inserted _ x i).
    assert (C1 : cont s1 = insert_at i x (cont s)) by reflexivity.
    assert (S1 : shown s1 = firstn i (shown s) ++ x :: skipn i (shown s)) by (exact (shown_inserted A (set_told None (edit (insert_at i x (cont s)) (NIns x i) s)) x i)).
    destruct (walk_shown s1 k n) as (P' & R' & C' & _ & I).
    { exact P. }
    { rewrite C1, insert_at_length. lia. }
    cbv zeta. split; [exact P'|]. split; [rewrite R'; exact R|]. split; [rewrite C'; exact C1|].
    rewrite I, C', C1, S1, V.
    destruct (Nat.le_gt_cases i k) as [Le|Gt].
    - destruct (nth_error (insert_at i x (cont s)) k) as [z|] eqn:Ez.
      2: { apply nth_error_None in Ez. rewrite insert_at_length in Ez. lia. }
      exists z. split; [|split; [reflexivity|lia]].
      change (firstn i (firstn k (cont s)) ++ x :: skipn i (firstn k (cont s))) with (insert_at i x (firstn k (cont s))).
      rewrite firstn_insert_behind by assumption.
      rewrite firstn_firstn, Nat.min_l by lia. rewrite (firstn_S_nth _ _ _ _ Ez).
      rewrite (skipn_app k (firstn k (insert_at i x (cont s)))). rewrite (skipn_all2 (n := k) (firstn k (insert_at i x (cont s)))) by (rewrite firstn_length; lia).
      rewrite firstn_length, insert_at_length, Nat.min_l by lia. rewrite Nat.sub_diag. cbn [skipn app].
      rewrite app_assoc, firstn_skipn. reflexivity.
    - exists x. split; [|split; [lia|reflexivity]].
      rewrite (firstn_all2 (n := i)), (skipn_all2 (n := i)) by (rewrite firstn_length; lia).
      assert (LF : length (firstn k (cont s)) = k) by (rewrite firstn_length; lia).
      rewrite firstn_app, skipn_app, LF, Nat.sub_diag.
      rewrite (firstn_all2 (n := k) (firstn k (cont s))), (skipn_all2 (n := k) (firstn k (cont s))) by lia.
      cbn [firstn skipn app]. rewrite app_nil_r.
      rewrite <- (firstn_insert_ahead A (cont s) k i x) by lia.
      rewrite app_assoc, firstn_skipn. reflexivity.
  Qed.

  Lemma inserted_put s k y i x n :
    inv A s -> told s = None -> at_ s = Put k y -> i <= length (cont s) ->
    2 * length (cont s) + 4 <= n ->
    let s' := run (EIns i x :: Tell :: repeat Go n) s in
    at_ s' = On /\ raised s' = [] /\ cont s' = insert_at i x (cont s) /\
    (k < i -> shown s' = cont s' ++ [x]) /\
    (i <= k -> exists z, nth_error (cont s') k = Some z /\ nth_error (cont s') (S k) = Some y /\
       shown s' = firstn k (cont s') ++ y :: skipn (S k) (cont s') ++ [z]).
  Proof.
    intros (R & D) T P Li Ln. unfold due in D. rewrite T, P in D. destruct D as [V Ey].
    assert (Lk : k < length (cont s)) by (apply nth_error_Some; rewrite Ey; discriminate).
    change (run (EIns i x :: Tell :: repeat Go n) s) with (run (repeat Go n) (tell (step s (EIns i x)))).
    cbn [step]. rewrite T.
    rewrite (tell_ins _ x i) by (cbn [edit told at_]; rewrite ?P; reflexivity).
    destruct n as [|n]; [lia|]. rewrite run_go. set (s1 := item_inserted _ x i).
    assert (P1 : at_ s1 = Put k y) by exact P.
    unfold go. rewrite P1. set (s2 := set_at (Loop (S k)) (item_inserted s1 y k)).
    assert (C2 : cont s2 = insert_at i x (cont s)) by reflexivity.
    assert (S1 : shown s1 = firstn i (shown s) ++ x :: skipn i (shown s)) by (exact (shown_inserted A (set_told None (edit (insert_at i x (cont s)) (NIns x i) s)) x i)).
    assert (S2 : shown s2 = firstn k (shown s1) ++ y :: skipn k (shown s1)) by (exact (shown_inserted A s1 y k)).
    destruct (walk_shown s2 (S k) n) as (P' & R' & C' & _ & I).
    { reflexivity. }
    { rewrite C2, insert_at_length. lia. }
    cbv zeta. split; [exact P'|]. split; [rewrite R'; exact R|]. split; [rewrite C'; exact C2|].
    assert (LF : length (firstn k (shown s1)) = k).
    { assert (L1 : length (shown s1) = S (length (shown s))).
      { rewrite S1. apply (insert_at_length i x (shown s)). }
      rewrite firstn_length, L1, V, firstn_length. lia. }
    assert (SH : shown (run (repeat Go n) s2) =
                 firstn k (shown s1) ++ y :: skipn (S k) (cont s2) ++ skipn k (shown s1)).
    { rewrite I, S2. rewrite firstn_app, skipn_app, LF. replace (S k - k) with 1 by lia.
      rewrite (firstn_all2 (n := S k) (firstn k (shown s1))), (skipn_all2 (n := S k) (firstn k (shown s1))) by lia. cbn [firstn skipn app].
      rewrite <- app_assoc. reflexivity. }
    rewrite SH, C', C2, S1, V. split.
    - intros Gt.
      rewrite (firstn_all2 (n := i)), (skipn_all2 (n := i)) by (rewrite firstn_length; lia).
      assert (LF2 : length (firstn k (cont s)) = k) by (rewrite firstn_length; lia).
      rewrite firstn_app, skipn_app, LF2, Nat.sub_diag.
      rewrite (firstn_all2 (n := k) (firstn k (cont s))), (skipn_all2 (n := k) (firstn k (cont s))) by lia.
      cbn [firstn skipn app]. rewrite app_nil_r.
      assert (Ey2 : nth_error (insert_at i x (cont s)) k = Some y).
      { rewrite nth_error_insert_at by exact Li. destruct (Nat.ltb_spec k i); [exact Ey|lia]. }
      rewrite (split_nth _ _ _ _ Ey2) at 2. rewrite firstn_insert_ahead by lia.
      rewrite <- app_assoc. reflexivity.
    - intros Le. destruct (nth_error (insert_at i x (cont s)) k) as [z|] eqn:Ez.
      2: { apply nth_error_None in Ez. rewrite insert_at_length in Ez. lia. }
      exists z. split; [reflexivity|]. split.
      { rewrite nth_error_insert_at by exact Li.
        destruct (Nat.ltb_spec (S k) i); [lia|]. destruct (Nat.eqb_spec (S k) i); [lia|].
        replace (S k - 1) with k by lia. exact Ey. }
      change (firstn i (firstn k (cont s)) ++ x :: skipn i (firstn k (cont s))) with (insert_at i x (firstn k (cont s))).
      rewrite firstn_insert_behind by lia.
      rewrite firstn_firstn, Nat.min_l by lia. rewrite (firstn_S_nth _ _ _ _ Ez).
      rewrite (skipn_app k). rewrite (skipn_all2 (n := k) (firstn k _)) by (rewrite firstn_length; lia).
      rewrite firstn_length, insert_at_length, Nat.min_l by lia. rewrite Nat.sub_diag. reflexivity.
  Qed.

  Lemma removed_loop s k i n :
    inv A s -> told s = None -> at_ s = Loop k -> i < k -> 2 * length (cont s) + 4 <= n ->
    let s' := run (ERem i :: Tell :: repeat Go n) s in
    at_ s' = On /\ raised s' = [] /\ cont s' = delete_at i (cont s) /\
    shown s' = delete_at (k - 1) (cont s').
  Proof.
    intros (R & D) T P Li Ln. unfold due in D. rewrite T, P in D. destruct D as [V Lk].
    change (run (ERem i :: Tell :: repeat Go n) s) with (run (repeat Go n) (tell (step s (ERem i)))).
    cbn [step]. rewrite T.
    destruct (nth_error (cont s) i) as [x|] eqn:Ex; [|apply nth_error_None in Ex; lia].
    unfold tell. cbn [edit told at_]. rewrite P. cbn [hears_rem].
    set (s0 := set_told None _).
    destruct (removed_in A s0 i) as (b & _ & E).
    { change (items s0) with (items s). rewrite <- shown_length, V, firstn_length. lia. }
    rewrite E. cbn [fst]. set (s1 := mkSt _ _ _ _ _ _ _ _).
    assert (C1 : cont s1 = delete_at i (cont s)) by reflexivity.
    assert (S1 : shown s1 = delete_at i (shown s)) by apply map_delete_at.
    assert (Lc : length (delete_at i (cont s)) = length (cont s) - 1) by (apply delete_at_length; lia).
    destruct (walk_shown s1 k n) as (P' & R' & C' & _ & I).
    { exact P. }
    { rewrite C1. lia. }
    cbv zeta. split; [exact P'|]. split; [rewrite R'; exact R|]. split; [rewrite C'; exact C1|].
    rewrite I, C', C1, S1, V. rewrite firstn_delete_before by lia.
    rewrite (firstn_all2 (n := k)), (skipn_all2 (n := k) (firstn (k - 1) _)) by (rewrite firstn_length; lia).
    rewrite app_nil_r. unfold delete_at at 3. replace (S (k - 1)) with k by lia. reflexivity.
  Qed.

  Lemma attach_walk s n :
    at_ s = Off -> 2 * length (cont s) + 2 <= n ->
    let s' := run (Attach :: repeat Go n) s in
    at_ s' = On /\ raised s' = raised s /\ cont s' = cont s /\ told s' = told s /\
    shown s' = cont s ++ shown s.
  Proof.
    intros P L. change (run (Attach :: repeat Go n) s) with (run (repeat Go n) (step s Attach)).
    cbn [step]. rewrite P. destruct n as [|n]; [lia|]. rewrite run_go. unfold go. cbn [set_at at_].
    set (s1 := set_at (Loop 0) _).
    destruct (walk_shown s1 0 n) as (P' & R & C & T & I); [reflexivity|change (cont s1) with (cont s); lia|].
    simpl. rewrite P', R, C, T, I. auto.
  Qed.

  (** Taking the items out again. *)
  Lemma drop_all l : forall s n,
    at_ s = Drop l -> length l < n ->
    let s' := run (repeat Go n) s in
    items s' = firstn (length (items s) - length l) (items s) /\ cont s' = cont s /\ told s' = told s /\
    if length l <=? length (items s) then at_ s' = Off /\ raised s' = raised s
    else at_ s' = Stuck /\ raised s' = IndexError :: raised s.
  Proof.
    induction l as [|x l IH]; intros s n P L.
    - destruct n as [|n]; [simpl in L; lia|]. rewrite run_go. unfold go. rewrite P.
      simpl. rewrite run_off by reflexivity. cbn [set_at items cont told at_ raised].
      rewrite Nat.sub_0_r, firstn_all. auto.
    - destruct n as [|n]; [simpl in L; lia|]. rewrite run_go. unfold go. rewrite P.
      destruct (items s) as [|b0 m0] eqn:EI.
      + rewrite <- EI. rewrite removed_none by exact EI. simpl. rewrite run_stuck by reflexivity.
        cbn [set_at raise items cont told at_ raised]. rewrite EI. simpl. auto.
      + rewrite <- EI. destruct (removed_last A s) as (b & E); [congruence|]. rewrite E.
        set (s1 := set_at (Drop l) _). cbn [length] in L.
        destruct (IH s1 n) as (I & C & T & Q); [reflexivity|lia|].
        assert (LI : length (items s1) = length (items s) - 1).
        { cbn [s1 set_at items]. rewrite firstn_length. lia. }
        assert (LS : length (items s) = S (length m0)) by (rewrite EI; reflexivity).
        cbv zeta. rewrite I, C, T. split.
        { rewrite LI. cbn [s1 set_at items]. rewrite firstn_firstn. cbn [length]. f_equal. lia. }
        split; [reflexivity|]. split; [reflexivity|].
        rewrite LI in Q. cbn [length].
        destruct (Nat.leb_spec (length l) (length (items s) - 1)); destruct (Nat.leb_spec (S (length l)) (length (items s)));
          try lia; exact Q.
  Qed.

  Lemma detach_all s n :
    at_ s = On -> length (cont s) + 3 <= n ->
    let s' := run (Detach :: repeat Go n) s in
    items s' = firstn (length (items s) - length (cont s)) (items s) /\ cont s' = cont s /\ told s' = told s /\
    if length (cont s) <=? length (items s) then at_ s' = Off /\ raised s' = raised s
    else at_ s' = Stuck /\ raised s' = IndexError :: raised s.
  Proof.
    intros P L. change (run (Detach :: repeat Go n) s) with (run (repeat Go n) (step s Detach)).
    cbn [step]. rewrite P. destruct n as [|[|n]]; try lia. rewrite run_go. unfold go. cbn [set_at at_].
    rewrite run_go. unfold go. cbn [set_at at_ cont]. set (s1 := set_at (Drop _) _).
    destruct (drop_all (rev (cont s)) s1 n) as (I & C & T & Q); [reflexivity|rewrite rev_length; lia|].
    cbv zeta. rewrite I, C, T. rewrite rev_length in *. exact (conj eq_refl (conj eq_refl (conj eq_refl Q))).
  Qed.

  (** The account of mapped items. *)
  Definition account s : Prop :=
    Permutation (items s ++ gone s) (numbered 0 (made s)) /\ replay (said s) = items s.

  Lemma account_same s s' :
    items s' = items s -> gone s' = gone s -> made s' = made s -> said s' = said s -> account s -> account s'.
  Proof. intros E1 E2 E3 E4. unfold account. rewrite E1, E2, E3, E4. auto. Qed.

  Lemma account_inserted s x i : account s -> account (item_inserted s x i).
  Proof.
    intros (H & R). split.
    - cbn [items gone made item_inserted]. rewrite numbered_app. cbn [numbered length seq combine Nat.add].
      rewrite py_insert_split, <- app_assoc. cbn [app].
      apply Permutation_sym. eapply perm_trans; [apply Permutation_sym, Permutation_cons_append|].
      apply Permutation_cons_app. rewrite app_assoc, firstn_skipn. apply Permutation_sym, H.
    - cbn [said item_inserted replay items]. rewrite R. reflexivity.
  Qed.
  Lemma account_removed s i : account s -> account (fst (item_removed s i)).
  Proof.
    intros (H & R). unfold item_removed. destruct (py_index _ _) as [j|]; [|split; assumption].
    destruct (nth_error (items s) j) as [b|] eqn:E; [|split; assumption]. split.
    - cbn [fst items gone made]. eapply perm_trans; [|exact H].
      rewrite (split_nth _ _ _ _ E) at 2. unfold delete_at. rewrite <- !app_assoc. cbn [app].
      apply Permutation_app_head. apply Permutation_sym, Permutation_middle.
    - cbn [fst said items replay]. rewrite R. reflexivity.
  Qed.
  Lemma account_step s a : account s -> account (step s a).
  Proof.
    intros H. destruct a as [i x|i| | | |]; cbn [step].
    - destruct (told s); exact H.
    - destruct (told s); [exact H|]. destruct (nth_error (cont s) i); exact H.
    - unfold tell. destruct (told s) as [[x i|x i]|]; [| |exact H].
      + destruct (hears_ins (at_ s)); [apply account_inserted|]; exact H.
      + destruct (hears_rem (at_ s)); [apply account_removed|]; exact H.
    - destruct (at_ s); exact H.
    - destruct (at_ s); exact H.
    - unfold go. destruct (at_ s) as [| |k|k y| | | |[|y l]|]; try exact H.
      + destruct (nth_error (cont s) k); exact H.
      + apply (account_inserted s y k H).
      + pose proof (account_removed s (Z.of_nat (length (items s)) - 1) H) as Q.
        destruct (item_removed s (Z.of_nat (length (items s)) - 1)) as [s' [e|]]; exact Q.
  Qed.
  Lemma account_run l s : account s -> account (run l s).
  Proof.
    revert s. induction l as [|a l IH]; intros s H; [exact H|]. apply IH, account_step, H.
  Qed.
End Proofs2.
