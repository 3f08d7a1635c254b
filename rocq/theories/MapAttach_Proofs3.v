(** What stays behind, and insertions only. *)
From Coq Require Import ZArith Bool List Lia Permutation.
From Verif Require Import PyBase MapAttach_Model MapAttach_Spec MapAttach_Proofs.
Import ListNotations.
Open Scope nat_scope.

Section Proofs3.
  Variable A : Type.
  Implicit Types s : st A.

  (** What is shown at each place when [g] items stay behind. *)
  Definition gview (g : nat) (p : place A) (m c : list A) : Prop :=
    match p with
    | Off | Half => length m = g
    | Loop k => (exists gs, length gs = g /\ m = firstn k c ++ gs) /\ k <= length c
    | Put k x => (exists gs, length gs = g /\ m = firstn k c ++ gs) /\ nth_error c k = Some x
    | On | Deaf | Copy => exists gs, length gs = g /\ m = c ++ gs
    | Drop l => length m = length l + g
    | Stuck => False
    end.

  Definition gdue (g : nat) s : Prop :=
    match told s with
    | None => gview g (at_ s) (shown s) (cont s)
    | Some (NIns x i) => exists c0, cont s = insert_at i x c0 /\ i <= length c0 /\
        (at_ s = On \/ at_ s = Off) /\ gview g (at_ s) (shown s) c0
    | Some (NRem x i) => exists c0, cont s = delete_at i c0 /\ nth_error c0 i = Some x /\
        (at_ s = On \/ at_ s = Off) /\ gview g (at_ s) (shown s) c0
    end.
  Definition ginv (g : nat) s : Prop := raised s = [] /\ gdue g s.

  Lemma ginv_tell g s : ginv g s -> ginv g (tell s).
  Proof.
    intros (R & D). unfold tell. unfold gdue in D.
    destruct (told s) as [[x i|x i]|] eqn:T; [| |split; [exact R|]; unfold gdue; rewrite T; exact D].
    - destruct D as (c0 & C & Li & [P|P] & V); rewrite P in *; cbn [hears_ins].
      + split; [exact R|]. unfold gdue. cbn [set_told item_inserted told at_ cont]. rewrite P. simpl in *.
        destruct V as (gs & Lg & V). exists gs. split; [exact Lg|].
        rewrite shown_inserted. change (shown (set_told None s)) with (shown s). rewrite V, C.
        unfold insert_at. rewrite firstn_app, skipn_app. replace (i - length c0) with 0 by lia.
        simpl. rewrite app_nil_r, <- app_assoc. reflexivity.
      + split; [exact R|]. unfold gdue. cbn [set_told told at_ cont]. rewrite P. exact V.
    - destruct D as (c0 & C & E & [P|P] & V); rewrite P in *; cbn [hears_rem].
      + assert (Li : i < length c0) by (apply nth_error_Some; rewrite E; discriminate).
        simpl in V. destruct V as (gs & Lg & V).
        destruct (removed_in A (set_told None s) i) as (b & _ & E2).
        { change (items (set_told None s)) with (items s). rewrite <- shown_length, V, app_length. lia. }
        rewrite E2. cbn [fst]. split; [exact R|]. unfold gdue. cbn [set_told told at_ cont]. rewrite P. simpl.
        exists gs. split; [exact Lg|].
        unfold shown in *. cbn [items set_told]. rewrite map_delete_at, V, C.
        unfold delete_at. rewrite firstn_app, skipn_app. replace (i - length c0) with 0 by lia.
        replace (S i - length c0) with 0 by lia. cbn [firstn skipn]. rewrite app_nil_r, <- app_assoc. reflexivity.
      + split; [exact R|]. unfold gdue. cbn [set_told told at_ cont]. rewrite P. exact V.
  Qed.

  Lemma ginv_go g s : ginv g s -> told s = None -> ginv g (go s).
  Proof.
    intros (R & D) T. unfold gdue in D. rewrite T in D. unfold go.
    destruct (at_ s) as [| |k|k y| | | |[|y l]|] eqn:P; cbn [gview] in D; try contradiction.
    - split; [exact R|]. unfold gdue. rewrite T, P. exact D.
    - split; [exact R|]. unfold gdue. cbn [set_at told at_]. rewrite T. cbn [gview]. split; [|lia].
      exists (shown s). split; [exact D|reflexivity].
    - destruct D as [V L]. destruct (nth_error (cont s) k) as [x|] eqn:E.
      + split; [exact R|]. unfold gdue. cbn [set_at told at_]. rewrite T. cbn [gview]. auto.
      + split; [exact R|]. unfold gdue. cbn [set_at told at_]. rewrite T. cbn [gview].
        apply nth_error_None in E. destruct V as (gs & Lg & V). exists gs. split; [exact Lg|].
        change (shown (set_at On s)) with (shown s). rewrite V. cbn [cont set_at]. rewrite firstn_all2 by exact E. reflexivity.
    - destruct D as [(gs & Lg & V) E].
      assert (L : k < length (cont s)) by (apply nth_error_Some; rewrite E; discriminate).
      split; [exact R|]. unfold gdue. cbn [set_at item_inserted told at_ cont]. rewrite T. cbn [gview]. split; [|lia].
      exists gs. split; [exact Lg|].
      change (shown (set_at _ ?t)) with (shown t). rewrite shown_inserted, V.
      assert (LF : length (firstn k (cont s)) = k) by (rewrite firstn_length; lia).
      rewrite firstn_app, skipn_app, LF, Nat.sub_diag.
      rewrite (firstn_all2 (n := k) (firstn k (cont s))), (skipn_all2 (n := k) (firstn k (cont s))) by lia.
      change (cont (set_at _ (item_inserted s y k))) with (cont s).
      rewrite (firstn_S_nth _ _ _ _ E). cbn [firstn skipn app]. rewrite app_nil_r, <- app_assoc. reflexivity.
    - split; [exact R|]. unfold gdue. rewrite T, P. exact D.
    - split; [exact R|]. unfold gdue. cbn [set_at told at_]. rewrite T. exact D.
    - split; [exact R|]. unfold gdue. cbn [set_at told at_]. rewrite T. cbn [gview].
      destruct D as (gs & Lg & V). change (shown (set_at _ s)) with (shown s). rewrite V, app_length, rev_length. lia.
    - split; [exact R|]. unfold gdue. cbn [set_at told at_]. rewrite T. exact D.
    - assert (LM : length (items s) = S (length l) + g) by (rewrite <- shown_length; exact D).
      destruct (removed_last A s) as (b & E). { intros Q. rewrite Q in LM. discriminate. }
      rewrite E. split; [exact R|]. unfold gdue. cbn [set_at told at_ cont]. rewrite T. cbn [gview].
      rewrite shown_length. cbn [set_at items]. rewrite firstn_length. lia.
  Qed.

  Lemma ginv_step g s a : ginv g s -> still s a -> ginv g (step s a).
  Proof.
    intros I G. destruct a as [i x|i| | | |]; simpl in G.
    - destruct G as (T & Li & O). destruct I as (R & D). simpl. rewrite T.
      split; [exact R|]. unfold gdue in *. rewrite T in D. simpl. exists (cont s). auto.
    - destruct G as (T & Li & O). destruct I as (R & D). simpl. rewrite T.
      destruct (nth_error (cont s) i) as [x|] eqn:E; [|apply nth_error_None in E; lia].
      split; [exact R|]. unfold gdue in *. rewrite T in D. simpl. exists (cont s). auto.
    - apply ginv_tell, I.
    - destruct I as (R & D). unfold gdue in D. rewrite G in D. simpl.
      destruct (at_ s) eqn:P;
        try (split; [exact R|]; unfold gdue; rewrite G, P; exact D).
      + split; [exact R|]. unfold gdue. simpl. rewrite G. exact D.
      + contradiction.
    - destruct I as (R & D). unfold gdue in D. rewrite G in D. simpl.
      destruct (at_ s) eqn:P;
        try (split; [exact R|]; unfold gdue; rewrite G, P; exact D).
      + split; [exact R|]. unfold gdue. simpl. rewrite G. exact D.
      + contradiction.
    - apply ginv_go; assumption.
  Qed.
  Lemma ginv_run g l s : ginv g s -> always still s l -> ginv g (run l s).
  Proof.
    revert s. induction l as [|a l IH]; intros s I G; [exact I|].
    destruct G as [G1 G2]. apply IH; [apply ginv_step; assumption|exact G2].
  Qed.

  (** Insertions only: [n] were told in the walk so far. *)
  Definition pend s : list A := match told s with Some (NIns x _) => [x] | _ => [] end.

  Definition kinv (n : nat) s : Prop :=
    raised s = [] /\ (forall x i, told s <> Some (NRem x i)) /\
    match at_ s with
    | Half => length (items s) + length (pend s) = n
    | Loop k => length (items s) + length (pend s) = k + n /\ k <= length (cont s) /\ incl (firstn k (cont s)) (shown s ++ pend s)
    | Put k y => length (items s) + length (pend s) = k + n /\ k < length (cont s) /\
        incl (firstn (S k) (cont s)) (y :: shown s ++ pend s)
    | On => length (items s) + length (pend s) = length (cont s) + n /\ incl (cont s) (shown s ++ pend s)
    | _ => False
    end.

  Lemma incl_firstn_insert k i (x : A) l L :
    incl (firstn k l) L -> In x L -> incl (firstn k (insert_at i x l)) L.
  Proof.
    intros H X y Hy. unfold insert_at in Hy. rewrite firstn_app in Hy. apply in_app_or in Hy.
    destruct Hy as [Hy|Hy].
    - rewrite firstn_firstn in Hy. apply H.
      rewrite <- (firstn_skipn (Nat.min k i) (firstn k l)). apply in_or_app. left.
      rewrite firstn_firstn, Nat.min_l by lia. exact Hy.
    - destruct (k - length (firstn i l)) as [|d] eqn:E; [contradiction|]. simpl in Hy.
      destruct Hy as [<-|Hy]; [exact X|]. apply H.
      destruct (Nat.le_gt_cases (length l) i) as [Q|Q].
      { rewrite skipn_all2 in Hy by exact Q. rewrite firstn_nil in Hy. contradiction. }
      rewrite firstn_length, Nat.min_l in E by lia.
      rewrite <- (firstn_skipn i (firstn k l)). apply in_or_app. right.
      rewrite skipn_firstn_comm. replace (k - i) with (S d) by lia.
      rewrite <- (firstn_skipn d (firstn (S d) (skipn i l))). apply in_or_app. left.
      rewrite firstn_firstn, Nat.min_l by lia. exact Hy.
  Qed.

  Lemma incl_insert i (x : A) l L : incl l L -> In x L -> incl (insert_at i x l) L.
  Proof.
    intros H X y Hy. unfold insert_at in Hy. apply in_app_or in Hy. simpl in Hy.
    rewrite <- (firstn_skipn i l) in H.
    destruct Hy as [Hy|[<-|Hy]]; [apply H, in_or_app; left; exact Hy|exact X|apply H, in_or_app; right; exact Hy].
  Qed.

  Lemma shown_ins_incl s x i y : In y (shown s) \/ y = x -> In y (shown (item_inserted s x i)).
  Proof.
    rewrite shown_inserted, in_app_iff. simpl. rewrite <- (firstn_skipn i (shown s)) at 1.
    rewrite in_app_iff. intuition.
  Qed.
  Lemma items_ins_length s x i : length (items (item_inserted s x i)) = S (length (items s)).
  Proof. cbn [items item_inserted]. apply insert_at_length. Qed.

  Lemma kinv_step n s a : kinv n s -> growing a -> kinv (n + late s a) (step s a).
  Proof.
    intros (R & NR & D) G. destruct a as [i x|i| | | |]; simpl in G; try contradiction.
    - cbn [step]. unfold late.
      destruct (told s) as [t|] eqn:T.
      { rewrite Nat.add_0_r. split; [exact R|]. split; [rewrite T; exact NR|exact D]. }
      split; [exact R|]. split; [discriminate|]. cbn [edit at_ items cont].
      unfold pend in D. rewrite T in D. cbn [length] in D.
      assert (PE : pend (edit (insert_at i x (cont s)) (NIns x i) s) = [x]) by reflexivity. rewrite PE. cbn [length].
      change (shown (edit _ _ s)) with (shown s). rewrite app_nil_r in *.
      destruct (at_ s) as [| |k|k y| | | |l|]; try contradiction.
      + lia.
      + destruct D as (L & Lk & I). split; [lia|]. split; [rewrite insert_at_length; lia|].
        apply incl_firstn_insert; [intros y Hy; apply in_or_app; left; apply I, Hy|apply in_or_app; right; left; reflexivity].
      + destruct D as (L & Lk & I). split; [lia|]. split; [rewrite insert_at_length; lia|].
        apply incl_firstn_insert.
        * intros z Hz. destruct (I z Hz) as [Q|Q]; [left; exact Q|right; apply in_or_app; left; exact Q].
        * right. apply in_or_app. right. left. reflexivity.
      + destruct D as (L & I). rewrite insert_at_length. split; [lia|].
        apply incl_insert; [intros y Hy; apply in_or_app; left; apply I, Hy|apply in_or_app; right; left; reflexivity].
    - replace (n + late s Tell) with n by (simpl; lia). cbn [step]. unfold tell.
      destruct (told s) as [[x i|x i]|] eqn:T; [|exfalso; apply (NR x i); reflexivity|].
      2: { split; [exact R|]. split; [rewrite T; discriminate|exact D]. }
      unfold pend in D. rewrite T in D. cbn [length] in D.
      assert (INC : forall L, incl L (shown s ++ [x]) -> incl L (shown (item_inserted (set_told None s) x i) ++ [])).
      { intros L H y Hy. rewrite app_nil_r. apply shown_ins_incl. change (shown (set_told None s)) with (shown s).
        specialize (H y Hy). apply in_app_or in H. simpl in H. intuition. }
      assert (PE : forall s0, told s0 = None -> pend s0 = []) by (intros s0 E0; unfold pend; rewrite E0; reflexivity).
      pose proof (items_ins_length (set_told None s) x i) as LI. change (items (set_told None s)) with (items s) in LI.
      assert (CO : cont (item_inserted (set_told None s) x i) = cont s) by reflexivity.
      destruct (at_ s) as [| |k|k y| | | |l|] eqn:P; try contradiction; cbn [hears_ins];
        (split; [exact R|]); (split; [discriminate|]);
        change (at_ (item_inserted (set_told None s) x i)) with (at_ s); rewrite P, LI, PE by reflexivity; cbn [length]; rewrite ?CO.
      + lia.
      + destruct D as (L & Lk & I). split; [lia|]. split; [exact Lk|]. apply INC, I.
      + destruct D as (L & Lk & I). split; [lia|]. split; [exact Lk|].
        intros z Hz. destruct (I z Hz) as [Q|Q]; [left; exact Q|right].
        apply (INC [z]); [intros w [<-|[]]; exact Q|left; reflexivity].
      + destruct D as (L & I). split; [lia|]. apply INC, I.
    - replace (n + late s Go) with n by (simpl; lia). cbn [step]. unfold go.
      destruct (at_ s) as [| |k|k y| | | |l|] eqn:P; try contradiction.
      + split; [exact R|]. split; [exact NR|]. cbn [set_at at_ items cont]. split; [exact D|]. split; [lia|].
        intros z [].
      + destruct D as (L & Lk & I). destruct (nth_error (cont s) k) as [x|] eqn:E.
        * split; [exact R|]. split; [exact NR|]. cbn [set_at at_ items cont]. split; [exact L|].
          split; [apply nth_error_Some; rewrite E; discriminate|]. rewrite (firstn_S_nth _ _ _ _ E).
          intros z Hz. apply in_app_or in Hz. destruct Hz as [Hz|[<-|[]]]; [right; exact (I z Hz)|left; reflexivity].
        * apply nth_error_None in E. split; [exact R|]. split; [exact NR|]. cbn [set_at at_ items cont].
          rewrite firstn_all2 in I by exact E.
          change (pend (set_at On s)) with (pend s). split; [lia|exact I].
      + destruct D as (L & Lk & I). split; [exact R|]. split; [exact NR|].
        cbn [set_at at_]. change (pend (set_at _ (item_inserted s y k))) with (pend s).
        change (cont (set_at _ (item_inserted s y k))) with (cont s).
        change (items (set_at _ (item_inserted s y k))) with (items (item_inserted s y k)).
        change (shown (set_at _ (item_inserted s y k))) with (shown (item_inserted s y k)).
        rewrite items_ins_length. split; [lia|]. split; [lia|].
        intros z Hz. apply in_or_app. destruct (I z Hz) as [Q|Q].
        * left. apply shown_ins_incl. right. symmetry. exact Q.
        * apply in_app_or in Q. destruct Q as [Q|Q]; [left; apply shown_ins_incl; left; exact Q|right; exact Q].
      + split; [exact R|]. split; [exact NR|]. rewrite P. exact D.
  Qed.

  Lemma kinv_run l : forall n s, kinv n s -> Forall growing l -> kinv (n + lates s l) (run l s).
  Proof.
    induction l as [|a l IH]; intros n s K F; [rewrite Nat.add_0_r; exact K|].
    inversion F as [|? ? G F']; subst. cbn [lates]. rewrite Nat.add_assoc.
    apply IH; [apply kinv_step; assumption|exact F'].
  Qed.
End Proofs3.
