(** More proofs about lists sorted by keys that raise or cannot be compared: the steps. *)
From Coq Require Import List ZArith Bool Arith Permutation Sorted Lia.
From Verif Require Import PyBase Filtered_Model Filtered_Spec Filtered_Proofs Filtered_Proofs2 FiltFail_Proofs.
From Verif Require Import SortFail_Model SortFail_Spec SortFail_Proofs.
Import ListNotations.

Section Proofs.
  Context {A K : Type} (A_dec : forall a b : A, {a = b} + {a <> b}) (lt : K -> K -> bool) (cls : K -> nat).
  Hypothesis lt_swo : strict_weak_order lt.
  Notation sstate := (sstate A K).
  Notation sop := (sop A K).
  Notation place_for := (place_for lt cls).
  Notation inserted_item := (inserted_item lt cls).
  Notation removed_item := (removed_item A_dec (K := K)).
  Notation updated_item := (updated_item A_dec lt cls).
  Notation insert_all := (insert_all lt cls).
  Notation update_all := (update_all A_dec lt cls).
  Notation sort_all := (sort_all lt cls).
  Notation s_step := (s_step A_dec lt cls).
  Notation s_run := (s_run A_dec lt cls).
  Notation agrees := (agrees (A := A) cls).
  Notation sortable := (sortable (A := A) cls).
  Notation in_order := (in_order (A := A) lt).
  Implicit Types s : sstate.

  Definition wf s : Prop :=
    s_master s = s_cont s /\ NoDup (s_cont s) /\ NoDup (s_items s) /\ (forall x, In x (s_items s) -> In x (s_cont s)) /\
    (forall x, In x (s_listen s) <-> In x (s_cont s)).
  Definition tidy s : Prop := sortable (s_key s) (s_items s) /\ in_order (s_rev s) (s_key s) (s_items s).

  Lemma sortable_perm key (l l' : list A) : Permutation l l' -> sortable key l -> sortable key l'.
  Proof.
    intros P S. eapply sortable_sub; [|rewrite (Permutation_length P); reflexivity|exact S]. intros x Hx.
    eapply Permutation_in; [symmetry; exact P|exact Hx].
  Qed.
  Lemma insert_all_ok s xs : forall items, sortable (s_key s) (xs ++ items) ->
    exists it t, insert_all s xs items = (it, t, None) /\ Permutation it (xs ++ items) /\
                 (in_order (s_rev s) (s_key s) items -> in_order (s_rev s) (s_key s) it).
  Proof.
    induction xs as [|x xs IH]; intros items S; cbn [SortFail_Model.insert_all app].
    { exists items, []. split; [reflexivity|]. split; [reflexivity|auto]. }
    assert (Sx : sortable (s_key s) (x :: items)).
    { eapply sortable_sub; [| |exact S]; [|simpl; rewrite app_length; lia]. intros y [<-|Hy]; [left; reflexivity|right; apply in_or_app; auto]. }
    assert (Si : sortable (s_key s) items). { eapply sortable_sub; [| |exact Sx]; [|simpl; lia]. intros y Hy. right. exact Hy. }
    assert (P : exists k, place_for s items x = Ok k).
    { destruct Sx as [S1 S2]. destruct (S1 x) as (d & Hd); [left; reflexivity|]. destruct items as [|y items].
      - exists 0. eapply place_nil. exact Hd.
      - destruct S2 as [S2|S2]; [simpl in S2; lia|]. eexists. apply place_ok; [|exact Hd].
        intros z Hz. apply S2; [right; exact Hz|left; reflexivity]. }
    destruct P as (k & P). rewrite P.
    assert (Q : Permutation ((x :: xs) ++ items) (xs ++ insert_at k x items)).
    { rewrite insert_at_perm. apply Permutation_middle. }
    destruct (IH (insert_at k x items)) as (it & t & -> & Pi & O).
    { eapply sortable_perm; [exact Q|exact S]. }
    exists it. eexists. split; [reflexivity|]. split; [rewrite Pi; symmetry; exact Q|].
    intros H. apply O. apply (place_order lt cls lt_swo s items x k Si H P).
  Qed.

  Lemma update_spec ord s : wf s -> (forall l, Permutation (ord l) l) ->
    (sortable (s_key s) (s_cont s) -> exists it t,
       update_all ord s = (Ss (s_cont s) (s_master s) (s_listen s) it true (s_filter s) (s_rev s) (s_key s), t, None) /\
       Permutation it (filter (s_filter s) (s_cont s)) /\
       ((s_sorted s = true -> in_order (s_rev s) (s_key s) (s_items s)) -> in_order (s_rev s) (s_key s) it)) /\
    (~ sortable (s_key s) (s_cont s) -> exists e, update_all ord s = (s, [], Some e)).
  Proof.
    intros (M & N & NI & I & L) Hord. unfold SortFail_Model.update_all.
    assert (ND : nodupb A_dec (s_master s) = true) by (apply nodupb_spec; rewrite M; exact N). rewrite ND. cbn [negb].
    destruct (sort_all_spec lt cls lt_swo s) as [Sok Serr]. rewrite M in Sok, Serr. split.
    2:{ intros H. destruct (Serr H) as (e & ->). eauto. }
    intros H. destruct (Sok H) as (l & -> & P & O).
    assert (NN : NoDup (filter (s_filter s) l)).
    { apply NoDup_filter. eapply Permutation_NoDup; [symmetry; exact P|exact N]. }
    destruct (s_sorted s).
    - destruct (rem_loop _ (s_items s) 0 0 (s_items s)) as [it1 t1] eqn:E1.
      pose proof (rem_loop_spec (fun x => negb (inb A_dec x (filter (s_filter s) l))) (s_items s) [] 0 0 eq_refl (le_n 0)) as R.
      cbv zeta in R. cbn [app] in R. rewrite E1 in R. cbn [fst] in R.
      set (xs := ord _).
      assert (Q : Permutation (xs ++ it1) (filter (s_filter s) l)).
      { unfold xs. rewrite Hord. rewrite R. apply NoDup_Permutation.
        - apply NoDup_app_intro; [apply NoDup_filter; exact NN|apply NoDup_filter; exact NI|].
          intros x Hx Hy. apply filter_In in Hx as [_ Hx]. apply filter_In in Hy as [Hy _]. apply negb_inb in Hx. exact (Hx Hy).
        - exact NN.
        - intros x. rewrite in_app_iff, !filter_In, negb_involutive. rewrite negb_inb, inb_spec, filter_In.
          destruct (in_dec A_dec x (s_items s)); tauto. }
      destruct (insert_all_ok s xs it1) as (it & t & -> & Pi & Oi).
      { eapply sortable_perm; [symmetry; exact Q|]. eapply sortable_sub; [| |exact H].
        - intros x Hx. apply filter_In in Hx as [Hx _]. eapply Permutation_in; [exact P|exact Hx].
        - rewrite <- (Permutation_length P). clear. induction l as [|x l IH]; simpl; [lia|]. destruct (s_filter s x); simpl; lia. }
      exists it. eexists. split; [reflexivity|]. split.
      + rewrite Pi, Q. apply filter_perm. exact P.
      + intros X. apply Oi. rewrite R. apply in_order_filter. apply X. reflexivity.
    - pose proof (append_loop_spec (filter (s_filter s) l) []) as R.
      destruct (append_loop _ []) as [it2 t2]. cbn [fst app] in R. exists it2. eexists. split; [reflexivity|]. subst it2. split.
      + apply filter_perm. exact P.
      + intros _. apply in_order_filter. exact O.
  Qed.

  Lemma settle_spec s f b key : wf s ->
    (sortable key (s_cont s) -> exists it t,
       settle A_dec lt cls s f b key = (Ss (s_cont s) (s_master s) (s_listen s) it true f b key, t, None) /\
       Permutation it (filter f (s_cont s)) /\ in_order b key it) /\
    (~ sortable key (s_cont s) -> exists e,
       settle A_dec lt cls s f b key = (Ss (s_cont s) (s_master s) (s_listen s) (s_items s) false f b key, [FReset], Some e)).
  Proof.
    intros W. unfold settle. set (s1 := Ss (s_cont s) (s_master s) (s_listen s) (s_items s) false f b key).
    destruct (update_spec (fun l => l) s1) as [U1 U2]; [exact W|reflexivity|]. split; intros H.
    - destruct (U1 H) as (it & t & E & P & O). rewrite E. exists it. eexists. split; [reflexivity|]. split; [exact P|]. apply O. discriminate.
    - destruct (U2 H) as (e & E). rewrite E. eauto.
  Qed.

  (** removing and inserting one item *)
  Lemma removed_spec s x s' t : removed_item s x = (s', t) ->
    (In x (s_items s) /\ exists l1 l2, s_items s = l1 ++ x :: l2 /\ ~ In x l1 /\ s' = put_items s (l1 ++ l2)) \/ (~ In x (s_items s) /\ s' = s /\ t = []).
  Proof.
    unfold SortFail_Model.removed_item. destruct (index_of A_dec x (s_items s)) as [k|] eqn:E; intros [= <- <-].
    - apply index_of_some in E. destruct E as (l1 & l2 & E & <- & N). left. rewrite E. split; [apply in_or_app; right; left; reflexivity|].
      exists l1, l2. split; [reflexivity|]. split; [exact N|]. rewrite delete_at_app. reflexivity.
    - right. apply index_of_none in E. auto.
  Qed.
  Lemma nodup_out (l1 l2 : list A) x : NoDup (l1 ++ x :: l2) -> NoDup (l1 ++ l2) /\ ~ In x (l1 ++ l2).
  Proof. intros H. split; [eapply NoDup_remove_1; exact H|eapply NoDup_remove_2; exact H]. Qed.
  Lemma removed_in s x s' t : NoDup (s_items s) -> removed_item s x = (s', t) ->
    s' = put_items s (s_items s') /\ NoDup (s_items s') /\ (forall y, In y (s_items s') <-> In y (s_items s) /\ y <> x) /\
    (tidy s -> tidy s').
  Proof.
    intros N E. destruct (removed_spec _ _ _ _ E) as [(Hx & l1 & l2 & E1 & N1 & ->)|(Hx & -> & ->)].
    - cbn [put_items s_items]. rewrite E1 in *. apply nodup_out in N as [N2 N3]. split; [reflexivity|]. split; [exact N2|]. split.
      + intros y. rewrite !in_app_iff. rewrite in_app_iff in N3. simpl. split; [intros H; split; [tauto|intros ->; tauto]|].
        intros [[H|[H|H]] H2]; [auto|congruence|auto].
      + intros [S O]. unfold tidy. cbn [put_items s_items s_key s_rev]. rewrite E1 in S, O. split; [|eapply in_order_sub; exact O].
        eapply sortable_sub; [| |exact S]; [|rewrite !app_length; simpl; lia]. intros y. rewrite !in_app_iff. simpl. tauto.
    - split; [destruct s; reflexivity|]. split; [exact N|]. split; [|auto]. intros y. split; [|tauto]. intros H. split; [exact H|]. intros ->. auto.
  Qed.
  Lemma inserted_in s x s' t e : NoDup (s_items s) -> ~ In x (s_items s) -> inserted_item s x = (s', t, e) ->
    s' = put_items s (s_items s') /\ NoDup (s_items s') /\ (forall y, In y (s_items s) -> In y (s_items s')) /\
    (forall y, In y (s_items s') -> In y (s_items s) \/ y = x) /\
    (In x (s_items s') -> s_filter s x = true /\ (exists a, s_key s x = Ok a) /\ e = None /\ Permutation (s_items s') (x :: s_items s)) /\
    (~ In x (s_items s') -> s' = s /\ t = [] /\ (s_filter s x = false <-> e = None)) /\
    (tidy s -> tidy s' /\ (In x (s_items s') <-> s_filter s x = true /\ (exists a, s_key s x = Ok a) /\ forall y, In y (s_items s) -> agrees (s_key s) y x)).
  Proof.
    intros N Hx. unfold SortFail_Model.inserted_item. destruct (s_filter s x) eqn:F.
    - destruct (place_for s (s_items s) x) as [k|e1] eqn:P; intros [= <- <- <-]; cbn [put_items s_items].
      + pose proof (insert_at_perm k x (s_items s)) as Q. split; [reflexivity|]. split.
        { eapply Permutation_NoDup; [symmetry; exact Q|]. constructor; assumption. }
        assert (X : In x (insert_at k x (s_items s))). { eapply Permutation_in; [symmetry; exact Q|left; reflexivity]. }
        destruct (place_key _ _ _ _ _ _ P) as (a & Ha).
        split; [|split; [|split; [|split]]].
        * intros y Hy. eapply Permutation_in; [symmetry; exact Q|right; exact Hy].
        * intros y Hy. eapply Permutation_in in Hy; [|exact Q]. destruct Hy; auto.
        * intros _. split; [reflexivity|]. split; [eauto|]. split; [reflexivity|exact Q].
        * intros H. tauto.
        * intros [S O]. destruct (place_order lt cls lt_swo s (s_items s) x k S O P) as (S' & O' & G). split; [split; [exact S'|exact O']|].
          split; [|auto]. intros _. split; [reflexivity|]. split; [eauto|exact G].
      + split; [destruct s; reflexivity|]. split; [exact N|]. split; [auto|]. split; [auto|]. split; [tauto|]. split.
        { intros _. split; [reflexivity|]. split; [reflexivity|]. split; discriminate. }
        intros T. split; [exact T|]. split; [tauto|]. intros (_ & (a & Ha) & G). rewrite (place_ok lt cls s (s_items s) x G a Ha) in P. discriminate.
    - intros [= <- <- <-]. split; [destruct s; reflexivity|]. split; [exact N|]. split; [auto|]. split; [auto|]. split; [tauto|]. split.
      { intros _. split; [reflexivity|]. split; [reflexivity|]. split; auto. }
      intros T. split; [exact T|]. split; [tauto|]. intros (G & _). discriminate G.
  Qed.
  Lemma updated_in s x s' t e : NoDup (s_items s) -> updated_item s x = (s', t, e) ->
    s' = put_items s (s_items s') /\ NoDup (s_items s') /\ (forall y, y <> x -> In y (s_items s) <-> In y (s_items s')) /\
    (s_filter s x = false -> ~ In x (s_items s')) /\
    (tidy s -> tidy s' /\ (s_filter s x = true -> (In x (s_items s') <-> In x (s_items s) \/ ((exists a, s_key s x = Ok a) /\ forall y, In y (s_items s) -> agrees (s_key s) y x)))).
  Proof.
    intros N. unfold SortFail_Model.updated_item. destruct (s_filter s x) eqn:F.
    - destruct (place_for s (s_items s) x) as [before|e1] eqn:P.
      + destruct (index_of A_dec x (s_items s)) as [i|] eqn:Ei.
        * assert (X : In x (s_items s)). { destruct (in_dec A_dec x (s_items s)) as [H|H]; [exact H|]. apply (index_of_none A_dec) in H. congruence. }
          destruct (before =? i).
          -- intros [= <- <- <-]. split; [destruct s; reflexivity|]. split; [exact N|]. split; [reflexivity|]. split; [discriminate|]. intros T. split; [exact T|].
             intros _. tauto.
          -- destruct (removed_item s x) as [s1 t1] eqn:E1. destruct (inserted_item s1 x) as [[s2 t2] e2] eqn:E2. intros [= <- <- <-].
             destruct (removed_in _ _ _ _ N E1) as (R1 & R2 & R3 & R4).
             assert (Nx : ~ In x (s_items s1)) by (intros H; apply R3 in H; tauto).
             destruct (inserted_in _ _ _ _ _ R2 Nx E2) as (I1 & I2 & I3 & I4 & I5 & I6 & I7).
             split. { rewrite I1, R1. reflexivity. }
             split; [exact I2|]. split.
             { intros y Hy. split; intros H; [apply I3, R3; auto|]. destruct (I4 _ H) as [H'|H']; [apply R3 in H'; tauto|congruence]. }
             split; [discriminate|]. intros T. destruct (I7 (R4 T)) as [T2 Q]. split; [exact T2|]. intros _. split; [auto|].
             intros _. apply Q. rewrite R1. cbn [put_items s_filter s_key s_items]. split; [exact F|].
             split; [eapply place_key; exact P|]. intros y Hy. apply R3 in Hy as [Hy _]. destruct T as [S O].
             apply (place_order lt cls lt_swo s (s_items s) x before S O P). exact Hy.
        * apply index_of_none in Ei. intros E2. destruct (inserted_in _ _ _ _ _ N Ei E2) as (I1 & I2 & I3 & I4 & I5 & I6 & I7).
          split; [exact I1|]. split; [exact I2|]. split.
          { intros y Hy. split; [apply I3|]. intros H. destruct (I4 _ H); tauto. }
          split; [discriminate|]. intros T. destruct (I7 T) as [T2 Q]. split; [exact T2|]. intros _. rewrite Q. split; [tauto|]. intros [H|H]; tauto.
      + intros [= <- <- <-]. split; [destruct s; reflexivity|]. split; [exact N|]. split; [reflexivity|]. split; [discriminate|]. intros T. split; [exact T|].
        intros _. split; [auto|]. intros [H|((a & Ha) & G)]; [exact H|]. rewrite (place_ok lt cls s (s_items s) x G a Ha) in P. discriminate.
    - destruct (removed_item s x) as [s1 t1] eqn:E1. intros [= <- <- <-].
      destruct (removed_in _ _ _ _ N E1) as (R1 & R2 & R3 & R4). split; [exact R1|]. split; [exact R2|]. split.
      { intros y Hy. rewrite R3. tauto. }
      split; [intros _ H; apply R3 in H; tauto|]. intros T. split; [auto|discriminate].
  Qed.
End Proofs.
