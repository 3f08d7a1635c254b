(** Properties of the set object a selection gives out, and of assigning its style. *)
From stdpp Require Import gmap sets list.
From Coq Require Import Lia.
From Verif Require Import PyBase Selection_Model Selection_Spec Selection_Proofs SelShare_Model SelShare_Spec SelShare_Proofs.
Open Scope Z_scope.

(** With objects, every method changes the selection and reports as it does on values, for all histories of calls. *)
Theorem selshare_values w o : sound w -> seen (h_op w o).1 = (sel_step (seen w) o).1 /\ (h_op w o).2 = (sel_step (seen w) o).2.
Proof. intros H. exact (op_agrees w o H). Qed.
Theorem selshare_values_history st h : seen (h_run (h_new st) (HOp <$> h)) = sel_run (new_selection st) h.
Proof.
  assert (G : forall h w, sound w -> seen (h_run w (HOp <$> h)) = sel_run (seen w) h).
  { clear. intros h. induction h as [|o h IH]; intros w H; [reflexivity|]. simpl. destruct (op_agrees w o H) as [A _]. destruct (op_sound w o H) as [So _].
    unfold sel_run. simpl. fold (sel_run (sel_step (seen w) o).1 h). rewrite <- A. apply IH, So. }
  apply G. unfold sound. simpl. lia.
Qed.

(** Which calls put another set object in place of the one given out, for every style and contents. *)
Theorem selshare_replaces w o : sound w -> h_cur (h_op w o).1 <> h_cur w <-> replaces (h_style w) (own w) o.
Proof. exact (op_replaces w o). Qed.

(** A set object kept by a client that no one edits from outside: after any history it holds the indexes of the last time it
    was the selection's own; after the first call that replaces it, it is never the selection's own again. *)
Theorem selshare_kept w h : sound w -> Forall (spares (h_cur w)) h -> exists h1 h2, h = h1 ++ h2 /\ h_cur (h_run w h1) = h_cur w /\
  contents (h_run w h) (h_cur w) = own (h_run w h1) /\
  forall p, p `prefix_of` h2 -> p <> [] -> h_cur (h_run (h_run w h1) p) <> h_cur w.
Proof. intros H F. apply kept; [exact H|reflexivity|exact F]. Qed.

(** A listener that keeps the set and, told of a change, compares it with the new one: they are equal exactly if the call
    edited the set in place. *)
Theorem selshare_compare w o : sound w -> (forall l, o <> OAddRange l) -> o_fires (h_op w o).2 <> 0%nat ->
  contents (h_op w o).1 (h_cur w) = own (h_op w o).1 <-> ~ replaces (h_style w) (own w) o.
Proof.
  intros H Nr Fi. rewrite <- (op_replaces w o H). split.
  - intros E N. pose proof (step_left w (HOp o) H N Logic.I) as L. simpl in L. rewrite L in E.
    destruct (op_agrees w o H) as [A B]. rewrite B in Fi. apply Fi.
    assert (No : notifying o = true \/ o_fires (sel_step (seen w) o).2 = 0%nat).
    { destruct o; try (left; reflexivity); try (right; reflexivity). exfalso. eapply Nr. reflexivity. }
    destruct No as [No|No]; [|exact No]. rewrite (fires_exact_lemma (seen w) o No), <- A. simpl. destruct (decide _) as [|N2]; [reflexivity|]. exfalso. apply N2. symmetry. exact E.
  - intros N. destruct (decide (h_cur (h_op w o).1 = h_cur w)) as [E|E]; [|exfalso; exact (N E)]. unfold own. rewrite E. reflexivity.
Qed.

(** A set object that is no longer the selection's own may be edited at will: nothing of the selection is ever different, and
    nothing else is reported. *)
Theorem selshare_old w k C h a : sound w -> (k < length (h_heap w))%nat -> k <> h_cur w -> Forall (spares k) (a :: h) ->
  let w' := (h_step w (HPut k C)).1 in
  seen (h_run w' (h ++ [a])) = seen (h_run w (h ++ [a])) /\ (h_step (h_run w' h) a).2 = (h_step (h_run w h) a).2.
Proof.
  intros H L N F w'. assert (A : alike k w w').
  { unfold w'. simpl. unfold alike. simpl. repeat split; eauto. }
  apply Forall_cons_1 in F as [Sa Sh]. pose proof (alike_run k h w w' A Sh) as B. destruct (alike_step k _ _ a B Sa) as [C1 C2].
  split; [|exact C2]. unfold h_run. rewrite !fold_left_app. simpl. fold (h_run w' h). fold (h_run w h).
  unfold seen. rewrite (alike_own _ _ _ C1). destruct C1 as (E1 & _ & E2 & _). rewrite E1, E2. reflexivity.
Qed.
(** The selection's own set edited by a client is the selection, without event and with the anchor as it was; all calls go on
    from there. *)
Theorem selshare_own w C h : sound w -> let r := h_step w (HPut (h_cur w) C) in
  o_fires r.2 = 0%nat /\ seen (h_run r.1 (HOp <$> h)) = sel_run (Sel (h_style w) C (h_anchor w)) h.
Proof.
  intros H r. split; [reflexivity|].
  assert (G : forall h w, sound w -> seen (h_run w (HOp <$> h)) = sel_run (seen w) h).
  { clear. intros h. induction h as [|o h IH]; intros w H; [reflexivity|]. simpl. destruct (op_agrees w o H) as [A _]. destruct (op_sound w o H) as [So _].
    unfold sel_run. simpl. fold (sel_run (sel_step (seen w) o).1 h). rewrite <- A. apply IH, So. }
  rewrite G by (apply step_sound, H). f_equal. unfold r, seen, own, contents. simpl. rewrite nth_insert_same by exact H. reflexivity.
Qed.
(** set_multiple given the selection's own indexes, in any order of iteration: the indexes stay and no event is fired, but
    another object takes the place of the one given. *)
Theorem selshare_own_argument w l : sound w -> h_style w = SMultiple -> list_to_set l = own w ->
  own (h_op w (OSetMultiple l)).1 = own w /\ o_fires (h_op w (OSetMultiple l)).2 = 0%nat /\ h_cur (h_op w (OSetMultiple l)).1 <> h_cur w.
Proof.
  intros H St E. split; [|split].
  - simpl. unfold h_set_multiple. rewrite St. simpl. rewrite own_replaced. exact E.
  - simpl. unfold h_set_multiple, told. rewrite St. simpl. rewrite own_replaced. rewrite E. rewrite decide_True by reflexivity. reflexivity.
  - apply op_replaces; [exact H|]. simpl. rewrite St. discriminate.
Qed.

(** Whatever was selected before the style was assigned: with the styles none and single or none there is again at most one
    index after the next call that sets the selection. *)
Theorem selshare_style_restored w o : sound w -> h_style w = SNone \/ h_style w = SSingleOrNone ->
  match o with OClear | OSet _ | OAdd _ | OExtend _ | OSetMultiple _ => True | _ => False end ->
  own (h_op w o).1 = ∅ \/ exists i, own (h_op w o).1 = {[i]} /\ h_style w = SSingleOrNone.
Proof.
  intros H St Ho.
  assert (Cl : own (h_clear w).1 = ∅).
  { unfold h_clear. destruct St as [-> | ->]; simpl; apply own_replaced. }
  assert (Se : forall i, own (h_set i w).1 = ∅ \/ exists j, own (h_set i w).1 = {[j]} /\ h_style w = SSingleOrNone).
  { intros i. unfold h_set. destruct St as [-> | ->]; [left; exact Cl|right]. exists i. simpl. rewrite own_replaced. auto. }
  destruct o as [|i|i|l|l|i|i|i|k|k|a]; try contradiction; simpl.
  - left. exact Cl.
  - unfold h_add. destruct St as [St|St]; rewrite St in *; [left; exact Cl|apply Se].
  - unfold h_set_multiple. destruct St as [St|St]; rewrite St in *; [left; exact Cl|]. destruct l as [|i [|j l]]; [left; exact Cl|apply Se|left; exact Cl].
  - apply Se.
  - unfold h_extend. destruct St as [St|St]; rewrite St in *; [left; exact Cl|apply Se].
Qed.

(** equations of sets and others are decided by computing *)
Ltac crunch := cbv zeta; repeat match goal with |- _ /\ _ => split end; try (refine (bool_decide_unpack _ _); vm_compute; exact Logic.I).
(** Findings *)
(** a listener that keeps the set it was shown finds no difference when an index is added, although it is told of a change *)
Theorem selshare_compare_refuted : exists h, let w := h_run (h_new SMultiple) h in let w' := (h_op w (OAdd 5)).1 in
  o_fires (h_op w (OAdd 5)).2 = 1%nat /\ own w = {[3]} /\ own w' = {[3; 5]} /\ contents w' (h_cur w) = own w'.
Proof. exists [HOp (OSet 3)]. crunch. Qed.
(** a client that keeps the set as its view of the selection is right until a set is replaced, and then wrong for good *)
Theorem selshare_view_refuted : exists h h', let w := h_run (h_new SMultiple) h in let w' := h_run w h' in
  contents (h_run w [HOp (OAdd 4)]) (h_cur w) = own (h_run w [HOp (OAdd 4)]) /\ own w' = {[4]} /\ contents w' (h_cur w) = {[3; 4]}.
Proof. exists [HOp (OSet 3)], [HOp (OAdd 4); HOp (OSet 4)]. crunch. Qed.
(** a client that takes an index out of the set it was given takes it out of the selection: no event, and the anchor is not
    selected *)
Theorem selshare_own_refuted : exists h C, let w := h_run (h_new SMultiple) h in let r := h_step w (HPut (h_cur w) C) in
  own w = {[3; 5]} /\ o_fires r.2 = 0%nat /\ own r.1 = {[5]} /\ h_anchor r.1 = Some 3.
Proof. exists [HOp (OSet 3); HOp (OAdd 5)], {[5]}. crunch. Qed.
(** a selection of style single or none with three indexes, and one of style none that selects; removing leaves two *)
Theorem selshare_style_refuted : exists h, let w := h_run (h_new SMultiple) h in
  h_style w = SSingleOrNone /\ size (own w) = 3%nat /\ size (own (h_op w (ORemove 3)).1) = 2%nat /\ own (h_run w [HStyle SNone]) = own w.
Proof. exists [HOp (OSetMultiple [3; 5; 7]); HStyle SSingleOrNone]. crunch. Qed.

(** * Examples *)
Example selshare_values_example : let w := h_run (h_new SMultiple) (HOp <$> [OSet 3; OExtend 6; ORemove 4; OInsertIndex 5; OToggle 9]) in
  own w = {[3; 6; 7; 9]} /\ h_anchor w = Some 3 /\ h_cur w = 2%nat /\ length (h_heap w) = 3%nat /\ contents w 1 = {[3; 5; 6]}.
Proof. crunch. Qed.
Example selshare_kept_example : let w := h_run (h_new SMultiple) [HOp (OSet 3)] in let h := [HOp (OAdd 4); HOp (OExtend 6); HOp (OSet 1); HOp (OAdd 8)] in
  h_cur w = 1%nat /\ contents (h_run w h) 1 = {[3; 4; 5; 6]} /\ own (h_run w (take 2 h)) = {[3; 4; 5; 6]} /\ own (h_run w h) = {[1; 8]} /\
  Forall (spares 1) h.
Proof. crunch. repeat constructor. Qed.
Example selshare_old_example : let w := h_run (h_new SMultiple) (HOp <$> [OSet 3; OSet 8]) in
  contents w 1 = {[3]} /\ h_cur w = 2%nat /\ own (h_run w [HPut 1 {[7]}; HOp (OAdd 2)]) = {[8; 2]} /\ contents (h_run w [HPut 1 {[7]}; HOp (OAdd 2)]) 1 = {[7]}.
Proof. crunch. Qed.
Example selshare_own_example : let w := h_run (h_new SMultiple) (HOp <$> [OSet 3; OAdd 5]) in
  own (h_run w [HPut (h_cur w) {[5; 6]}; HOp (OExtend 4)]) = {[3; 4; 5; 6]} /\ o_fires (h_op w (OSetMultiple [5; 3])).2 = 0%nat /\
  h_anchor (h_op w (OSetMultiple [5; 3])).1 = Some 5.
Proof. crunch. Qed.
Example selshare_style_example : let w := h_run (h_new SMultiple) [HOp (OSetMultiple [3; 5; 7]); HStyle SSingleOrNone] in
  own (h_op w (OAdd 9)).1 = {[9]} /\ own (h_op w (OSetMultiple [1; 2])).1 = ∅.
Proof. crunch. Qed.

Print Assumptions selshare_values.
Print Assumptions selshare_values_history.
Print Assumptions selshare_replaces.
Print Assumptions selshare_kept.
Print Assumptions selshare_compare.
Print Assumptions selshare_old.
Print Assumptions selshare_own.
Print Assumptions selshare_own_argument.
Print Assumptions selshare_style_restored.
Print Assumptions selshare_compare_refuted.
Print Assumptions selshare_view_refuted.
Print Assumptions selshare_own_refuted.
Print Assumptions selshare_style_refuted.
