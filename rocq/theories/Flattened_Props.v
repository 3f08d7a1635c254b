(** Properties C20 and C21 of FlattenedListModel. *)
From stdpp Require Import list sets gmap.
From Coq Require Import ZArith Bool Arith Lia.
From Verif Require Import PyBase Selection_Model Selection_Spec Selection_Proofs Flattened_Model Flattened_Spec Flattened_Proofs Flattened_Proofs2.
Import ListNotations.
Local Open Scope nat_scope.

Section FP.
  Context {M X : Type} (M_dec : forall a b : M, {a = b} + {a <> b}).

  (** C20: the items are the concatenated children of the container's masters *)
  Theorem flattened_is_concatenation (kids : M -> list X) h :
    fl_along M_dec fl_proper (fl_new kids) h ->
    let s' := fst (fl_run M_dec (fl_new kids) h) in
    fl_items s' = concat (map (fl_kids s') (masters s')).
  Proof.
    intros Ha. pose proof (fl_run_lemma M_dec h _ (fl_new_inv kids) Ha) as R.
    destruct (fl_run M_dec (fl_new kids) h) as [s' tr]. simpl. destruct R as [Hi _].
    rewrite <- flat_map_concat_map. apply fl_inv_items. exact Hi.
  Qed.

  (** C20: the notifications reconstruct the items *)
  Theorem flattened_observer_reconstructs (kids : M -> list X) h :
    fl_along M_dec fl_proper (fl_new kids) h ->
    let '(s', tr) := fl_run M_dec (fl_new kids) h in fl_observes [] tr (fl_items s').
  Proof.
    intros Ha. pose proof (fl_run_lemma M_dec h _ (fl_new_inv kids) Ha) as R.
    destruct (fl_run M_dec (fl_new kids) h) as [s' tr]. apply R.
  Qed.

  Lemma reach_inv (kids : M -> list X) h : fl_along M_dec fl_proper (fl_new kids) h -> fl_inv (fst (fl_run M_dec (fl_new kids) h)).
  Proof.
    intros Ha. pose proof (fl_run_lemma M_dec h _ (fl_new_inv kids) Ha) as R.
    destruct (fl_run M_dec (fl_new kids) h) as [s' tr]. apply R.
  Qed.

  (** C21: through removals of any kind a selection follows the items *)
  Theorem flattened_selection_removals (kids : M -> list X) h0 h sel y :
    fl_along M_dec fl_proper (fl_new kids) h0 ->
    let s0 := fst (fl_run M_dec (fl_new kids) h0) in
    NoDup (fl_items s0) -> fl_along M_dec fl_removing s0 h ->
    let '(s', tr) := fl_run M_dec s0 h in
    selected (fl_items s') (sel_run sel (fl_selection_calls tr)) y <->
    selected (fl_items s0) sel y /\ In y (fl_items s').
  Proof.
    intros Ha0 s0 Hnd Ha. pose proof (reach_inv kids h0 Ha0) as Hi. fold s0 in Hi.
    assert (Ha' : fl_along M_dec fl_proper s0 h).
    { clear -Ha. clearbody s0. revert s0 Ha. induction h as [|o h IH]; intros s0 Ha; simpl in *; [exact I|].
      destruct Ha as [Ho Ha]. split; [apply fl_removing_proper; exact Ho|apply IH; exact Ha]. }
    destruct (fl_run_rem M_dec h s0 Hi Ha) as [ps Ep]. pose proof (fl_run_lemma M_dec h s0 Hi Ha') as R.
    destruct (fl_run M_dec s0 h) as [s' tr]. simpl in Ep. subst tr. destruct R as [_ Ho].
    destruct (rem_trace_edits ps _ _ Ho) as (es & He & Hc). rewrite Hc.
    destruct (edits_follow_lemma _ es _ _ sel y Hnd He) as [Hnd' Hsel]. rewrite Hsel.
    assert (Hperm : forall l es r l', edits (A := X) l es r l' -> (forall k x, ~ In (LIns k x) es) -> forall z, NoDup l -> (In z l <-> In z l' \/ In z r) /\ ~ (In z l' /\ In z r)).
    { clear. intros l es r l' He. induction He as [L|L1 L2 x es r L' Hx He IH|L1 L2 x es r L' He IH]; intros Hno z Hnd.
      - simpl. tauto.
      - exfalso. eapply Hno. left. reflexivity.
      - assert (Hnd2 : NoDup (L1 ++ L2)) by (apply NoDup_ListNoDup; apply NoDup_ListNoDup in Hnd; eapply NoDup_remove_1; exact Hnd).
        destruct (IH ltac:(intros k x' H; eapply Hno; right; exact H) z Hnd2) as [I1 I2].
        apply NoDup_ListNoDup in Hnd. apply NoDup_remove_2 in Hnd. rewrite in_app_iff in *. simpl.
        split; [intuition auto|]. intros [H1 [<-|H2]]; [|tauto]. apply Hnd. apply I1. auto. }
    assert (Hnoins : forall k x, ~ In (LIns k x) es).
    { intros k x Hin. clear -Hc Hin. revert es Hc Hin. induction ps as [|[x' k'] ps IH]; intros [|[] es] Hc Hin; simpl in *; try discriminate; try tauto.
      injection Hc as _ Hc. destruct Hin as [Hin|Hin]; [discriminate|]. eapply IH; eassumption. }
    destruct (Hperm _ _ _ _ He Hnoins y Hnd) as [P1 P2]. rewrite elem_of_list_In.
    split; intros [H1 H2]; (split; [exact H1|]).
    - destruct H1 as (i & _ & _ & Hn). apply nth_error_In in Hn. tauto.
    - tauto.
  Qed.

  (** C21: inserting child [x] at index [i] of master [m] puts it at flattened position [p] = children before [m]
      + [i], but the selection is shifted at [i]; it follows the items exactly when no selected index is in [i, p) *)
  Theorem flattened_selection_insertion (kids : M -> list X) h m i x ms1 ms2 sel :
    fl_along M_dec fl_proper (fl_new kids) h ->
    let s := fst (fl_run M_dec (fl_new kids) h) in
    masters s = ms1 ++ m :: ms2 -> (0 <= i <= Z.of_nat (length (fl_kids s m)))%Z ->
    NoDup (x :: fl_items s) ->
    let '(s', tr, _) := fl_step M_dec s (LfKidInsert m i x) in
    let p := (Z.of_nat (length (concat (map (fl_kids s) ms1))) + i)%Z in
    (forall y, selected (fl_items s') (sel_run sel (fl_selection_calls tr)) y <-> selected (fl_items s) sel y) <->
    (forall j, j ∈ s_indexes sel -> ~ (i <= j < p)%Z).
  Proof.
    intros Ha s Hm Hi Hnd. pose proof (reach_inv kids h Ha) as Hinv. fold s in Hinv. destruct Hinv as (Hok & Sy & Hma).
    cbn [fl_step].
    assert (Hin : In m (fl_master s)) by (rewrite Hma, Hm; apply in_app_iff; right; left; reflexivity).
    rewrite (proj2 (fl_in_spec M_dec m (fl_listen s))) by (apply (ok_listen s Hok); exact Hin).
    set (s1 := with_kids s _). destruct (child_inserted M_dec s1 m x i) as [s2 t2] eqn:E2.
    destruct (split_at (fl_kids s m) (Z.to_nat i) ltac:(lia)) as (c1 & c2 & Ek & H1).
    assert (Ei : i = Z.of_nat (length c1)) by lia. rewrite Ei in E2.
    destruct (child_inserted_lemma M_dec _ _ _ _ c2 _ _ E2 (with_kids_ok s _ Hok) Hin) as (p & q & It & It' & _ & _ & _ & _ & -> & Hp).
    { simpl. rewrite (Sy m Hin). exact Ek. }
    assert (Hoff : fl_offset M_dec (fl_children s1) m (fl_master s1) = length (concat (map (fl_kids s) ms1))).
    { simpl. rewrite Hma, Hm, offset_split.
      - rewrite flat_map_concat_map. f_equal. f_equal. apply map_ext_in. intros a Hain. apply Sy. rewrite Hma, Hm. apply in_app_iff. auto.
      - pose proof (ok_nodup s Hok) as Hn. rewrite Hma, Hm in Hn. apply NoDup_remove_2 in Hn. intros H. apply Hn, in_app_iff. auto. }
    rewrite Hoff in Hp. simpl in It. rewrite It, It'. cbv zeta. cbn [fl_selection_calls sel_run fold_left sel_step]. unfold sel_run. cbn [fold_left sel_step].
    replace (Z.of_nat (length (concat (map (fl_kids s) ms1))) + i)%Z with (Z.of_nat (length p)) by lia. rewrite Ei.
    apply misplaced_insert; [|lia].
    apply NoDup_ListNoDup. apply (NoDup_Add (a := x) (l := p ++ q)); [apply Add_app|].
    rewrite It in Hnd. apply NoDup_ListNoDup in Hnd. inversion Hnd; subst. auto.
  Qed.
End FP.
Print Assumptions flattened_is_concatenation.
Print Assumptions flattened_observer_reconstructs.
Print Assumptions flattened_selection_removals.
Print Assumptions flattened_selection_insertion.

Definition lx_kids (m : nat) : list nat := match m with 0 => [1; 2] | 1 => [10] | 2 => [20; 21; 22] | _ => [] end.
Definition lx_h : list (flop nat nat) :=
  [LfSetContainer (Some [0; 2]); LfInsert (-1) 1; LfKidInsert 2 1 29; LfKidInsert 5 0 50; LfInsert 3 5; LfKidRemove 0 0; LfRemove (-2)].
Definition lx_run h := fl_run Nat.eq_dec (fl_new lx_kids) h.
Example flattened_c20_case :
  fl_along Nat.eq_dec fl_proper (fl_new lx_kids) lx_h /\
  fl_items (fst (lx_run (firstn 6 lx_h))) = [2; 10; 20; 29; 21; 22; 50] /\
  fl_items (fst (lx_run lx_h)) = [2; 10; 50] /\ masters (fst (lx_run lx_h)) = [0; 1; 5].
Proof.
  split; [|vm_compute; auto]. vm_compute.
  split; [repeat constructor; simpl; intuition discriminate|].
  repeat split; try discriminate; intuition discriminate.
Qed.
Example flattened_c21_removal_case :
  let s0 := fst (lx_run (firstn 6 lx_h)) in
  fl_selection_calls (snd (fl_run Nat.eq_dec s0 [LfRemove (-2)])) = [ORemoveIndex 5; ORemoveIndex 4; ORemoveIndex 3; ORemoveIndex 2] /\
  s_indexes (sel_run (Sel SMultiple {[1%Z; 3%Z; 6%Z]} None) [ORemoveIndex 5; ORemoveIndex 4; ORemoveIndex 3; ORemoveIndex 2]) = {[1%Z; 2%Z]}.
Proof. split; [vm_compute; reflexivity|]. apply (bool_decide_unpack _); vm_compute; exact I. Qed.

(** Container [0; 2] with items [1; 2; 20; 21; 22]; item 1 (index 0) is selected.  Inserting 19 in front of the
    children of 2 leaves the items before it in place, but the selection moves from item 1 to item 2. *)
Theorem flattened_selection_insertion_refuted :
  let s := fst (lx_run [LfSetContainer (Some [0; 2])]) in
  let r := fl_step Nat.eq_dec s (LfKidInsert 2 0 19) in
  fl_items s = [1; 2; 20; 21; 22] /\ fl_items (fst (fst r)) = [1; 2; 19; 20; 21; 22] /\
  fl_selection_calls (snd (fst r)) = [OInsertIndex 0] /\
  ~ selected [1; 2; 19; 20; 21; 22] (sel_run (Sel SMultiple {[0%Z]} None) [OInsertIndex 0]) 1 /\
  selected [1; 2; 19; 20; 21; 22] (sel_run (Sel SMultiple {[0%Z]} None) [OInsertIndex 0]) 2.
Proof.
  cbv zeta. split; [vm_compute; reflexivity|]. split; [vm_compute; reflexivity|]. split; [vm_compute; reflexivity|].
  assert (E : s_indexes (sel_run (Sel SMultiple {[0%Z]} None) [OInsertIndex 0]) = {[1%Z]})
    by (apply (bool_decide_unpack _); vm_compute; exact I).
  split.
  - intros (i & Hi & _ & Hn). rewrite E in Hi. apply elem_of_singleton in Hi. subst i. discriminate.
  - exists 1%Z. rewrite E. split; [set_solver|]. split; [lia|reflexivity].
Qed.
Print Assumptions flattened_selection_insertion_refuted.

(** C20 needs child indexes inside the list: list.insert(-1) on the children of 2 lands among the items of 0 *)
Theorem flattened_negative_child_index_refuted :
  let s := fst (lx_run [LfSetContainer (Some [0; 2]); LfKidInsert 2 (-1) 19]) in
  fl_kids s 2 = [20; 21; 19; 22] /\ fl_items s = [1; 19; 2; 20; 21; 22].
Proof. vm_compute. auto. Qed.
Print Assumptions flattened_negative_child_index_refuted.
