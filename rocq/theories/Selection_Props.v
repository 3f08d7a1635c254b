(** Properties C01-C07 of IndexedSelection. *)
From stdpp Require Import gmap sets list sorting.
From Verif Require Import PyBase Selection_Model Selection_Spec Selection_Proofs.
Open Scope Z_scope.

(** ** C01 *)
Theorem sel_changed_event_exact s o :
  notifying o = true ->
  o_fires (sel_step s o).2 = (if decide (s_indexes (sel_step s o).1 = s_indexes s) then 0 else 1)%nat.
Proof. exact (fires_exact_lemma s o). Qed.
Print Assumptions sel_changed_event_exact.

Theorem sel_shift_silent s k :
  o_fires (insert_index k s).2 = 0%nat /\ o_fires (remove_index k s).2 = 0%nat.
Proof. exact (shift_silent_lemma s k). Qed.
Print Assumptions sel_shift_silent.

Theorem sel_add_range_fires l s :
  s_indexes (add_range l s).1 <> s_indexes s -> (1 <= o_fires (add_range l s).2)%nat.
Proof. exact (add_range_fires_lemma l s). Qed.
Print Assumptions sel_add_range_fires.

Example sel_c01_case :
  o_fires (sel_step (Sel SMultiple {[3; 5]} (Some 3)) (OExtend 6)).2 = 1%nat /\
  o_fires (sel_step (Sel SMultiple {[3; 5]} (Some 3)) (OAdd 5)).2 = 0%nat /\
  (add_range [3; 4; 5; 6] (Sel SMultiple {[3; 5]} (Some 3))).2 = Outcome 2 None.
Proof. vm_compute. auto. Qed.

(** ** C02 *)
Theorem sel_insert_follows_items {A} (L1 L2 : list A) x s y :
  let s' := (insert_index (Z.of_nat (length L1)) s).1 in
  (selected (L1 ++ x :: L2) s' y <-> selected (L1 ++ L2) s y) /\
  (anchored (L1 ++ x :: L2) s' y <-> anchored (L1 ++ L2) s y) /\
  Z.of_nat (length L1) ∉ s_indexes s'.
Proof. exact (insert_follows_lemma L1 L2 x s y). Qed.
Print Assumptions sel_insert_follows_items.

Theorem sel_remove_follows_items {A} (L1 L2 : list A) x s y :
  NoDup (L1 ++ x :: L2) ->
  let s' := (remove_index (Z.of_nat (length L1)) s).1 in
  (selected (L1 ++ L2) s' y <-> selected (L1 ++ x :: L2) s y /\ y <> x) /\
  (~ anchored (L1 ++ x :: L2) s x -> (anchored (L1 ++ L2) s' y <-> anchored (L1 ++ x :: L2) s y)).
Proof. exact (remove_follows_lemma L1 L2 x s y). Qed.
Print Assumptions sel_remove_follows_items.

Theorem sel_edits_follow_items {A} (L : list A) es r L' s y :
  NoDup L -> edits L es r L' ->
  NoDup L' /\ (selected L' (sel_run s (accompany <$> es)) y <-> selected L s y /\ y ∉ r).
Proof. exact (edits_follow_lemma L es r L' s y). Qed.
Print Assumptions sel_edits_follow_items.

Theorem sel_edits_follow_anchor {A} (L : list A) es r L' s y :
  NoDup L -> edits L es r L' -> anchored L s y -> y ∉ r ->
  anchored L' (sel_run s (accompany <$> es)) y.
Proof. exact (edits_follow_anchor_lemma L es r L' s y). Qed.
Print Assumptions sel_edits_follow_anchor.

Example sel_c02_case :
  edits [10; 11; 12; 13] [LIns 1 99; LDel 3; LDel 0; LIns 3 77] [12; 10] [99; 11; 13; 77] /\
  s_indexes (sel_run (Sel SMultiple {[1; 2; 3]} (Some 3)) (accompany <$> [LIns 1 99; LDel 3; LDel 0; LIns 3 77]))
    = {[1; 2]}.
Proof.
  split; [|apply (bool_decide_unpack _); vm_compute; exact I].
  apply (edits_ins [10] [11; 12; 13] 99); [set_solver by lia|].
  apply (edits_del [10; 99; 11] [13] 12). apply (edits_del [] [99; 11; 13] 10).
  apply (edits_ins [99; 11; 13] [] 77); [set_solver by lia|]. constructor.
Qed.

(** ** C03 *)
Theorem sel_none_never_selects h : s_indexes (sel_run (new_selection SNone) h) = ∅.
Proof. exact (none_empty_lemma h). Qed.
Print Assumptions sel_none_never_selects.

Theorem sel_single_or_none_at_most_one h :
  at_most_one (s_indexes (sel_run (new_selection SSingleOrNone) h)).
Proof. exact (single_or_none_lemma h). Qed.
Print Assumptions sel_single_or_none_at_most_one.

Theorem sel_single_at_most_one h :
  (forall h1 o h2, h = h1 ++ o :: h2 -> clears_single o = true ->
     s_indexes (sel_run (new_selection SSingle) h1) ⊆ {[0]}) ->
  at_most_one (s_indexes (sel_run (new_selection SSingle) h)).
Proof. exact (single_guarded_lemma h). Qed.
Print Assumptions sel_single_at_most_one.

Theorem sel_single_clear_effect s :
  s_style s = SSingle -> forall j, j ∈ s_indexes (clear s).1 <-> j = 0 \/ j ∈ s_indexes s.
Proof. exact (single_clear_lemma s). Qed.
Print Assumptions sel_single_clear_effect.

(** Finding: the bound fails in style single in general. *)
Theorem sel_single_at_most_one_refuted :
  exists h, ~ at_most_one (s_indexes (sel_run (new_selection SSingle) h)).
Proof.
  exists [OSet 5; OClear]. intros H. assert (0 = 5) by (apply H; vm_compute; reflexivity). lia.
Qed.
Print Assumptions sel_single_at_most_one_refuted.

Example sel_c03_case :
  s_indexes (sel_run (new_selection SSingle) [OClear; OSet 4; OToggle 7; ORemove 7; OExtend 9]) = {[9]}.
Proof. apply (bool_decide_unpack _). vm_compute. exact I. Qed.

(** ** C04 *)
Theorem sel_extend_interval s i a :
  s_style s = SMultiple -> s_anchor s = Some a ->
  s_anchor (extend i s).1 = Some a /\
  (i <> a -> forall j, j ∈ s_indexes (extend i s).1 <-> j ∈ s_indexes s \/ Z.min a i <= j <= Z.max a i) /\
  (i = a -> (extend i s).1 = s /\ o_fires (extend i s).2 = 0%nat).
Proof. exact (extend_anchor_lemma s i a). Qed.
Print Assumptions sel_extend_interval.

Theorem sel_extend_no_anchor s i :
  s_style s = SMultiple -> s_anchor s = None ->
  s_anchor (extend i s).1 = Some i /\ forall j, j ∈ s_indexes (extend i s).1 <-> j ∈ s_indexes s \/ j = i.
Proof. exact (extend_no_anchor_lemma s i). Qed.
Print Assumptions sel_extend_no_anchor.

(** Finding: extending to an index does not always select it. *)
Theorem sel_extend_selects_refuted :
  exists h i, i ∉ s_indexes (sel_run (new_selection SMultiple) (h ++ [OExtend i])).
Proof. exists [OAdd 2; ORemove 2], 2. vm_compute. intros H; discriminate H. Qed.
Print Assumptions sel_extend_selects_refuted.

Example sel_c04_case :
  s_indexes (extend 2 (Sel SMultiple {[5; 9]} (Some 5))).1 = {[2; 3; 4; 5; 9]}.
Proof. apply (bool_decide_unpack _). vm_compute. exact I. Qed.

(** ** C05 *)
Theorem sel_anchor_selected_history st h :
  (forall h1 o h2, h = h1 ++ o :: h2 -> non_removing (sel_run (new_selection st) h1) o) ->
  anchor_ok (sel_run (new_selection st) h).
Proof. exact (anchor_history_lemma st h). Qed.
Print Assumptions sel_anchor_selected_history.

Theorem sel_remove_anchor s i a :
  (s_style s = SMultiple \/ s_style s = SSingleOrNone) -> i ∈ s_indexes s -> s_anchor s = Some a ->
  exists b, s_anchor (remove i s).1 = Some b /\
    (a <> i -> a ∈ s_indexes s -> b = a) /\
    (a = i -> b <= a /\ (forall j, j ∈ s_indexes s -> b <= j \/ j = i) /\ (b = a \/ b ∈ s_indexes s)).
Proof. exact (remove_anchor_lemma s i a). Qed.
Print Assumptions sel_remove_anchor.

Theorem sel_remove_index_anchor s k :
  s_anchor s = Some k ->
  exists b, s_anchor (remove_index k s).1 = Some b /\ b <= k /\ (forall j, j ∈ s_indexes s -> b <= j) /\
    (b = k \/ b ∈ s_indexes s).
Proof. exact (remove_index_anchor_lemma s k). Qed.
Print Assumptions sel_remove_index_anchor.

(** Finding: after a removal the anchor can be an index that is not selected. *)
Theorem sel_anchor_selected_refuted :
  exists h, ~ anchor_ok (sel_run (new_selection SMultiple) h).
Proof. exists [OAdd 2; OAdd 5; ORemove 2]. vm_compute. intros H; discriminate H. Qed.
Print Assumptions sel_anchor_selected_refuted.

Example sel_c05_case :
  let h := [OAdd 4; OAdd 2; OExtend 6; OToggle 9; OInsertIndex 4; OSetMultiple [8; 3]; OAddRange [5; 6]] in
  (forall h1 o h2, h = h1 ++ o :: h2 -> non_removing (sel_run (new_selection SMultiple) h1) o) /\
  s_anchor (sel_run (new_selection SMultiple) h) = Some 8.
Proof.
  split; [|vm_compute; reflexivity].
  intros h1 o h2 E.
  repeat (destruct h1 as [|? h1]; [injection E as <- <-; vm_compute; try exact I; intros H; discriminate H|
                                   injection E as <- E]).
  destruct h1; discriminate E.
Qed.

(** ** C06 *)
Theorem sel_ordered_indexes s :
  NoDup (ordered_indexes s) /\
  (forall i, i ∈ ordered_indexes s <-> i ∈ s_indexes s) /\
  exists front rest, ordered_indexes s = front ++ rest /\ StronglySorted Z.lt rest /\
    ((exists a, s_anchor s = Some a /\ a ∈ s_indexes s /\ front = [a]) \/
     ((forall a, s_anchor s = Some a -> a ∉ s_indexes s) /\ front = [])).
Proof. exact (ordered_lemma s). Qed.
Print Assumptions sel_ordered_indexes.

Example sel_c06_case : ordered_indexes (Sel SMultiple {[7; 1; 4; 9]} (Some 7)) = [7; 1; 4; 9].
Proof. vm_compute. reflexivity. Qed.

(** ** C07 *)
Theorem sel_multiple_set_operations s :
  s_style s = SMultiple ->
  (forall i j, j ∈ s_indexes (add i s).1 <-> j = i \/ j ∈ s_indexes s) /\
  (forall l j, j ∈ s_indexes (add_range l s).1 <-> j ∈ l \/ j ∈ s_indexes s) /\
  (forall i j, j ∈ s_indexes (set_ i s).1 <-> j = i) /\
  (forall l j, j ∈ s_indexes (set_multiple l s).1 <-> j ∈ l) /\
  (forall j, j ∉ s_indexes (clear s).1) /\
  (forall i, i ∈ s_indexes s -> o_err (remove i s).2 = None /\
       forall j, j ∈ s_indexes (remove i s).1 <-> j ∈ s_indexes s /\ j <> i) /\
  (forall i, i ∉ s_indexes s -> remove i s = (s, Outcome 0 (Some KeyError))).
Proof. exact (multiple_ops_lemma s). Qed.
Print Assumptions sel_multiple_set_operations.

Theorem sel_toggle_involutive s i :
  s_style s = SMultiple ->
  o_err (toggle i s).2 = None /\ o_err (toggle i (toggle i s).1).2 = None /\
  s_indexes (toggle i (toggle i s).1).1 = s_indexes s /\
  (i ∈ s_indexes (toggle i s).1 <-> i ∉ s_indexes s).
Proof. exact (toggle_twice_lemma s i). Qed.
Print Assumptions sel_toggle_involutive.

Example sel_c07_case :
  let s := Sel SMultiple {[1; 2]} (Some 2) in
  s_indexes (toggle 2 s).1 = {[1]} /\ (remove 8 s).2 = Outcome 0 (Some KeyError).
Proof. split; [apply (bool_decide_unpack _); vm_compute; exact I|vm_compute; reflexivity]. Qed.
