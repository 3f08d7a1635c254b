(** Property C17: selections attached to a filtered list. *)
From stdpp Require Import list sets gmap.
From Coq Require Import ZArith Bool Arith Lia.
From Verif Require Import PyBase Selection_Model Selection_Spec Selection_Proofs Filtered_Model Filtered_Spec Filtered_Proofs
  Filtered_Proofs2 Filtered_Proofs3 Filtered_Props FilteredSel_Spec FilteredSel_Proofs.
Import ListNotations.
Local Open Scope nat_scope.

(** with no filter and no sort key the selection follows the items through any edits of the container *)
Theorem filtered_selection_follows {A C K : Type} (A_dec : forall a b : A, {a = b} + {a <> b}) (lt : K -> K -> bool)
    (w : A -> C) l h sel y :
  NoDup l ->
  let s0 := fst (f_run A_dec lt (f_new w) [FSetContainer (Some l)]) in
  along A_dec lt plain_edit s0 h ->
  let '(s', tr) := f_run A_dec lt s0 h in
  selected (fs_items s') (sel_run sel (selection_calls tr)) y <->
  selected (fs_items s0) sel y /\ y ∉ map fst (removals tr).
Proof.
  intros Hnd s0 Ha. pose proof (plain_start A_dec lt w l Hnd) as Hp. fold s0 in Hp.
  pose proof (plain_run A_dec lt h s0 Hp Ha) as R. destruct (f_run A_dec lt s0 h) as [s' tr].
  destruct R as (_ & es & He & Hs). rewrite Hs. apply edits_follow_lemma; [|exact He].
  apply NoDup_ListNoDup. apply Hp.
Qed.
Print Assumptions filtered_selection_follows.

Definition fx_sel0 := fst (fx_run [FSetContainer (Some [1; 2; 3])]).
Example filtered_c17_case :
  let h := [FInsert 0 5; FRemove 2; FInsert 3 9] in
  selection_calls (snd (f_run Nat.eq_dec Nat.ltb fx_sel0 h)) = [OInsertIndex 0; ORemoveIndex 2; OInsertIndex 3] /\
  fs_items (fst (f_run Nat.eq_dec Nat.ltb fx_sel0 h)) = [5; 1; 3; 9] /\
  s_indexes (sel_run (Sel SMultiple {[0%Z; 2%Z]} None) [OInsertIndex 0; ORemoveIndex 2; OInsertIndex 3]) = {[1%Z; 2%Z]} /\
  along Nat.eq_dec Nat.ltb plain_edit fx_sel0 h.
Proof.
  split; [vm_compute; reflexivity|]. split; [vm_compute; reflexivity|].
  split; [apply (bool_decide_unpack _); vm_compute; exact I|]. vm_compute.
  split; [exists 0; repeat split; [lia|intuition discriminate]|].
  split; [exists 2; split; [reflexivity|lia]|].
  split; [exists 3; repeat split; [lia|intuition discriminate]|exact I].
Qed.

(** items are even numbers of the container; item 4 at index 0 is selected.  Inserting 6 in front of it at
    container position 2 puts it at index 1, but the selection still holds index 0. *)
Theorem filtered_selection_refuted :
  exists h o, let s := fst (fx_run h) in
    let r := f_step Nat.eq_dec Nat.ltb s o in
    fs_items s = [4] /\ fs_items (fst (fst r)) = [6; 4] /\ selection_calls (snd (fst r)) = [OInsertIndex 2] /\
    selected [6; 4] (sel_run (Sel SMultiple {[0%Z]} None) [OInsertIndex 2]) 6 /\
    ~ selected [6; 4] (sel_run (Sel SMultiple {[0%Z]} None) [OInsertIndex 2]) 4.
Proof.
  exists [FSetContainer (Some [1; 3; 4]); FSetFilter Nat.even], (FInsert 2 6). cbv zeta.
  split; [vm_compute; reflexivity|]. split; [vm_compute; reflexivity|]. split; [vm_compute; reflexivity|].
  assert (E : s_indexes (sel_run (Sel SMultiple {[0%Z]} None) [OInsertIndex 2]) = {[0%Z]})
    by (apply (bool_decide_unpack _); vm_compute; exact I).
  split.
  - exists 0%Z. rewrite E. split; [set_solver|]. split; [lia|reflexivity].
  - intros (i & Hi & _ & Hn). rewrite E in Hi. apply elem_of_singleton in Hi. subst i. discriminate.
Qed.
Print Assumptions filtered_selection_refuted.
