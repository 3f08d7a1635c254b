(** Property C08 of ListModel. *)
From Coq Require Import List ZArith Lia Bool.
From Verif Require Import PyBase ListModel_Model ListModel_Spec ListModel_Proofs.
Import ListNotations.
Open Scope Z_scope.

Theorem listmodel_observer_reconstructs {A} (h : list (lop A)) l :
  follows l (snd (lm_run l h)) (fst (lm_run l h)).
Proof. exact (lm_run_follows h l). Qed.
Print Assumptions listmodel_observer_reconstructs.

(** What each call notifies, and when it raises. *)
Theorem listmodel_call_notifies {A} (l : list A) o :
  match o with
  | LInsert i x => snd (fst (lm_step l o)) = [LnIns i x]
  | LAppend x => lm_step l o = (l ++ [x], [LnIns (Z.of_nat (length l)) x], None)
  | LRemove i =>
      (valid_index l i -> exists l1 x l2, l = l1 ++ x :: l2 /\ lm_step l o = (l1 ++ l2, [LnRem i x], None) /\
         i = (if i <? 0 then Z.of_nat (length l1) - Z.of_nat (length l) else Z.of_nat (length l1))) /\
      (~ valid_index l i -> lm_step l o = (l, [], Some IndexError))
  | LClear => True
  end.
Proof. exact (lm_step_one l o). Qed.
Print Assumptions listmodel_call_notifies.

Theorem listmodel_clear_last_to_first {A} (l : list A) :
  lm_step l LClear =
  ([], rev (map (fun p => LnRem (Z.of_nat (fst p)) (snd p)) (combine (seq 0 (length l)) l)), None).
Proof. exact (lm_clear_exact l). Qed.
Print Assumptions listmodel_clear_last_to_first.

Example listmodel_c08_case :
  lm_run [1; 2; 3] [LInsert (-1) 7; LInsert 99 8; LInsert (-99) 9; LRemove (-2); LRemove 5; LAppend 4; LRemove (-6); LClear; LAppend 6]
  = ([6], [LnIns (-1) 7; LnIns 99 8; LnIns (-99) 9; LnRem (-2) 3; LnIns 5 4; LnRem (-6) 9; LnRem 4 4; LnRem 3 8; LnRem 2 7; LnRem 1 2; LnRem 0 1; LnIns 0 6]).
Proof. vm_compute. reflexivity. Qed.
