(** An observer that keeps its own Python list by following the notifications.  It refuses a removal
    whose value is not the item it has at that index. *)
From Coq Require Import List ZArith.
From Verif Require Import PyBase ListModel_Model.
Import ListNotations.
Open Scope Z_scope.

Fixpoint follows {A} (l : list A) (ns : list (lnote A)) (l' : list A) : Prop :=
  match ns with
  | [] => l = l'
  | LnIns i x :: ns' => follows (py_insert i x l) ns' l'
  | LnRem i x :: ns' => py_get l i = Ok x /\ exists l1, py_del l i = Ok l1 /\ follows l1 ns' l'
  end.

Definition valid_index {A} (l : list A) (i : Z) : Prop := - Z.of_nat (length l) <= i < Z.of_nat (length l).
