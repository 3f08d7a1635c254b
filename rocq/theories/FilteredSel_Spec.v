(** Selections attached to a filtered list: the calls it makes on them, in order. *)
From Coq Require Import List ZArith Bool Arith.
From Verif Require Import PyBase Selection_Model Filtered_Model Filtered_Spec.
Import ListNotations.

(** insert_index / remove_index calls in a trace (ListModel.py:626-627, 639-640) *)
Fixpoint selection_calls {A} (tr : list (fev A)) : list sop :=
  match tr with
  | [] => []
  | FSelIns i :: tr' => OInsertIndex i :: selection_calls tr'
  | FSelRem i :: tr' => ORemoveIndex i :: selection_calls tr'
  | _ :: tr' => selection_calls tr'
  end.

(** inserts and removes of the container with an index inside the list *)
Definition plain_edit {A C K} (s : fstate A C K) (o : fop A C K) : Prop :=
  match o with
  | FInsert i x => exists k : nat, i = Z.of_nat k /\ (k <= length (contents s))%nat /\ ~ In x (contents s)
  | FRemove i => exists k : nat, i = Z.of_nat k /\ (k < length (contents s))%nat
  | _ => False
  end.
