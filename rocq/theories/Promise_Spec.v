(** What each access must return, as a function of the number of earlier [value] accesses. *)
From Coq Require Import List Arith.
From Verif Require Import PyBase Promise_Model.
Import ListNotations.

(** [m] is the first call of the function that returns *)
Definition first_return {V} (outcome : nat -> option (option V)) (m : nat) (v : option V) : Prop :=
  outcome m = Some v /\ forall j, j < m -> outcome j = None.

Fixpoint value_count (h : list paccess) : nat :=
  match h with [] => 0 | AValue :: h' => S (value_count h') | _ :: h' => value_count h' end.

(** expected result of access [a] after [n] earlier value accesses when the function first returns [v]
    at its call number [m] *)
Definition expected {V} (m : nat) (v : option V) (n : nat) (a : paccess) : @pout V :=
  match a with
  | AValue => if n <? m then OutRaise else OutValue v
  | AOptValue => if n <=? m then OutValue None else OutValue v
  | AHasValue => if n <=? m then OutBool false else OutBool (match v with Some _ => true | None => false end)
  end.
