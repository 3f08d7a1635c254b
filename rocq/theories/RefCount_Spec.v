(** Specification of reference counting over the trace of events. *)
From Coq Require Import List ZArith Bool.
From Verif Require Import PyBase RefCount_Model.
Import ListNotations.
Open Scope Z_scope.

(** adds minus removes *)
Fixpoint balance (t : list rcev) : Z :=
  match t with
  | [] => 0
  | EvAdd :: t' => balance t' + 1
  | EvRemove _ :: t' => balance t' - 1
  | EvHook :: t' => balance t'
  end.

(** the trace ends with a checked removal that brought the count to zero *)
Definition ends_at_zero (t : list rcev) : Prop := exists t0, t = t0 ++ [EvRemove true] /\ balance t = 0.

(** about_to_delete happened immediately after the first such removal, and only then *)
Definition hook_discipline (t : list rcev) : Prop :=
  (forall t1 t2, t = t1 ++ EvHook :: t2 ->
     ends_at_zero t1 /\ ~ In EvHook t1 /\ ~ In EvHook t2 /\
     (forall u v, t1 = u ++ v -> v <> [] -> ~ ends_at_zero u)) /\
  (forall t1 t2, t = t1 ++ t2 -> ends_at_zero t1 -> In EvHook t).

Definition never_negative (t : list rcev) : Prop := forall t1 t2, t = t1 ++ t2 -> 0 <= balance t1.
