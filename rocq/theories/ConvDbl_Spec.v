(** Vocabulary for the double version of the scaled integer converter. *)
From Coq Require Import ZArith QArith Qabs List.
From Verif Require Import PyBase.
Local Open Scope Z_scope.

(** the range [mn, mx] is not too narrow for n steps at the magnitude of its lower end: a step is at least 2^-49 of
    the width plus the magnitude *)
Definition resolvable (n : Z) (mn mx : Q) : Prop :=
  0 < n /\ (mn < mx)%Q /\ (inject_Z n * ((mx - mn) + Qabs mn) <= inject_Z (2 ^ 49) * (mx - mn))%Q.
(** [trip] taken m times from k ends at k' *)
Inductive repeated (trip : Z -> res Z) : nat -> Z -> Z -> Prop :=
  | rep_none k : repeated trip 0 k k
  | rep_more m k k1 k' : trip k = Ok k1 -> repeated trip m k1 k' -> repeated trip (S m) k k'.
