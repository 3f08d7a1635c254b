(** Range membership, independent of the implementation. *)
From Coq Require Import ZArith.
Open Scope Z_scope.

Definition in_range (mn mx : option Z) (v : Z) : Prop :=
  (match mn with Some a => a <= v | None => True end) /\ (match mx with Some b => v <= b | None => True end).
Definition nonempty_range (mn mx : option Z) : Prop :=
  match mn, mx with Some a, Some b => a <= b | _, _ => True end.
(** [r] is in range and no value in range is closer to [v] *)
Definition nearest_in_range (mn mx : option Z) (v r : Z) : Prop :=
  in_range mn mx r /\ forall w, in_range mn mx w -> Z.abs (v - r) <= Z.abs (v - w).
