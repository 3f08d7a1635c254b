(** What floor(log10) is, and what an evenly spaced list of ticks is. *)
From Coq Require Import ZArith QArith Qabs List.
Local Open Scope Q_scope.

Definition ten (k : Z) : Q := inject_Z 10 ^ k.
(** [k] is the exponent of the power of ten below [v] *)
Definition decade (v : Q) (k : Z) : Prop := ten k <= v /\ v < ten (k + 1).
(** the oracle computes floor(log10) exactly *)
Definition exact_log (lg : Q -> Z) : Prop := forall v, 0 < v -> decade v (lg v).
Definition pretty_digit (d : Q) : Prop := d = 1 \/ d = 2 \/ d = 5 \/ d = 10.
Definition multiple (v step : Q) : Prop := exists n : Z, v == inject_Z n * step.
(** [l] is start, start + step, ..., stop *)
Definition evenly_spaced (start stop step : Q) (l : list Q) : Prop :=
  (forall i x, nth_error l i = Some x -> x == start + inject_Z (Z.of_nat i) * step) /\
  l <> nil /\ start + inject_Z (Z.of_nat (length l - 1)) * step == stop.
Definition same_sign (p v : Q) : Prop := (0 < v -> 0 < p) /\ (v < 0 -> p < 0).
(** exact arithmetic: no rounding *)
Definition exact (q : Q) : Q := q.
