(** What rounding to a decimal means. *)
From Coq Require Import ZArith QArith Qabs.
Local Open Scope Q_scope.

(** [q] is the multiple of the unit [u] nearest to [v], the even one if two are nearest *)
Definition rounded_to (u v q : Q) : Prop :=
  exists n : Z, q == inject_Z n * u /\ Qabs (q - v) <= (1 # 2) * u /\ (Qabs (q - v) == (1 # 2) * u -> Z.Even n).
(** [e] is the exponent of the first digit of [v] *)
Definition leading (v : Q) (e : Z) : Prop := Qpower (10 # 1) e <= Qabs v /\ Qabs v < Qpower (10 # 1) (e + 1).
(** [q] is [v] rounded to [n] significant digits *)
Definition rounded_digits (n : Z) (v q : Q) : Prop :=
  (v == 0 /\ q == 0) \/ exists e, leading v e /\ rounded_to (Qpower (10 # 1) (e - n + 1)) v q.
(** [v] has at most [n] significant digits *)
Definition has_digits (n : Z) (v : Q) : Prop := exists m k, v == inject_Z m * Qpower (10 # 1) k /\ (Z.abs m < 10 ^ n)%Z.
(** [a] is [b] up to the relative error [r] *)
Definition near (r a b : Q) : Prop := Qabs (a - b) <= r * Qabs b.
