(** Sets of points of integer rectangles. *)
From Coq Require Import ZArith QArith.
From Verif Require Import GeomInt_Model.
Local Open Scope Z_scope.

(** integer point (y, x) lies in the half-open box of [r]: lower edges included, upper edges not *)
Definition inside (r : irect) (y x : Z) : Prop :=
  let '(IRect (IPoint t l) (ISize h w)) := r in t <= y < t + h /\ l <= x < l + w.
(** ... in the closed box *)
Definition inside_closed (r : irect) (y x : Z) : Prop :=
  let '(IRect (IPoint t l) (ISize h w)) := r in t <= y <= t + h /\ l <= x <= l + w.
(** the edges of [r], in the order top, left, bottom, right *)
Definition edges (r : irect) : Z * Z * Z * Z :=
  let '(IRect (IPoint t l) (ISize h w)) := r in (t, l, t + h, l + w).
(** the edges of [big] enclose those of [r] *)
Definition encloses (big r : irect) : Prop :=
  let '(t1, l1, b1, r1) := edges big in let '(t2, l2, b2, r2) := edges r in t1 <= t2 /\ l1 <= l2 /\ b2 <= b1 /\ r2 <= r1.
Definition nonneg_size (r : irect) : Prop := 0 <= sh (r_size r) /\ 0 <= sw (r_size r).
(** sizes that doubles represent exactly *)
Definition double_size (r : irect) : Prop := Z.abs (sh (r_size r)) <= 2 ^ 53 /\ Z.abs (sw (r_size r)) <= 2 ^ 53.
(** [n] is [q] with its fraction dropped *)
Definition truncates (q : Q) (n : Z) : Prop :=
  (0 <= q -> inject_Z n <= q /\ q < inject_Z (n + 1))%Q /\ (q <= 0 -> inject_Z (n - 1) < q /\ q <= inject_Z n)%Q.
