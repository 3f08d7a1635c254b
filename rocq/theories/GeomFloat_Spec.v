(** Equality of points and rectangles by value, and the points of a rectangle. *)
From Coq Require Import ZArith QArith.
From Verif Require Import PyBase GeomFloat_Model.
Local Open Scope Q_scope.

Definition id_q (q : Q) : Q := q.
Definition point_same (p q : fpoint) : Prop := fy p == fy q /\ fx p == fx q.
Definition size_same (s u : fsize) : Prop := fh s == fh u /\ fw s == fw u.
Definition rect_same (a b : frect) : Prop := point_same (f_origin a) (f_origin b) /\ size_same (f_size a) (f_size b).
(** the result is there and is what is expected *)
Definition gives {A} (same : A -> A -> Prop) (r : res A) (x : A) : Prop := match r with Ok y => same y x | Err _ => False end.
Definition finside (r : frect) (p : fpoint) : Prop :=
  let '(FRect (FPoint t l) (FSize h w)) := r in (t <= fy p /\ fy p < t + h) /\ (l <= fx p /\ fx p < l + w).
Definition finside_closed (r : frect) (p : fpoint) : Prop :=
  let '(FRect (FPoint t l) (FSize h w)) := r in (t <= fy p /\ fy p <= t + h) /\ (l <= fx p /\ fx p <= l + w).
(** the edges of [big] enclose those of [r] *)
Definition fencloses (big r : frect) : Prop :=
  let '(FRect (FPoint t1 l1) (FSize h1 w1)) := big in let '(FRect (FPoint t2 l2) (FSize h2 w2)) := r in
  t1 <= t2 /\ l1 <= l2 /\ t2 + h2 <= t1 + h1 /\ l2 + w2 <= l1 + w1.
(** a frame a point can be mapped from *)
Definition frame (r : frect) : Prop := ~ fh (f_size r) == 0 /\ ~ fw (f_size r) == 0.
(** the point at fractions (u, v) of the rectangle *)
Definition at_fraction (r : frect) (u v : Q) : fpoint :=
  let '(FRect (FPoint t l) (FSize h w)) := r in FPoint (t + u * h) (l + v * w).
