(** Model of FloatPoint.rotate, FloatSize.rotate, abs and distance over the real numbers,
    /repo/nion/utils/Geometry.py:289-296, 717-718, 759-768, 824-825, 859-867.
    Exact real arithmetic: no rounding, exact sin and cos. *)
From Coq Require Import Reals.
Local Open Scope R_scope.

Record rpoint := RPoint { ry : R; rx : R }.
Record rsize := RSize { rh : R; rw : R }.
(** 759-768; the absent origin is FloatPoint() *)
Definition rotate (p : rpoint) (radians : R) (origin : option rpoint) : rpoint :=
  let origin := match origin with Some o => o | None => RPoint 0 0 end in
  let dx := rx p - rx origin in
  let dy := ry p - ry origin in
  RPoint (ry origin + sin radians * dx + cos radians * dy) (rx origin + cos radians * dx - sin radians * dy).
(** 859-867 *)
Definition size_rotate (s : rsize) (radians : R) : rsize :=
  RSize (sin radians * rw s + cos radians * rh s) (cos radians * rw s - sin radians * rh s).
(** 717-718, 824-825 *)
Definition point_abs (p : rpoint) : R := sqrt (rx p ^ 2 + ry p ^ 2).
Definition size_abs (s : rsize) : R := sqrt (rw s ^ 2 + rh s ^ 2).
(** 289-296 *)
Definition distance (p q : rpoint) : R := sqrt ((ry q - ry p) ^ 2 + (rx q - rx p) ^ 2).
Definition midpoint (p q : rpoint) : rpoint := RPoint (1 / 2 * (ry p + ry q)) (1 / 2 * (rx p + rx q)).
