(** Model of further parts of /repo/nion/utils/Geometry.py: conversions of integer to float geometry (412-413, 520-521),
    aspect ratios (469-472, 611-614), slice (588-590), indexing and iteration (462-467, 604-609), inset_rect (284-286) and
    operators of FloatPoint and FloatSize (714-757, 819-852).  Finite floats are rationals; [rd] follows every operation on
    floats: the identity for exact arithmetic, [fl] for doubles. *)
From Coq Require Import ZArith QArith Bool List.
From Verif Require Import PyBase Float53_Model GeomInt_Model GeomFloat_Model.
Import ListNotations.
Local Open Scope Q_scope.

Section More.
  Variable rd : Q -> Q.
  (** float(n) *)
  Definition to_float (n : Z) : Q := rd (inject_Z n).
  (** 412-413 *)
  Definition to_float_size (s : isize) : fsize := FSize (to_float (sh s)) (to_float (sw s)).
  (** 520-521 and 893-898 with integer arguments: the size is computed in integers *)
  Definition to_float_rect (r : irect) : frect :=
    FRect (FPoint (to_float (r_top r)) (to_float (r_left r)))
          (FSize (to_float (r_bottom r - r_top r)) (to_float (r_right r - r_left r))).
  (** 469-472, 611-614 *)
  Definition i_aspect_ratio (s : isize) : Q := if (sh s =? 0)%Z then 1 else rd (to_float (sw s) / to_float (sh s)).
  (** 846-849 *)
  Definition fs_aspect_ratio (s : fsize) : Q := if Qeq_bool (fh s) 0 then 1 else rd (fw s / fh s).
  (** 714-715, 739-750 *)
  Definition fpoint_neg (p : fpoint) : fpoint := FPoint (- fy p) (- fx p).
  Definition fpoint_mul (p : fpoint) (k : Q) : fpoint := FPoint (rd (fy p * k)) (rd (fx p * k)).
  Definition fpoint_div (p : fpoint) (k : Q) : res fpoint :=
    if Qeq_bool k 0 then Err ZeroDivisionError else Ok (FPoint (rd (fy p / k)) (rd (fx p / k))).
  (** 284-286 on ((y, x), (h, w)) *)
  Definition inset_rect (r : (Q * Q) * (Q * Q)) (d : Q) : (Q * Q) * (Q * Q) :=
    let '((y, x), (h, w)) := r in ((rd (y + d), rd (x + d)), (rd (h - rd (2 * d)), rd (w - rd (2 * d)))).
  (** 998-1000: tuple() of a rectangle *)
  Definition f_tuple (r : frect) : (Q * Q) * (Q * Q) := ((f_top r, f_left r), (f_height r, f_width r)).
End More.
(** 604-609: tuple() of a rectangle, and make (487-490) of it *)
Definition r_tuple (r : irect) : (Q * Q) * (Q * Q) := (ipoint_tuple (r_origin r), isize_tuple (r_size r)).
Definition r_make (t : (Q * Q) * (Q * Q)) : irect := IRect (ipoint_make (fst t)) (isize_make (snd t)).
(** (a, b)[index], 375-376, 462-463, 604-605 *)
Definition pair_item {A} (a b : A) (i : Z) : res A :=
  if (i =? 0)%Z || (i =? -2)%Z then Ok a else if (i =? 1)%Z || (i =? -1)%Z then Ok b else Err IndexError.
(** 588-590: the bounds of the two slices *)
Definition r_slice (r : irect) : (Z * Z) * (Z * Z) := ((r_top r, r_bottom r), (r_left r, r_right r)).
(** the positions a slice(start, stop) selects in a sequence of length n: bounds below zero count from the end, and both are
    then limited to 0..n (Python's slice.indices with step 1) *)
Definition slice_bound (n k : Z) : Z := if (k <? 0)%Z then Z.max 0 (k + n) else Z.min k n.
Definition slice_selects (n : Z) (s : Z * Z) (i : Z) : bool := (slice_bound n (fst s) <=? i)%Z && (i <? slice_bound n (snd s))%Z.
