(** Model of FloatPoint, FloatSize, FloatRect, fit_to_aspect_ratio, fit_to_size and map_point/size/rect,
    /repo/nion/utils/Geometry.py:264-281, 673-1076.
    Finite floats are rationals; every arithmetic operation is followed by [rd]: the identity for exact arithmetic, [fl]
    for doubles.  Not modelled: __abs__ and rotate (GeomRot), strings, and NaN or infinite coordinates. *)
From Coq Require Import ZArith QArith Qminmax Bool.
From Verif Require Import PyBase.
Local Open Scope Q_scope.

(** 673-690, 770-786, 869-879 *)
Record fpoint := FPoint { fy : Q; fx : Q }.
Record fsize := FSize { fh : Q; fw : Q }.
Record frect := FRect { f_origin : fpoint; f_size : fsize }.

(** x < y and x <= y on floats; Python's max and min keep the first of two equal arguments *)
Definition f_lt (x y : Q) : bool := negb (Qle_bool y x).
Definition f_max (x y : Q) : Q := if f_lt x y then y else x.
Definition f_min (x y : Q) : Q := if f_lt y x then y else x.

Section Float.
  Variable rd : Q -> Q.

  (** 720-742 *)
  Definition fpoint_add (p q : fpoint) : fpoint := FPoint (rd (fy p + fy q)) (rd (fx p + fx q)).
  Definition fpoint_sub (p q : fpoint) : fpoint := FPoint (rd (fy p - fy q)) (rd (fx p - fx q)).
  Definition fpoint_sub_size (p : fpoint) (s : fsize) : fpoint := FPoint (rd (fy p - fh s)) (rd (fx p - fw s)).
  (** 702-712, 809-819: == *)
  Definition fpoint_eq (p q : fpoint) : bool := Qeq_bool (fx p) (fx q) && Qeq_bool (fy p) (fy q).
  Definition fsize_eq (s u : fsize) : bool := Qeq_bool (fw s) (fw u) && Qeq_bool (fh s) (fh u).
  (** 928-956 *)
  Definition f_left (r : frect) : Q := fx (f_origin r).
  Definition f_top (r : frect) : Q := fy (f_origin r).
  Definition f_width (r : frect) : Q := fw (f_size r).
  Definition f_height (r : frect) : Q := fh (f_size r).
  Definition f_right (r : frect) : Q := rd (fx (f_origin r) + fw (f_size r)).
  Definition f_bottom (r : frect) : Q := rd (fy (f_origin r) + fh (f_size r)).
  (** 978-980 *)
  Definition f_center (r : frect) : fpoint :=
    FPoint (rd (rd (f_top r + f_bottom r) * (1 # 2))) (rd (rd (f_left r + f_right r) * (1 # 2))).
  (** 886-906 *)
  Definition f_from_center_and_size (c : fpoint) (s : fsize) : frect :=
    FRect (fpoint_sub_size c (FSize (rd (fh s * (1 # 2))) (rd (fw s * (1 # 2))))) s.
  Definition f_from_tlbr (t l b r : Q) : frect := FRect (FPoint t l) (FSize (rd (b - t)) (rd (r - l))).
  Definition f_from_tlhw (t l h w : Q) : frect := FRect (FPoint t l) (FSize h w).
  (** 983-987 *)
  Definition f_eq (a b : frect) : bool := fpoint_eq (f_origin a) (f_origin b) && fsize_eq (f_size a) (f_size b).
  (** 1002-1005 *)
  Definition f_aspect_ratio (r : frect) : Q := if Qeq_bool (f_height r) 0 then 1 else rd (f_width r / f_height r).
  (** 1007-1014 *)
  Definition f_contains_point (r : frect) (p : fpoint) : bool :=
    Qle_bool (f_left r) (fx p) && f_lt (fx p) (f_right r) && Qle_bool (f_top r) (fy p) && f_lt (fy p) (f_bottom r).
  (** 1016-1024 *)
  Definition f_intersects_rect (a b : frect) : bool :=
    if f_lt (f_right b) (f_left a) || f_lt (f_right a) (f_left b) then false
    else if f_lt (f_bottom a) (f_top b) || f_lt (f_bottom b) (f_top a) then false else true.
  (** 1026-1035 *)
  Definition f_translated (r : frect) (p : fpoint) : frect := FRect (fpoint_add (f_origin r) p) (f_size r).
  Definition f_inset (r : frect) (dx : Q) (dy : option Q) : frect :=
    let dy := match dy with Some d => d | None => dx end in
    FRect (FPoint (rd (f_top r + dy)) (rd (f_left r + dx)))
          (FSize (rd (f_height r - rd (dy * 2))) (rd (f_width r - rd (dx * 2)))).
  (** 1037-1049 *)
  Definition f_intersect (a b : frect) : frect :=
    f_from_tlbr (f_max (f_top a) (f_top b)) (f_max (f_left a) (f_left b)) (f_min (f_bottom a) (f_bottom b)) (f_min (f_right a) (f_right b)).
  Definition f_union (a b : frect) : frect :=
    f_from_tlbr (f_min (f_top a) (f_top b)) (f_min (f_left a) (f_left b)) (f_max (f_bottom a) (f_bottom b)) (f_max (f_right a) (f_right b)).
  (** 1051-1061 *)
  Definition f_add (r : frect) (p : fpoint) : frect := f_from_center_and_size (fpoint_add (f_center r) p) (f_size r).
  Definition f_sub (r : frect) (p : fpoint) : frect := f_from_center_and_size (fpoint_sub (f_center r) p) (f_size r).

  (** 264-276; rect.width / aspect_ratio divides by zero *)
  Definition fit_to_aspect_ratio (r : frect) (ratio : Q) : res frect :=
    if f_lt ratio (f_aspect_ratio r) then
      let s := FSize (f_height r) (rd (f_height r * ratio)) in
      Ok (FRect (FPoint (f_top r) (rd (f_left r + rd ((1 # 2) * rd (f_width r - fw s))))) s)
    else if Qeq_bool ratio 0 then Err ZeroDivisionError
    else
      let s := FSize (rd (f_width r / ratio)) (f_width r) in
      Ok (FRect (FPoint (rd (f_top r + rd ((1 # 2) * rd (f_height r - fh s)))) (f_left r)) s).
  (** 279-281; the size is (height, width) *)
  Definition fit_to_size (r : frect) (s : fsize) : res frect :=
    if Qeq_bool (fh s) 0 then Err ZeroDivisionError else fit_to_aspect_ratio r (rd (fw s / fh s)).

  (** 1064-1071; a frame of zero height or width divides by zero *)
  Definition map_point (p : fpoint) (f t : frect) : res fpoint :=
    if Qeq_bool (f_height f) 0 || Qeq_bool (f_width f) 0 then Err ZeroDivisionError
    else Ok (FPoint (rd (rd (rd (rd (fy p - f_top f) / f_height f) * f_height t) + f_top t))
                    (rd (rd (rd (rd (fx p - f_left f) / f_width f) * f_width t) + f_left t))).
  Definition map_size (s : fsize) (f t : frect) : res fsize :=
    if Qeq_bool (f_height f) 0 || Qeq_bool (f_width f) 0 then Err ZeroDivisionError
    else Ok (FSize (rd (rd (fh s / f_height f) * f_height t)) (rd (rd (fw s / f_width f) * f_width t))).
  (** 1074-1076 *)
  Definition map_rect (r f t : frect) : res frect :=
    match map_point (f_center r) f t with
    | Ok c => match map_size (f_size r) f t with Ok s => Ok (f_from_center_and_size c s) | Err e => Err e end
    | Err e => Err e
    end.
End Float.
