(** Model of IntPoint, IntSize and IntRect, /repo/nion/utils/Geometry.py:305-671.
    Coordinates given by callers are rationals (ints or finite floats) and are truncated by int(); stored coordinates are
    integers.  Not modelled here: __str__/__repr__ and __abs__; aspect ratio, slice and conversions: see GeomMore. *)
From Coq Require Import ZArith QArith Bool.
From Verif Require Import PyBase ConvNum_Model Float53_Model.
Local Open Scope Z_scope.

(** 305-335 *)
Record ipoint := IPoint { py : Z; px : Z }.
Definition ipoint_of (y x : Q) : ipoint := IPoint (q_trunc y) (q_trunc x).
(** 313-316, and tuple() / indexing, 375-381 *)
Definition ipoint_make (t : Q * Q) : ipoint := ipoint_of (fst t) (snd t).
Definition ipoint_tuple (p : ipoint) : Q * Q := (inject_Z (py p), inject_Z (px p)).
(** 337-347; None is the absent argument *)
Definition ipoint_eq (p : ipoint) (o : option (Q * Q)) : bool :=
  match o with Some t => let q := ipoint_make t in (px p =? px q) && (py p =? py q) | None => false end.
Definition ipoint_ne (p : ipoint) (o : option (Q * Q)) : bool :=
  match o with Some t => let q := ipoint_make t in negb (px p =? px q) || negb (py p =? py q) | None => true end.
(** 349-350, 355-357, 365-367 *)
Definition ipoint_neg (p : ipoint) : ipoint := IPoint (- py p) (- px p).
Definition ipoint_add (p q : ipoint) : ipoint := IPoint (py p + py q) (px p + px q).
Definition ipoint_sub (p q : ipoint) : ipoint := IPoint (py p - py q) (px p - px q).

(** 383-404 *)
Record isize := ISize { sh : Z; sw : Z }.
Definition isize_of (h w : Q) : isize := ISize (q_trunc h) (q_trunc w).
Definition isize_make (t : Q * Q) : isize := isize_of (fst t) (snd t).
Definition isize_tuple (s : isize) : Q * Q := (inject_Z (sh s), inject_Z (sw s)).
(** 425-435 *)
Definition isize_eq (s : isize) (o : option (Q * Q)) : bool :=
  match o with Some t => let q := isize_make t in (sw s =? sw q) && (sh s =? sh q) | None => false end.
Definition isize_ne (s : isize) (o : option (Q * Q)) : bool :=
  match o with Some t => let q := isize_make t in negb (sw s =? sw q) || negb (sh s =? sh q) | None => true end.
(** 437-449; the other operand is made an IntSize first *)
Definition isize_neg (s : isize) : isize := ISize (- sh s) (- sw s).
Definition isize_add (s : isize) (t : Q * Q) : isize := let q := isize_make t in ISize (sh s + sh q) (sw s + sw q).
Definition isize_sub (s : isize) (t : Q * Q) : isize := let q := isize_make t in ISize (sh s - sh q) (sw s - sw q).
(** 451-457: int(float(h) * float(m)) *)
Definition isize_mul (s : isize) (m : Q) : isize :=
  isize_of (fl (fl (inject_Z (sh s)) * fl m)) (fl (fl (inject_Z (sw s)) * fl m)).
(** 459-460 with an integer divisor: int(h / k), the quotient rounded once; ZeroDivisionError for 0 *)
Definition isize_floordiv (s : isize) (k : Z) : res isize :=
  if k =? 0 then Err ZeroDivisionError
  else Ok (isize_of (fl (inject_Z (sh s) / inject_Z k)) (fl (inject_Z (sw s) / inject_Z k))).
(** 358-359, 368-369: IntPoint with IntSize *)
Definition ipoint_add_size (p : ipoint) (s : isize) : ipoint := IPoint (py p + sh s) (px p + sw s).
Definition ipoint_sub_size (p : ipoint) (s : isize) : ipoint := IPoint (py p - sh s) (px p - sw s).

(** 475-486, 523-561 *)
Record irect := IRect { r_origin : ipoint; r_size : isize }.
Definition r_width (r : irect) : Z := sw (r_size r).
Definition r_height (r : irect) : Z := sh (r_size r).
Definition r_left (r : irect) : Z := px (r_origin r).
Definition r_top (r : irect) : Z := py (r_origin r).
Definition r_right (r : irect) : Z := px (r_origin r) + sw (r_size r).
Definition r_bottom (r : irect) : Z := py (r_origin r) + sh (r_size r).
(** 563-581 *)
Definition r_top_left (r : irect) : ipoint := IPoint (r_top r) (r_left r).
Definition r_top_right (r : irect) : ipoint := IPoint (r_top r) (r_right r).
Definition r_bottom_left (r : irect) : ipoint := IPoint (r_bottom r) (r_left r).
Definition r_bottom_right (r : irect) : ipoint := IPoint (r_bottom r) (r_right r).
(** 583-586 *)
Definition r_center (r : irect) : ipoint := IPoint ((r_top r + r_bottom r) / 2) ((r_left r + r_right r) / 2).
(** 492-498: the half size is int(height * 0.5) *)
Definition r_from_center_and_size (c : ipoint) (s : isize) : irect :=
  IRect (ipoint_sub_size c (isize_of (fl (fl (inject_Z (sh s)) * (1 # 2))) (fl (fl (inject_Z (sw s)) * (1 # 2))))) s.
(** 500-512 *)
Definition r_from_tlbr (t l b r : Z) : irect := IRect (IPoint t l) (ISize (b - t) (r - l)).
Definition r_from_tlhw (t l h w : Z) : irect := IRect (IPoint t l) (ISize h w).
(** 592-602 *)
Definition r_eq (r : irect) (o : option irect) : bool :=
  match o with
  | Some q => ipoint_eq (r_origin r) (Some (ipoint_tuple (r_origin q))) && isize_eq (r_size r) (Some (isize_tuple (r_size q)))
  | None => false
  end.
(** 616-623 *)
Definition r_contains_point (r : irect) (t : Q * Q) : bool :=
  let p := ipoint_make t in (r_left r <=? px p) && (px p <? r_right r) && (r_top r <=? py p) && (py p <? r_bottom r).
(** 625-633 *)
Definition r_intersects_rect (a b : irect) : bool :=
  if (r_right b <? r_left a) || (r_right a <? r_left b) then false
  else if (r_bottom a <? r_top b) || (r_bottom b <? r_top a) then false else true.
(** 635-637 *)
Definition r_translated (r : irect) (t : Q * Q) : irect := IRect (ipoint_add (r_origin r) (ipoint_make t)) (r_size r).
(** 639-644 with integer arguments *)
Definition r_inset (r : irect) (dx : Z) (dy : option Z) : irect :=
  let dy := match dy with Some d => d | None => dx end in
  IRect (IPoint (r_top r + dy) (r_left r + dx)) (ISize (r_height r - dy * 2) (r_width r - dx * 2)).
(** 646-658 *)
Definition r_intersect (a b : irect) : irect :=
  r_from_tlbr (Z.max (r_top a) (r_top b)) (Z.max (r_left a) (r_left b)) (Z.min (r_bottom a) (r_bottom b)) (Z.min (r_right a) (r_right b)).
Definition r_union (a b : irect) : irect :=
  r_from_tlbr (Z.min (r_top a) (r_top b)) (Z.min (r_left a) (r_left b)) (Z.max (r_bottom a) (r_bottom b)) (Z.max (r_right a) (r_right b)).
(** 660-670, and IntPoint + / - IntRect, 360-361, 370-371 *)
Definition r_add (r : irect) (p : ipoint) : irect := r_from_center_and_size (ipoint_add (r_center r) p) (r_size r).
Definition r_sub (r : irect) (p : ipoint) : irect := r_from_center_and_size (ipoint_sub (r_center r) p) (r_size r).
Definition ipoint_add_rect (p : ipoint) (r : irect) : irect := r_add r p.
Definition ipoint_sub_rect (p : ipoint) (r : irect) : irect := r_from_center_and_size (ipoint_sub p (r_center r)) (r_size r).
