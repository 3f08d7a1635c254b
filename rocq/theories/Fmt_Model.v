(** Decimal text of numbers: Python's format codes f, e and g for finite floats.  Used by Geometry.py 180-190 (labels of a
    LinearTicker) and by the default formats of Converter.py 35-47 and 105-119.
    A finite float is a rational.  Python rounds to the nearest decimal, ties to even.  Not modelled: NaN, the infinities and
    the sign of a negative zero. *)
From Coq Require Import String Ascii List ZArith Bool QArith Qabs.
From Verif Require Import PyBase Text_Model ConvFloat_Model Float53_Model.
Import ListNotations.
Local Open Scope Z_scope.

Definition tens (k : Z) : Q := Qpower (10 # 1) k.
(** the nearest integer, ties to even *)
Definition nearest (q : Q) : Z := half_even (Qnum q) (Zpos (Qden q)).
(** the exponent e with 10^e <= v < 10^(e+1), for v > 0: the number of digits before the point, or of zeros after it *)
Definition digits_of (n : Z) : Z := Z.of_nat (length (dec n)).
Definition dec_exponent (v : Q) : Z :=
  let n := Qnum v in let d := Zpos (Qden v) in
  if d <=? n then digits_of (n / d) - 1 else - digits_of ((d - 1) / n).

(** m / 10^k with k digits after the point, and no point for k = 0 *)
Definition decimal (k : nat) (m : Z) : str :=
  dec (m / 10 ^ Z.of_nat k) ++ (match k with O => [] | S _ => "."%char :: pad k (m mod 10 ^ Z.of_nat k) end).
Definition minus (v : Q) : str := if Qle_bool 0 v then [] else lit "-".
(** "{:.pf}".format(v), and "{:0.pf}" which is the same *)
Definition fmt_f (p : nat) (v : Q) : str := minus v ++ decimal p (nearest (Qabs v * tens (Z.of_nat p))).

(** the p + 1 digits m of v > 0 and its exponent: v is about m * 10^(e - p) *)
Definition significant (p : nat) (v : Q) : Z * Z :=
  let e := dec_exponent v in
  let m := nearest (v * tens (Z.of_nat p - e)) in
  if m =? 10 ^ (Z.of_nat p + 1) then (10 ^ Z.of_nat p, e + 1) else (m, e).
(** an exponent has at least two digits *)
Definition exp_text (e : Z) : str :=
  "e"%char :: (if e <? 0 then "-"%char else "+"%char) :: (if Z.abs e <? 10 then pad 2 (Z.abs e) else dec (Z.abs e)).
(** "{:.pe}".format(v) *)
Definition fmt_e (p : nat) (v : Q) : str :=
  let '(m, e) := if Qeq_bool v 0 then (0, 0) else significant p (Qabs v) in
  minus v ++ decimal p m ++ exp_text e.

(** trailing zeros removed: m / 10^k with as few digits after the point as possible *)
Fixpoint trim (k : nat) (m : Z) : nat * Z :=
  match k with
  | O => (O, m)
  | S j => if m mod 10 =? 0 then trim j (m / 10) else (k, m)
  end.
Definition short_decimal (k : nat) (m : Z) : str := let '(j, n) := trim k m in decimal j n.
(** "{:g}".format(v): six significant digits *)
Definition fmt_g (v : Q) : str :=
  if Qeq_bool v 0 then lit "0"
  else
    let '(m, e) := significant 5 (Qabs v) in
    minus v ++ (if (-4 <=? e) && (e <? 6) then short_decimal (Z.to_nat (5 - e)) m else short_decimal 5 m ++ exp_text e).

(** Converter.py 42-47 with the default format "{:g}"; None without pass_none has no format *)
Definition float_convert (pass_none : bool) (v : option Q) : res (option str) :=
  match v with
  | None => if pass_none then Ok None else Err TypeError
  | Some q => Ok (Some (fmt_g q))
  end.
(** Converter.py 115-119 with the default format "{:g} {:s}"; [mul] is the product *)
Definition physical_convert (mul : Q -> Q -> Q) (units : str) (mult : Q) (pass_none : bool) (v : option Q) : res (option str) :=
  match v with
  | None => if pass_none then Ok None else Err TypeError
  | Some q => Ok (Some (fmt_g (mul q mult) ++ lit " " ++ units))
  end.
(** 70-74, fuzzy=False.  For texts of digits, signs, points, commas and exponent letters only, see [py_float] *)
Definition strict_back (l : loc) (s : str) : res Q :=
  if ascii_dec (decimal_point l) "." then atof l s else atof l (replace_c "." (decimal_point l) s).
(** 121-123 in doubles: the number is rounded when it is read, and again after the division *)
Definition fl_physical_back (l : loc) (mult : Q) (s : str) : res Q :=
  match fuzzy_back l s with
  | Ok q => if Qeq_bool mult 0 then Err ZeroDivisionError else Ok (fl (fl q / mult))
  | Err e => Err e
  end.
