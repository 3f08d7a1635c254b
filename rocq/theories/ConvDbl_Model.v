(** Converter.py 77-90 and 93-102 in double arithmetic, for an arbitrary range: every operation of Python floats is the exact
    operation followed by the rounding [fl] of Float53_Model.  Numbers are finite; overflow and subnormals are not
    modelled.  An integer operand is converted to a float first, which is [fl] of the integer.  The defaults 0 and 1 of
    the range are integers in Python; the difference 1 and the subtraction and addition of 0 are exact, so that the
    float computation below gives the same result. *)
From Coq Require Import String Ascii ZArith QArith Bool List.
From Verif Require Import PyBase Text_Model ConvNum_Model ConvDate_Model ConvFloat_Model Float53_Model.
Import ListNotations.
Local Open Scope Z_scope.

(** Converter.py 84-86: int(n * (value - value_min) / (value_max - value_min)) *)
Definition dbl_convert (n : Z) (mn mx v : Q) : res Z :=
  let w := fl (mx - mn) in
  if Qeq_bool w 0 then Err ZeroDivisionError
  else Ok (q_trunc (fl (fl (fl (inject_Z n) * fl (v - mn)) / w))).
(** Converter.py 88-90: value_int * (value_max - value_min) / n + value_min *)
Definition dbl_convert_back (n : Z) (mn mx : Q) (k : Z) : res Q :=
  if n =? 0 then Err ZeroDivisionError
  else Ok (fl (fl (fl (fl (inject_Z k) * fl (mx - mn)) / fl (inject_Z n)) + mn))%Q.
(** Converter.py 88-90 then 84-86: a position written to the value and read again, as a two-way binding between a slider
    and a float does *)
Definition dbl_trip (n : Z) (mn mx : Q) (k : Z) : res Z :=
  match dbl_convert_back n mn mx k with Ok v => dbl_convert n mn mx v | Err e => Err e end.

(** Converter.py 96-98: str(int(value * 100)) + "%" *)
Definition dbl_percent_convert (v : Q) : str := str_of_int (q_trunc (fl (v * 100))) ++ lit "%".
(** Converter.py 100-102: float(formatted_value.strip('%')) / 100.0 *)
Definition dbl_percent_back (s : str) : res Q :=
  match float_call (strip_by (eq_c "%") s) with Ok q => Ok (fl (fl q / 100)) | Err e => Err e end.
