(** Model of IntegerToStringConverter (default format), FloatToScaledIntegerConverter and
    CheckedToCheckStateConverter, /repo/nion/utils/Converter.py:19-32, 77-90, 126-135.
    Not modelled: other format strings; Python's limit of 4300 digits for int/str conversion. *)
From Coq Require Import String Ascii List ZArith Bool QArith SpecFloat.
From Verif Require Import PyBase Text_Model.
Import ListNotations.
Local Open Scope Z_scope.

(** int(s): C spaces stripped, optional sign, digits with single underscores between them *)
Fixpoint int_rest (s : str) (acc : Z) {struct s} : option Z :=
  match s with
  | [] => Some acc
  | c :: s' =>
      if is_digit c then int_rest s' (acc * 10 + digit_val c)
      else if ascii_dec c "_" then
        match s' with
        | d :: s'' => if is_digit d then int_rest s'' (acc * 10 + digit_val d) else None
        | [] => None
        end
      else None
  end.
Definition int_digits (s : str) : option Z :=
  match s with
  | c :: s' => if is_digit c then int_rest s' (digit_val c) else None
  | [] => None
  end.
Definition py_int (s : str) : res Z :=
  let r := match strip_by is_cspace s with
           | c :: t => if ascii_dec c "-" then option_map Z.opp (int_digits t)
                       else if ascii_dec c "+" then int_digits t else int_digits (c :: t)
           | [] => None
           end in
  match r with Some n => Ok n | None => Err ValueError end.

(** 26-28, 30-32 *)
Definition int_convert (n : Z) : str := str_of_int n.
Definition int_convert_back (s : str) : res Z := py_int s.

(** FloatToScaledIntegerConverter in exact arithmetic, 84-86 and 88-90.  int() truncates toward zero. *)
Definition q_trunc (q : Q) : Z := Z.quot (Qnum q) (Zpos (Qden q)).
Definition scaled_convert (n : Z) (mn mx v : Q) : res Z :=
  if Qeq_bool (mx - mn) 0 then Err ZeroDivisionError
  else Ok (q_trunc (inject_Z n * (v - mn) / (mx - mn))).
Definition scaled_convert_back (n : Z) (mn mx : Q) (k : Z) : res Q :=
  if n =? 0 then Err ZeroDivisionError
  else Ok (inject_Z k * (mx - mn) / inject_Z n + mn)%Q.

(** The same in IEEE binary64 arithmetic, round to nearest even; min and max are the default 0 and 1. *)
Definition b64 (z : Z) : spec_float := binary_normalize 53 1024 z 0 false.
Definition b64_trunc (x : spec_float) : Z :=
  match x with
  | S754_finite s m e => let a := match e with
                                  | Z0 => Zpos m | Zpos p => Zpos m * 2 ^ Zpos p | Zneg p => Zpos m / 2 ^ Zpos p
                                  end in if s then - a else a
  | _ => 0
  end.
Definition fl_convert (n : Z) (v : spec_float) : Z :=
  b64_trunc (SFdiv 53 1024 (SFmul 53 1024 (b64 n) (SFsub 53 1024 v (b64 0))) (b64 1)).
Definition fl_convert_back (n k : Z) : spec_float :=
  SFadd 53 1024 (SFdiv 53 1024 (b64 (k * (1 - 0))) (b64 n)) (b64 0).

(** 129-135 *)
Definition check_convert (b : bool) : str := if b then lit "checked" else lit "unchecked".
Definition check_convert_back (s : str) : bool := if list_eq_dec ascii_dec s (lit "checked") then true else false.
