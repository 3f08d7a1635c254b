(** Model of the fuzzy FloatToStringConverter.convert_back, PhysicalValueToStringConverter.convert_back and
    FloatToPercentStringConverter, /repo/nion/utils/Converter.py:49-74, 93-102, 105-123.
    ASCII text.  Values are exact rationals: rounding to the nearest double and overflow to infinity are not modelled,
    except for the percent converter where both versions are given.  Not modelled: the {:g} formatting of floats and
    the fuzzy=False branch. *)
From Coq Require Import String Ascii List ZArith Bool QArith SpecFloat.
From Verif Require Import PyBase Text_Model ConvNum_Model ConvDate_Model.
Import ListNotations.
Local Open Scope Z_scope.

(** locale.localeconv(): the decimal point and the thousands separator (None: empty) *)
Record loc := Loc { decimal_point : ascii; thousands_sep : option ascii }.

(** further regular expression pieces; all of these return the matched text *)
Fixpoint p_star (f : ascii -> bool) (s : str) : list (str * str) :=
  match s with
  | c :: r => if f c then map (fun '(t, r') => (c :: t, r')) (p_star f r) ++ [([], s)] else [([], s)]
  | [] => [([], s)]
  end.
Definition p_opt (p : parser str) : parser str := p_or [p; p_ret []].
Definition p_cat (p q : parser str) : parser str := p_bind p (fun a => p_bind q (fun b => p_ret (a ++ b))).
Definition p_c (f : ascii -> bool) : parser str := p_bind (p_chr f) (fun c => p_ret [c]).
Definition p_look {A} (p : parser A) : parser str := fun s => match p s with [] => [] | _ => [([], s)] end.

Definition is_sign (c : ascii) : bool := eq_c "-" c || eq_c "+" c.
Definition is_point (c : ascii) : bool := eq_c "." c || eq_c "," c.
Definition is_exp (c : ascii) : bool := eq_c "E" c || eq_c "e" c.
(** 54-62: an optional sign, a look-ahead for a digit or a mark and a digit, digits, an optional mark with digits, an optional
    exponent; IGNORECASE *)
Definition number_re : parser str :=
  p_cat (p_opt (p_c is_sign))
 (p_cat (p_look (p_or [p_c is_digit; p_cat (p_c is_point) (p_c is_digit)]))
 (p_cat (p_star is_digit)
 (p_cat (p_opt (p_cat (p_c is_point) (p_star is_digit)))
        (p_opt (p_cat (p_c is_exp) (p_cat (p_opt (p_c is_sign)) (p_cat (p_c is_digit) (p_star is_digit)))))))).
(** 63: re.match, group(0) *)
Definition number_match (s : str) : option str := match number_re s with (t, _) :: _ => Some t | [] => None end.

(** str.replace for single characters, and removal *)
Definition replace_c (a b : ascii) (s : str) : str := map (fun c => if ascii_dec c a then b else c) s.
Definition remove_c (a : ascii) (s : str) : str := filter (fun c => if ascii_dec c a then false else true) s.
(** Python: locale.delocalize *)
Definition delocalize (l : loc) (s : str) : str :=
  let s1 := match thousands_sep l with Some c => remove_c c s | None => s end in replace_c (decimal_point l) "." s1.

Definition q_pow10 (e : Z) : Q := if 0 <=? e then inject_Z (10 ^ e) else (1 # Z.to_pos (10 ^ (- e))).
(** float(s) for texts made of digits, signs, points and exponent letters only: the forms inf, nan and digit groups with
    underscores do not occur in a matched number *)
Definition unsigned_exp (s : str) : option Z :=
  match s with [] => None | _ => if forallb is_digit s then Some (dec_value s) else None end.
Definition float_exp (s : str) : option Z :=
  match s with
  | [] => Some 0
  | c :: r => if is_exp c then
      match r with
      | sg :: r' => if eq_c "-" sg then option_map Z.opp (unsigned_exp r') else if eq_c "+" sg then unsigned_exp r' else unsigned_exp r
      | [] => None
      end else None
  end.
Definition frac_split (s : str) : str * str :=
  match s with c :: r => if eq_c "." c then span is_digit r else ([], s) | [] => ([], s) end.
Definition float_unsigned (s : str) : option Q :=
  let '(i, s1) := span is_digit s in
  let '(f, s2) := frac_split s1 in
  match i ++ f with
  | [] => None
  | _ => option_map (fun e => inject_Z (dec_value (i ++ f)) * q_pow10 (e - Z.of_nat (length f)))%Q (float_exp s2)
  end.
Definition py_float (s : str) : res Q :=
  let r := match s with
           | c :: t => if eq_c "-" c then option_map Qopp (float_unsigned t) else if eq_c "+" c then float_unsigned t else float_unsigned s
           | [] => None
           end in
  match r with Some q => Ok q | None => Err ValueError end.
(** Python: locale.atof *)
Definition atof (l : loc) (s : str) : res Q := py_float (delocalize l s).

(** 49-69 with fuzzy=True; [pass_none] and a None argument included *)
Definition fuzzy_back (l : loc) (s : str) : res Q :=
  match number_match (strip_by is_space s) with
  | Some t => if ascii_dec (decimal_point l) "." then atof l t else atof l (replace_c "." (decimal_point l) t)
  | None => Ok 0%Q
  end.
Definition float_back (l : loc) (pass_none : bool) (s : option str) : res (option Q) :=
  match s with
  | None => if pass_none then Ok None else Err AttributeError
  | Some t => if pass_none && (length t =? 0)%nat then Ok None
              else match fuzzy_back l t with Ok q => Ok (Some q) | Err e => Err e end
  end.
(** 121-123: a default FloatToStringConverter is used, whatever pass_none the converter was made with *)
Definition physical_back (l : loc) (mult : Q) (pass_none : bool) (s : option str) : res Q :=
  match float_back l false s with
  | Ok (Some q) => if Qeq_bool mult 0 then Err ZeroDivisionError else Ok (q / mult)%Q
  | Ok None => Err TypeError
  | Err e => Err e
  end.

(** float(s) on a text given by the user: C spaces are stripped.  inf, nan and digit groups with underscores are not
    modelled. *)
Definition float_call (s : str) : res Q := py_float (strip_by is_cspace s).
(** 96-98, 100-102 in exact arithmetic *)
Definition percent_convert (v : Q) : str := str_of_int (q_trunc (v * 100)) ++ lit "%".
Definition percent_back (s : str) : res Q :=
  match float_call (strip_by (eq_c "%") s) with Ok q => Ok (q / 100)%Q | Err e => Err e end.
(** the same in binary64 for the text of an integer *)
Definition fl_percent_convert (v : spec_float) : str := str_of_int (b64_trunc (SFmul 53 1024 v (b64 100))) ++ lit "%".
Definition fl_percent_back_int (k : Z) : spec_float := SFdiv 53 1024 (b64 k) (b64 100).
