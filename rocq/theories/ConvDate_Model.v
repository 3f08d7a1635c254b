(** Model of DatetimeToStringConverter, /repo/nion/utils/Converter.py:155-166, with the parts of Python's datetime it
    uses: isoformat, strptime for two fixed formats, and the constructor's range checks.  ASCII text only. *)
From Coq Require Import String Ascii List ZArith Bool.
From Verif Require Import PyBase Text_Model.
Import ListNotations.
Local Open Scope Z_scope.

Record datetime := DT { dt_year : Z; dt_month : Z; dt_day : Z; dt_hour : Z; dt_minute : Z; dt_second : Z; dt_micro : Z }.

(** datetime's constructor: ValueError unless every field is in range (Python: _check_date_fields, _check_time_fields) *)
Definition py_is_leap (y : Z) : bool := (y mod 4 =? 0) && (negb (y mod 100 =? 0) || (y mod 400 =? 0)).
Definition py_days_in_month (y m : Z) : Z :=
  if (m =? 2) && py_is_leap y then 29 else nth (Z.to_nat m) [-1; 31; 28; 31; 30; 31; 30; 31; 31; 30; 31; 30; 31] (-1).
Definition between (a x b : Z) : bool := (a <=? x) && (x <=? b).
Definition mk_datetime (d : datetime) : res datetime :=
  if between 1 (dt_year d) 9999 && between 1 (dt_month d) 12 && between 1 (dt_day d) (py_days_in_month (dt_year d) (dt_month d)) &&
     between 0 (dt_hour d) 23 && between 0 (dt_minute d) 59 && between 0 (dt_second d) 59 && between 0 (dt_micro d) 999999
  then Ok d else Err ValueError.

(** datetime.isoformat: '%04d-%02d-%02dT%02d:%02d:%02d' and '.%06d' if there are microseconds *)
Definition iso_naive (d : datetime) : str :=
  pad 4 (dt_year d) ++ "-"%char :: pad 2 (dt_month d) ++ "-"%char :: pad 2 (dt_day d) ++ "T"%char ::
  pad 2 (dt_hour d) ++ ":"%char :: pad 2 (dt_minute d) ++ ":"%char :: pad 2 (dt_second d) ++
  (if dt_micro d =? 0 then [] else "."%char :: pad 6 (dt_micro d)).
(** the UTC offset of an aware datetime, in microseconds: '+HH:MM', ':SS' if there are seconds or microseconds, '.ffffff'
    if there are microseconds (Python: _format_offset) *)
Definition iso_offset (off : Z) : str :=
  let a := Z.abs off in
  let hh := a / 3600000000 in let mm := (a / 60000000) mod 60 in let ss := (a / 1000000) mod 60 in let us := a mod 1000000 in
  (if off <? 0 then "-"%char else "+"%char) :: pad 2 hh ++ ":"%char :: pad 2 mm ++
  (if (ss =? 0) && (us =? 0) then [] else ":"%char :: pad 2 ss ++ (if us =? 0 then [] else "."%char :: pad 6 us)).
(** 156-157; a datetime with an optional UTC offset *)
Definition date_convert (d : datetime) (off : option Z) : str :=
  iso_naive d ++ match off with Some o => iso_offset o | None => [] end.

(** regular expression pieces of _strptime.TimeRE, matched by backtracking: all matches in the order the engine tries them *)
Definition parser (A : Type) : Type := str -> list (A * str).
Definition p_bind {A B} (p : parser A) (f : A -> parser B) : parser B := fun s => flat_map (fun '(a, r) => f a r) (p s).
Definition p_ret {A} (a : A) : parser A := fun s => [(a, s)].
(** one character satisfying a test *)
Definition p_chr (f : ascii -> bool) : parser ascii :=
  fun s => match s with c :: r => if f c then [(c, r)] else [] | [] => [] end.
Definition in_range (a b : ascii) (c : ascii) : bool := between (code a) (code c) (code b).
(** a literal; the expressions are compiled with IGNORECASE *)
Definition up (c : ascii) : ascii := if in_range "a" "z" c then chr (code c - 32) else c.
Definition p_lit (c : ascii) : parser ascii := p_chr (fun d => if ascii_dec (up d) (up c) then true else false).
Definition p_or {A} (ps : list (parser A)) : parser A := fun s => flat_map (fun p => p s) ps.
(** two characters, one character; the value is int() of the text *)
Definition p_two (f g : ascii -> bool) : parser Z :=
  p_bind (p_chr f) (fun a => p_bind (p_chr g) (fun b => p_ret (digit_val a * 10 + digit_val b))).
Definition p_one (f : ascii -> bool) : parser Z := p_bind (p_chr f) (fun a => p_ret (digit_val a)).
Definition eq_c (a c : ascii) : bool := if ascii_dec a c then true else false.

(** \d\d\d\d *)
Definition p_Y : parser Z :=
  p_bind (p_two is_digit is_digit) (fun a => p_bind (p_two is_digit is_digit) (fun b => p_ret (a * 100 + b))).
(** 1[0-2]|0[1-9]|[1-9] *)
Definition p_m : parser Z := p_or [p_two (eq_c "1") (in_range "0" "2"); p_two (eq_c "0") (in_range "1" "9"); p_one (in_range "1" "9")].
(** 3[0-1]|[1-2]\d|0[1-9]|[1-9]| [1-9] *)
Definition p_d : parser Z :=
  p_or [p_two (eq_c "3") (in_range "0" "1"); p_two (in_range "1" "2") is_digit; p_two (eq_c "0") (in_range "1" "9");
        p_one (in_range "1" "9"); p_bind (p_chr (eq_c " ")) (fun _ => p_one (in_range "1" "9"))].
(** 2[0-3]|[0-1]\d|\d *)
Definition p_H : parser Z := p_or [p_two (eq_c "2") (in_range "0" "3"); p_two (in_range "0" "1") is_digit; p_one is_digit].
(** [0-5]\d|\d *)
Definition p_M : parser Z := p_or [p_two (in_range "0" "5") is_digit; p_one is_digit].
(** 6[0-1]|[0-5]\d|\d *)
Definition p_S : parser Z := p_or [p_two (eq_c "6") (in_range "0" "1"); p_two (in_range "0" "5") is_digit; p_one is_digit].
(** [0-9]{1,6}, greedy *)
Fixpoint p_digits (max : nat) : parser str :=
  match max with
  | O => fun s => [([], s)]
  | S k => fun s => match s with
           | c :: r => if is_digit c then map (fun '(t, r') => (c :: t, r')) (p_digits k r) ++ [([], s)] else [([], s)]
           | [] => [([], s)]
           end
  end.
Definition p_f : parser Z :=
  p_bind (p_chr is_digit) (fun c => p_bind (p_digits 5) (fun t =>
    p_ret (dec_value (c :: t) * 10 ^ (6 - Z.of_nat (length (c :: t)))))).

Definition p_date (frac : bool) : parser datetime :=
  p_bind p_Y (fun y => p_bind (p_lit "-") (fun _ => p_bind p_m (fun mo => p_bind (p_lit "-") (fun _ =>
  p_bind p_d (fun d => p_bind (p_lit "T") (fun _ => p_bind p_H (fun h => p_bind (p_lit ":") (fun _ =>
  p_bind p_M (fun mi => p_bind (p_lit ":") (fun _ => p_bind p_S (fun sec =>
  if frac then p_bind (p_lit ".") (fun _ => p_bind p_f (fun us => p_ret (DT y mo d h mi sec us)))
  else p_ret (DT y mo d h mi sec 0)))))))))))).

(** datetime.strptime: the first match must reach the end of the text, and the fields must be in range *)
Definition strptime (frac : bool) (s : str) : res datetime :=
  match p_date frac s with
  | (d, []) :: _ => mk_datetime d
  | _ => Err ValueError
  end.

(** 158-166 *)
Definition date_convert_back (s : str) : option datetime :=
  let r := if (length s =? 26)%nat then strptime true s else if (length s =? 19)%nat then strptime false s else Err ValueError in
  match r with Ok d => Some d | Err _ => None end.
