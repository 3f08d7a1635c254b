(** ASCII text as lists of characters, and the Python text primitives used by Converter.py.
    Only ASCII is modelled (Python also treats other Unicode digits and spaces as digits and spaces). *)
From Coq Require Import String Ascii List ZArith Bool.
From Verif Require Import PyBase.
Import ListNotations.
Local Open Scope Z_scope.

Definition str : Type := list ascii.
Definition lit (s : string) : str := list_ascii_of_string s.
Definition code (c : ascii) : Z := Z.of_nat (nat_of_ascii c).
Definition chr (n : Z) : ascii := ascii_of_nat (Z.to_nat n).

Definition is_digit (c : ascii) : bool := (48 <=? code c) && (code c <=? 57).
Definition digit_val (c : ascii) : Z := code c - 48.
Definition digit_char (d : Z) : ascii := chr (48 + d).

(** str.isspace for ASCII, used by str.strip() *)
Definition is_space (c : ascii) : bool := ((9 <=? code c) && (code c <=? 13)) || ((28 <=? code c) && (code c <=? 32)).
(** C isspace, used by int() and float() *)
Definition is_cspace (c : ascii) : bool := ((9 <=? code c) && (code c <=? 13)) || (code c =? 32).

Fixpoint drop_while (p : ascii -> bool) (s : str) : str :=
  match s with c :: s' => if p c then drop_while p s' else s | [] => [] end.
Definition strip_by (p : ascii -> bool) (s : str) : str := rev (drop_while p (rev (drop_while p s))).

(** number denoted by a digit sequence *)
Fixpoint horner (base : Z) (val : ascii -> Z) (acc : Z) (s : str) : Z :=
  match s with [] => acc | c :: s' => horner base val (acc * base + val c) s' end.
Definition dec_value (s : str) : Z := horner 10 digit_val 0 s.

(** decimal digits of a natural number, as str(n) *)
Fixpoint dec_aux (fuel : nat) (n : Z) (acc : str) : str :=
  match fuel with
  | O => acc
  | S f => let acc' := digit_char (n mod 10) :: acc in if n / 10 =? 0 then acc' else dec_aux f (n / 10) acc'
  end.
Definition dec (n : Z) : str := dec_aux (S (Z.to_nat (Z.log2 n))) n [].
(** str(n), and "{:d}".format(n) *)
Definition str_of_int (n : Z) : str := if n <? 0 then "-"%char :: dec (- n) else dec n.

(** k digits with leading zeros, "%0kd" for numbers that fit *)
Fixpoint pad (k : nat) (n : Z) : str :=
  match k with O => [] | S j => pad j (n / 10) ++ [digit_char (n mod 10)] end.

(** split off the longest prefix of characters with [p] *)
Fixpoint span (p : ascii -> bool) (s : str) : str * str :=
  match s with
  | c :: s' => if p c then let '(a, b) := span p s' in (c :: a, b) else ([], s)
  | [] => ([], [])
  end.
