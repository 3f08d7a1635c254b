(** Model of UuidToStringConverter, /repo/nion/utils/Converter.py:138-145.
    A uuid.UUID is its 128-bit integer.  ASCII text only. *)
From Coq Require Import String Ascii List ZArith Bool.
From Verif Require Import PyBase Text_Model.
Import ListNotations.
Local Open Scope Z_scope.

Definition hex_char (d : Z) : ascii := if d <? 10 then chr (48 + d) else chr (87 + d).
(** [0-9A-F] with IGNORECASE *)
Definition is_hex (c : ascii) : bool :=
  is_digit c || ((65 <=? code c) && (code c <=? 70)) || ((97 <=? code c) && (code c <=? 102)).
Definition hex_val (c : ascii) : Z :=
  if is_digit c then code c - 48 else if code c <=? 70 then code c - 55 else code c - 87.

(** k hexadecimal digits, '%0kx' *)
Fixpoint hex_pad (k : nat) (n : Z) : str :=
  match k with O => [] | S j => hex_pad j (n / 16) ++ [hex_char (n mod 16)] end.

(** uuid.UUID.__str__ : 8-4-4-4-12 *)
Definition uuid_str (u : Z) : str :=
  let h := hex_pad 32 u in
  firstn 8 h ++ "-"%char :: firstn 4 (skipn 8 h) ++ "-"%char :: firstn 4 (skipn 12 h) ++ "-"%char ::
  firstn 4 (skipn 16 h) ++ "-"%char :: skipn 20 h.

(** 139-140; a UUID is always true *)
Definition uuid_convert (u : Z) : str := uuid_str u.

(** 142-143: "[0-9A-F]{8}-[0-9A-F]{4}-4[0-9A-F]{3}-[89AB][0-9A-F]{3}-[0-9A-F]{12}" with IGNORECASE, as character tests *)
Definition is_hyphen (c : ascii) : bool := if ascii_dec c "-" then true else false.
Definition is_four (c : ascii) : bool := if ascii_dec c "4" then true else false.
Definition is_89ab (c : ascii) : bool :=
  (56 <=? code c) && (code c <=? 57) || (65 <=? code c) && (code c <=? 66) || (97 <=? code c) && (code c <=? 98).
Definition uuid_pattern : list (ascii -> bool) :=
  repeat is_hex 8 ++ is_hyphen :: repeat is_hex 4 ++ is_hyphen :: is_four :: repeat is_hex 3 ++ is_hyphen ::
  is_89ab :: repeat is_hex 3 ++ is_hyphen :: repeat is_hex 12.
Fixpoint fullmatch (p : list (ascii -> bool)) (s : str) : bool :=
  match p, s with
  | [], [] => true
  | f :: p', c :: s' => f c && fullmatch p' s'
  | _, _ => false
  end.

(** uuid.UUID(hex) for text that matches: hyphens dropped, int(hex, 16) *)
Definition uuid_parse (s : str) : Z := horner 16 hex_val 0 (filter (fun c => negb (is_hyphen c)) s).

(** 141-145 *)
Definition uuid_convert_back (s : str) : option Z :=
  let t := strip_by is_space s in if fullmatch uuid_pattern t then Some (uuid_parse t) else None.
