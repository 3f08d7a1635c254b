(** Rounding of rationals to 53 significant bits, nearest, ties to even: what one IEEE binary64 operation does to its
    exact result.  Overflow, subnormal results, signed zeros and non-finite values are not modelled. *)
From Coq Require Import ZArith QArith Bool.
Local Open Scope Z_scope.

(** nearest integer to n/d for d > 0, ties to even *)
Definition half_even (n d : Z) : Z :=
  let q := n / d in let r := n mod d in
  match 2 * r ?= d with
  | Lt => q
  | Gt => q + 1
  | Eq => if Z.even q then q else q + 1
  end.
(** 2^k <= n/d for n, d > 0 *)
Definition pow2_le (k n d : Z) : bool := if 0 <=? k then d * 2 ^ k <=? n else d <=? n * 2 ^ (- k).
(** the exponent e with 2^e <= n/d < 2^(e+1) *)
Definition exponent (n d : Z) : Z := let k := Z.log2 n - Z.log2 d in if pow2_le k n d then k else k - 1.
(** nearest 53 bit number to n/d *)
Definition fl_frac (n d : Z) : Q :=
  let s := 52 - exponent (Z.abs n) d in
  if n =? 0 then 0%Q
  else if 0 <=? s then half_even (n * 2 ^ s) d # Z.to_pos (2 ^ s)
  else inject_Z (half_even n (d * 2 ^ (- s)) * 2 ^ (- s)).
Definition fl (q : Q) : Q := fl_frac (Qnum q) (Zpos (Qden q)).
