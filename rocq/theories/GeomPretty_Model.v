(** Model of make_pretty and make_pretty_range2, /repo/nion/utils/Geometry.py:20-119.
    Numbers are rationals: finite floats only (23-24 and 27-28 return (0.0, 0) for 0, NaN and the infinities; only 0 is
    represented here).  Every floating point operation is followed by [rd], which is the identity for exact arithmetic
    and [fl] for doubles.  math.floor(math.log10(x)) is an oracle [lg], since log10 may be rounded across a power of
    ten.  Only logarithmic=False is modelled (the flag changes the last component of the result only). *)
From Coq Require Import ZArith QArith Qround Qabs Qminmax Bool List.
From Verif Require Import PyBase.
Import ListNotations.
Local Open Scope Q_scope.

Definition pow10 (k : Z) : Q := inject_Z 10 ^ k.
(** Python's x < y and x <= y on floats *)
Definition q_lt (x y : Q) : bool := negb (Qle_bool y x).
Definition q_le (x y : Q) : bool := Qle_bool x y.

Section Pretty.
  Variable rd : Q -> Q.
  Variable lg : Q -> Z.

  (** 33-50 *)
  Definition pretty_norm (rounding : bool) (n : Q) : Q :=
    if rounding then if q_lt n (3 # 2) then 1 else if q_lt n 3 then 2 else if q_lt n 7 then 5 else 10
    else if q_le n 1 then 1 else if q_le n 2 then 2 else if q_le n 5 then 5 else 10.
  (** 20-51; copysign of a number >= 0; [factor10 // 10] is the floor of the quotient *)
  Definition make_pretty (v : Q) (rounding : bool) : Q * Q :=
    if Qeq_bool v 0 then (0, 0)
    else
      let factor10 := rd (pow10 (lg (Qabs v))) in
      let norm := rd (Qabs v / factor10) in
      let '(norm, factor10) :=
        if q_lt norm 1 then (rd (norm * 10), inject_Z (Qfloor (factor10 / 10))) else (norm, factor10) in
      let r := rd (pretty_norm rounding norm * factor10) in
      (if q_lt v 0 then - r else r, factor10).
  (** 54-56 *)
  Definition make_pretty2 (v : Q) (rounding : bool) : Q := fst (make_pretty v rounding).

  (** 109-110 *)
  Definition arange (start stop step : Q) : list Q :=
    map (fun x => rd (start + rd (inject_Z (Z.of_nat x) * step))) (seq 0 (Z.to_nat (Qceiling (rd (rd (stop - start) / step))))).

  Record range := Range { g_min : Q; g_max : Q; g_ticks : list Q; g_division : Q; g_precision : Z; g_factor10 : Q }.

  (** 59-115; ticks - 1 = 0 divides by zero, log10 of a negative division raises ValueError *)
  Definition make_pretty_range2 (a b : Q) (ticks : Z) : res range :=
    let low := if q_lt b a then b else a in
    let high := if q_lt a b then b else a in
    if Qeq_bool high low then Ok (Range low low [low] 0 0 0)
    else
      let value_range := make_pretty2 (rd (high - low)) false in
      if (ticks - 1 =? 0)%Z then Err ZeroDivisionError
      else
        let '(division, factor10) := make_pretty (rd (value_range / inject_Z (ticks - 1))) true in
        if Qeq_bool division 0 then Ok (Range 0 0 [0] 0 0 0)
        else
          let gmin := rd (inject_Z (Qfloor (rd (low / division))) * division) in
          let gmax := rd (inject_Z (Qceiling (rd (high / division))) * division) in
          if q_le division 0 then Err ValueError
          else
            Ok (Range gmin gmax (arange gmin (rd (gmax + rd ((1 # 2) * division))) division) division
                      (Z.max (- lg division) 0) factor10).
End Pretty.
