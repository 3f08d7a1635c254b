(** Model of LogTicker, /repo/nion/utils/Geometry.py:193-257, for finite limits (199-202 give one tick for others), an integer
    base of at least 2 and an integer number of ticks.  Exact arithmetic on rationals.  The ticks and the reported limits
    involve logarithms; they are kept as a rational part and the argument of a logarithm.  Three oracles:
    [flog x] is math.floor(math.log(x, base)), [digit f] is math.floor(math.pow(base, f)), [pw x] is math.pow(base, x). *)
From Coq Require Import String Ascii List ZArith Bool QArith Qabs Qround.
From Verif Require Import PyBase Text_Model GeomPretty_Model Fmt_Model.
Import ListNotations.
Local Open Scope Z_scope.

(** [rat] + [coef] * log_base [arg] *)
Record log_value := LV { rat : Q; coef : Q; arg : Z }.
Record log_ticks := LT {
  t_values : list (Q * Z);     (** tick_values before the logarithm of 249: (x, s) is s * base^x *)
  t_labels : list str;
  t_minor : list nat;
  t_min : log_value;
  t_max : log_value;
  t_division : Z;
  t_precision : Z
}.

(** 204-205 with integers *)
Definition int_arange (start stop step : Z) : list Z :=
  map (fun x => start + Z.of_nat x * step) (seq 0 (Z.to_nat (Qceiling (inject_Z (stop - start) / inject_Z step)))).
(** 215-216: the loop ends at the latest at 0 *)
Fixpoint shrink (fuel : nat) (numdec : Z) (val_range : Q) : Z :=
  match fuel with
  | O => numdec
  | S f => if q_lt ((3 # 2) * val_range) (inject_Z (Z.abs numdec)) && (0 <? numdec) then shrink f (numdec - 1) val_range else numdec
  end.

Section LogTicker.
  Variable base : Z.
  Variable flog : Q -> Z.
  Variable digit : Q -> Z.
  Variable pw : Q -> Q.

  (** 208: the exponent of factor_b *)
  Definition factor_exp (val_range : Q) (ticks : Z) : Z :=
    if q_lt val_range (inject_Z (ticks - 2) / inject_Z base) && q_lt 0 val_range then flog val_range else 0.
  (** 225-234; [k] is the exponent of factor_b, factor_b = 1 iff k = 0 *)
  Definition sub_ticks (k : Z) (num_subs : Q) : list Z :=
    if negb (k =? 0) then []
    else if q_le (inject_Z (base - 2)) num_subs then int_arange 2 base 1
    else if q_le (inject_Z (base - 2) * (1 # 2)) num_subs then int_arange 2 base 2
    else if q_le (inject_Z (base - 2) * (1 # 4)) num_subs then [nearest (inject_Z base * (1 # 2))]
    else [].
  (** 240-246 *)
  Fixpoint add_subs (x : Q) (subs : list Z) (vs : list (Q * Z)) (ix : list nat) : list (Q * Z) * list nat :=
    match subs with
    | [] => (vs, ix)
    | s :: r => let vs' := vs ++ [(x, s)] in add_subs x r vs' (ix ++ [(length vs' - 1)%nat])
    end.
  Fixpoint add_decades (fb : Q) (subs : list Z) (decades : list Z) (vs : list (Q * Z)) (ix : list nat) : list (Q * Z) * list nat :=
    match decades with
    | [] => (vs, ix)
    | d :: r => let x := (inject_Z d * fb)%Q in
                let '(vs', ix') := add_subs x subs (vs ++ [(x, 1)]) ix in add_decades fb subs r vs' ix'
    end.
  (** 256-257; the value is what pow and the product give *)
  Definition log_label (precision : Z) (t : Q * Z) : str := fmt_e (Z.to_nat precision) (inject_Z (snd t) * pw (fst t)).

  (** 195-254; ticks = 0 divides by zero in 218 *)
  Definition log_ticker (low high : Q) (ticks : Z) : res log_ticks :=
    let val_range := Qabs (high - low) in
    let k := factor_exp val_range ticks in
    let fb := Qpower (inject_Z base) k in
    let minimum := Qfloor (low / fb) in
    let maximum := Z.max (Qceiling (high / fb)) (minimum + 1) in
    let precision := Z.abs k in
    let numdec0 := maximum - minimum in
    let numdec := if k =? 0 then shrink (Z.to_nat numdec0) numdec0 val_range else numdec0 in
    if ticks =? 0 then Err ZeroDivisionError
    else
      let division := Z.max ((numdec + 1) / ticks) 1 in
      let decades := int_arange minimum (maximum + division) division in
      let maximum := if k =? 0 then minimum + numdec else maximum in
      let num_subs := if q_lt 0 val_range then (inject_Z ticks / (val_range / inject_Z division))%Q else 0%Q in
      let subs := sub_ticks k num_subs in
      let high_floor := Qfloor high in
      let top :=
        match subs with
        | [] => LV (inject_Z maximum) 0 1
        | _ => if q_le (inject_Z maximum) high then LV (inject_Z high_floor) 1 (digit (high - inject_Z high_floor) + 1)
               else LV (inject_Z maximum) 0 1
        end in
      let '(vs, ix) := add_decades fb subs decades [] [] in
      let mx := LV (rat top * fb) (coef top * fb) (arg top) in
      let mn := LV (low - (rat mx - low) * (1 # 100)) (- coef mx * (1 # 100)) (arg mx) in
      Ok (LT vs (map (log_label precision) vs) ix mn mx division precision).
End LogTicker.
