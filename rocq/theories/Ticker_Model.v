(** Model of LinearTicker, /repo/nion/utils/Geometry.py:173-190, on top of make_pretty_range2 (GeomPretty_Model.v).
    Finite floats as rationals; [rd] and [lg] as there. *)
From Coq Require Import String Ascii List ZArith Bool QArith.
From Verif Require Import PyBase Text_Model GeomPretty_Model Fmt_Model.
Import ListNotations.
Local Open Scope Z_scope.

Section Ticker.
  Variable rd : Q -> Q.
  Variable lg : Q -> Z.

  (** int(math.log10(x)) for x > 0: the floor, or the next integer if the logarithm is negative and no integer *)
  Definition int_log (x : Q) : Z := if (0 <=? lg x) || Qeq_bool x (pow10 (lg x)) then lg x else lg x + 1.
  (** 180-187 *)
  Definition nice_label (value : Q) (precision : Z) (factor10 : Q) : str :=
    let f10 := if q_lt 0 factor10 then int_log factor10 else 0 in
    if 5 <? Z.abs f10 then
      let f10x := if q_lt 0 value then int_log value else f10 in
      fmt_e (Z.to_nat (Z.max 0 (f10x - f10))) value
    else fmt_f (Z.to_nat precision) value.
  (** 189-190; the ticker keeps the precision and the factor of the range *)
  Definition value_label (g : range) (value : Q) : str := nice_label value (g_precision g) (g_factor10 g).
  (** 175-178 *)
  Definition linear_ticker (low high : Q) (ticks : Z) : res (range * list str) :=
    match make_pretty_range2 rd lg low high ticks with
    | Ok g => Ok (g, map (value_label g) (g_ticks g))
    | Err e => Err e
    end.
End Ticker.
