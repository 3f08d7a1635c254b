(** What a label says. *)
From Coq Require Import String Ascii ZArith QArith List.
From Verif Require Import Text_Model ConvFloat_Spec Fmt_Spec.
Local Open Scope Q_scope.

(** the label is a decimal numeral of exactly the value *)
Definition says (label : str) (v : Q) : Prop := numeral "." label v.
(** the ticks are so fine or so coarse that the labels need an exponent *)
Definition exponent_notation (factor : Q) : Prop := 0 < factor /\ (factor <= Qpower (10 # 1) (-6) \/ Qpower (10 # 1) 6 <= factor).
