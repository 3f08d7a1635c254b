(** What the ticks of a logarithmic axis are, over the reals. *)
From Coq Require Import ZArith QArith List Reals Qreals Sorted.
From Verif Require Import LogTicker_Model.
Local Open Scope R_scope.

(** logarithm to the base [b] *)
Definition logb (b : Z) (x : R) : R := ln x / ln (IZR b).
(** the tick s * b^x on the axis *)
Definition position (b : Z) (t : Q * Z) : R := logb b (IZR (snd t) * Rpower (IZR b) (Q2R (fst t))).
Definition value (b : Z) (v : log_value) : R := Q2R (rat v) + Q2R (coef v) * logb b (IZR (arg v)).
(** the oracle computes floor(b^f) exactly *)
Definition exact_digit (b : Z) (digit : Q -> Z) : Prop :=
  forall f, (0 <= f)%Q -> (f < 1)%Q -> IZR (digit f) <= Rpower (IZR b) (Q2R f) < IZR (digit f + 1).
(** the oracle computes floor(log_b) exactly *)
Definition exact_flog (b : Z) (flog : Q -> Z) : Prop :=
  forall v, (0 < v)%Q -> (Qpower (inject_Z b) (flog v) <= v /\ v < Qpower (inject_Z b) (flog v + 1))%Q.
Definition increasing (l : list R) : Prop := StronglySorted Rlt l.
(** decades only: the ticks s * b^x with s = 1 *)
Definition majors (l : list (Q * Z)) : list Q := map fst (filter (fun t => Z.eqb (snd t) 1) l).
