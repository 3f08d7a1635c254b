(** Specification vocabulary for further geometry. *)
From Coq Require Import ZArith QArith.
From Verif Require Import PyBase Float53_Model GeomInt_Model GeomFloat_Model GeomFloat_Spec.
Local Open Scope Z_scope.

(** all edges are at most [n] *)
Definition within (n : Z) (r : irect) : Prop :=
  let '(IRect (IPoint t l) (ISize h w)) := r in
  Z.abs t <= n /\ Z.abs l <= n /\ Z.abs (t + h) <= n /\ Z.abs (l + w) <= n.
(** [f] has the edges and size of [r], as rationals *)
Definition same_as (f : frect) (r : irect) : Prop :=
  let '(IRect (IPoint t l) (ISize h w)) := r in
  rect_same f (FRect (FPoint (inject_Z t) (inject_Z l)) (FSize (inject_Z h) (inject_Z w))).
(** a number that doubles have *)
Definition is_double (q : Q) : Prop := (fl q == q)%Q.
