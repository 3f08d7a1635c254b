(** What one expects of ==: which values stand for a pair of coordinates, and which for two pairs. *)
From Coq Require Import ZArith QArith Bool List.
From Verif Require Import PyBase Float53_Model GeomInt_Spec GeomEq_Model.
Import ListNotations.
Local Open Scope Z_scope.

(** A coordinate: an integer, a double, or nan. *)
Definition coord (v : val) : Prop := match v with VInt _ | VFlt _ => True | _ => False end.

(** [pair v a b]: [v] is a point, a size or a sequence of at least two, whose first two are [a] and [b]. *)
Inductive pair : val -> val -> val -> Prop :=
| pair_seq a b l : pair (VSeq (a :: b :: l)) a b
| pair_ip y x : pair (VIP y x) (VInt y) (VInt x)
| pair_is h w : pair (VIS h w) (VInt h) (VInt w)
| pair_fp y x : pair (VFP y x) (VFlt y) (VFlt x)
| pair_fs h w : pair (VFS h w) (VFlt h) (VFlt w).

Definition is_object (v : val) : Prop :=
  match v with VNone | VInt _ | VFlt _ | VSeq _ => False | _ => True end.
Definition is_rect (v : val) : Prop := match v with VIR _ _ _ _ | VFR _ _ _ _ => True | _ => False end.
Definition is_pair_object (v : val) : Prop :=
  match v with VIP _ _ | VIS _ _ | VFP _ _ | VFS _ _ => True | _ => False end.
Definition is_int_object (v : val) : Prop :=
  match v with VIP _ _ | VIS _ _ | VIR _ _ _ _ => True | _ => False end.
Definition is_float_object (v : val) : Prop :=
  match v with VFP _ _ | VFS _ _ | VFR _ _ _ _ => True | _ => False end.

(** The coordinates of an object, in order. *)
Definition coords (v : val) : list val :=
  match v with
  | VIP y x => [VInt y; VInt x] | VIS h w => [VInt h; VInt w] | VIR y x h w => [VInt y; VInt x; VInt h; VInt w]
  | VFP y x => [VFlt y; VFlt x] | VFS h w => [VFlt h; VFlt w] | VFR y x h w => [VFlt y; VFlt x; VFlt h; VFlt w]
  | _ => []
  end.
Definition has_nan (v : val) : Prop := In (VFlt Nan) (coords v).

(** The number a coordinate is, and that it is at most 2^53 in size. *)
Inductive number : val -> Q -> Prop :=
| number_int z : number (VInt z) (inject_Z z)
| number_flt q r : (q == r)%Q -> number (VFlt (Fin q)) r.
Definition small (v : val) : Prop := match v with VInt z => Z.abs z <= 2 ^ 53 | _ => True end.

(** A coordinate of an integer object against one of the other operand: fractions are dropped. *)
Inductive int_match : val -> val -> Prop :=
| int_match_of n c q : number c q -> GeomInt_Spec.truncates q n -> int_match (VInt n) c.
(** A coordinate of a float object against one of the other operand: integers are rounded to doubles. *)
Inductive float_match : val -> val -> Prop :=
| float_match_flt p q : (p == q)%Q -> float_match (VFlt (Fin p)) (VFlt (Fin q))
| float_match_int p z : (p == Float53_Model.fl (inject_Z z))%Q -> float_match (VFlt (Fin p)) (VInt z).

Definition alike (a b : val) : Prop := is_rect a <-> is_rect b.
