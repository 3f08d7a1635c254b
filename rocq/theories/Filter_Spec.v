(** Specification vocabulary for filters. *)
From Coq Require Import List ZArith Bool String.
From Verif Require Import PyBase Filter_Model.
Import ListNotations.

(** [first_stop r b fs x]: going through the results [map r fs] from the left, all are [Ok b] until the
    result [x], at which the evaluation stops *)
Definition first_stop {F} (r : F -> res bool) (b : bool) (fs : list F) (x : res bool) : Prop :=
  exists l1 f l2, fs = l1 ++ f :: l2 /\ (forall g, In g l1 -> r g = Ok b) /\ r f = x.

Definition substring (pat s : string) : Prop := exists a b, s = (a ++ pat ++ b)%string.

(** the filter tree contains no text filter *)
Fixpoint no_text {K O V} (f : filter K O V) : Prop :=
  match f with
  | FAnd fs | FOr fs => (fix all l := match l with [] => True | g :: l' => no_text g /\ all l' end) fs
  | FNot g => no_text g
  | FText _ _ _ => False
  | _ => True
  end.

(** Boolean reading of a filter tree, given the truth of its leaves *)
Fixpoint truth {K O V} (leaf : filter K O V -> bool) (f : filter K O V) : bool :=
  match f with
  | FBase b => b
  | FAnd fs => forallb (truth leaf) fs
  | FOr fs => existsb (truth leaf) fs
  | FNot g => negb (truth leaf g)
  | g => leaf g
  end.
Fixpoint leaves {K O V} (f : filter K O V) : list (filter K O V) :=
  match f with
  | FBase _ => []
  | FAnd fs | FOr fs => flat_map leaves fs
  | FNot g => leaves g
  | g => [g]
  end.
