(** Specification vocabulary for the selection properties: observables only (the index set, the anchor,
    number of firings, exception) and plain lists of items. *)
From stdpp Require Import gmap sets list.
From Verif Require Import PyBase Selection_Model.
Open Scope Z_scope.

(** item [y] of the list [L] is selected / is the anchored item *)
Definition item_at {A} (L : list A) (i : Z) (y : A) : Prop := 0 <= i /\ nth_error L (Z.to_nat i) = Some y.
Definition selected {A} (L : list A) (s : sel) (y : A) : Prop :=
  exists i, i ∈ s_indexes s /\ item_at L i y.
Definition anchored {A} (L : list A) (s : sel) (y : A) : Prop :=
  exists a, s_anchor s = Some a /\ item_at L a y.

(** edits of an item list by position *)
Inductive ledit A := LIns (k : nat) (x : A) | LDel (k : nat).
Arguments LIns {A} k x.
Arguments LDel {A} k.

(** [edits L es removed L']: the edits are in range, never insert an item that is present, end in [L']
    and remove the items [removed] *)
Inductive edits {A} : list A -> list (ledit A) -> list A -> list A -> Prop :=
| edits_nil L : edits L [] [] L
| edits_ins L1 L2 x es r L' :
    x ∉ L1 ++ L2 -> edits (L1 ++ x :: L2) es r L' ->
    edits (L1 ++ L2) (LIns (length L1) x :: es) r L'
| edits_del L1 L2 x es r L' :
    edits (L1 ++ L2) es r L' ->
    edits (L1 ++ x :: L2) (LDel (length L1) :: es) (x :: r) L'.

(** the selection operations that accompany the edits *)
Definition accompany {A} (e : ledit A) : sop :=
  match e with
  | LIns k _ => OInsertIndex (Z.of_nat k)
  | LDel k => ORemoveIndex (Z.of_nat k)
  end.

(** single calls that are supposed to fire at most once, and exactly when the set changes *)
Definition notifying (o : sop) : bool :=
  match o with
  | OClear | OAdd _ | ORemove _ | OSetMultiple _ | OSet _ | OToggle _ | OExtend _ => true
  | _ => false
  end.

(** operations that run clear in style single *)
Definition clears_single (o : sop) : bool :=
  match o with
  | OClear => true
  | OSetMultiple l => negb (Nat.eqb (length l) 1)
  | _ => false
  end.

(** operations that take nothing out of the selection individually *)
Definition non_removing (s : sel) (o : sop) : Prop :=
  match o with
  | ORemove _ | ORemoveIndex _ | OSetAnchor _ => False
  | OToggle i => i ∉ s_indexes s
  | _ => True
  end.

Definition at_most_one (X : gset Z) : Prop := forall i j, i ∈ X -> j ∈ X -> i = j.

Definition anchor_ok (s : sel) : Prop :=
  match s_anchor s with
  | None => s_indexes s = ∅
  | Some a => a ∈ s_indexes s
  end.
