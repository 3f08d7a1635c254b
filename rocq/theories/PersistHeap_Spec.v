(** Ancestors, trees and what they mean for counts, contexts and storage handlers. *)
From Coq Require Import String ZArith Bool List.
From Verif Require Import PyBase PersistHeap_Model.
Import ListNotations.

(** [l] are the ancestors of [r], nearest first *)
Inductive chain (h : heap) : nat -> list nat -> Prop :=
| chain_root r : h_parent h r = None -> chain h r []
| chain_up r p l : h_parent h r = Some p -> chain h p l -> chain h r (p :: l).

(** the first handler in the list of objects *)
Fixpoint first_storage (st : nat -> option nat) (l : list nat) : option nat :=
  match l with [] => None | r :: l' => match st r with Some s => Some s | None => first_storage st l' end end.

(** [child h x r]: [x] is an item or in a relationship of [r] *)
Definition child (h : heap) (x r : nat) : Prop :=
  (exists name, In (name, Some x) (h_items h r)) \/ (exists name l, In (name, l) (h_rels h r) /\ In x l).
(** [x] is [r] or is below it *)
Inductive below (h : heap) : nat -> nat -> Prop :=
| below_refl r : below h r r
| below_child r x y : child h x r -> below h y x -> below h y r.

(** A tree of objects: each object's children, in the order of its items and relationships. *)
Inductive tree := Node (r : nat) (ts : list tree).
Definition root (t : tree) : nat := match t with Node r _ => r end.
(** the objects of the tree, children before their parents *)
Fixpoint refs (t : tree) : list nat := match t with Node r ts => flat_map refs ts ++ [r] end.
Fixpoint depth (t : tree) : nat := match t with Node _ ts => S (fold_right (fun t n => Nat.max (depth t) n) 0 ts) end.
Inductive shape (h : heap) : tree -> Prop :=
| shape_node r ts : children h r = map root ts -> Forall (shape h) ts -> shape h (Node r ts).

(** the object whose count the operation changes *)
Definition changed (o : op) : option nat :=
  match o with
  | SetProperty r | SetItem r _ _ | InsertItem r _ _ _ | RemoveItem r _ _ => Some r
  | _ => None
  end.
(** the item, relationship or member that the operation names exists *)
Definition names_ok (h : heap) (o : op) : Prop :=
  match o with
  | SetItem r name _ => In name (map fst (h_items h r))
  | InsertItem r name _ _ => In name (map fst (h_rels h r))
  | RemoveItem r name x => exists l, dict_get string_dec name (h_rels h r) = Some l /\ In x l
  | _ => True
  end.
(** An object is only put where it is neither the target nor an ancestor of the target. *)
Definition no_cycle (h : heap) (o : op) : Prop :=
  match o with
  | SetItem r _ (Some x) | InsertItem r _ _ x => forall l, chain h r l -> ~ In x (r :: l)
  | _ => True
  end.
(** Proper use, 352-359: only objects without a parent and without a context are added, items are set only where there is
    none, and only the context of top level objects is set. *)
Definition proper (h : heap) (o : op) : Prop :=
  no_cycle h o /\
  match o with
  | SetItem r name x =>
      (forall y, dict_get string_dec name (h_items h r) <> Some (Some y)) /\
      match x with Some x => h_parent h x = None /\ h_ctx h x = None | None => True end
  | InsertItem _ _ _ x => h_parent h x = None /\ h_ctx h x = None
  | SetContext r _ => h_parent h r = None
  | _ => True
  end.

Section Histories.
  Variable uuid : nat -> nat.
  Variable items rels : nat -> list string.
  (** the states after any history, exceptions included, without cycles *)
  Inductive reachable : heap -> Prop :=
  | reach_make : reachable (heap_make items rels)
  | reach_step fuel h o : reachable h -> no_cycle h o -> reachable (fst (step uuid fuel h o)).
  (** the states after any history of proper operations that completed *)
  Inductive properly : heap -> Prop :=
  | properly_make : properly (heap_make items rels)
  | properly_step fuel h o h' : properly h -> proper h o -> step uuid fuel h o = (h', Ok tt) -> properly h'.
End Histories.
