(** Specification vocabulary for filtered lists: observers of the notifications, sortedness, and
    conditions on histories in terms of what a client sees (container, items, settings, open blocks). *)
From Coq Require Import List ZArith Bool Arith Permutation Sorted.
From Verif Require Import PyBase Filtered_Model.
Import ListNotations.

(** An observer's list is changed by the notified indexes only. *)
Fixpoint f_follows {A} (l : list A) (tr : list (fev A)) (l' : list A) : Prop :=
  match tr with
  | [] => l = l'
  | FIns x k :: tr' => f_follows (insert_at k x l) tr' l'
  | FRem _ k :: tr' => k < length l /\ f_follows (delete_at k l) tr' l'
  | _ :: tr' => f_follows l tr' l'
  end.

(** Same, but every removal must name the item at its index. *)
Fixpoint f_names {A} (l : list A) (tr : list (fev A)) (l' : list A) : Prop :=
  match tr with
  | [] => l = l'
  | FIns x k :: tr' => f_names (insert_at k x l) tr' l'
  | FRem x k :: tr' => nth_error l k = Some x /\ f_names (delete_at k l) tr' l'
  | _ :: tr' => f_names l tr' l'
  end.

(** Bracketing: depth after the trace, None when an end has no begin or a notification is outside. *)
Fixpoint nesting {A} (d : nat) (tr : list (fev A)) : option nat :=
  match tr with
  | [] => Some d
  | FBegin :: tr' => nesting (S d) tr'
  | FEnd :: tr' => match d with O => None | S d' => nesting d' tr' end
  | FIns _ _ :: tr' | FRem _ _ :: tr' => match d with O => None | S _ => nesting d tr' end
  | _ :: tr' => nesting d tr'
  end.
(** bracketing of the begin/end events the container itself sends *)
Fixpoint container_nesting {A C K} (d : nat) (h : list (fop A C K)) : option nat :=
  match h with
  | [] => Some d
  | FContBegin :: h' => container_nesting (S d) h'
  | FContEnd :: h' => match d with O => None | S d' => container_nesting d' h' end
  | _ :: h' => container_nesting d h'
  end.

(** the removal notifications of a trace *)
Fixpoint removals {A} (tr : list (fev A)) : list (A * nat) :=
  match tr with
  | [] => []
  | FRem x k :: tr' => (x, k) :: removals tr'
  | _ :: tr' => removals tr'
  end.

Definition strict_weak_order {K} (lt : K -> K -> bool) : Prop :=
  (forall x, lt x x = false) /\ (forall x y z, lt x z = true -> lt x y = true \/ lt y z = true) /\
  (forall x y z, lt x y = true -> lt y z = true -> lt x z = true).

(** ascending by key, or descending when [rev]; equal keys in any order *)
Definition ordered_by {A K} (lt : K -> K -> bool) (rev : bool) (key : A -> K) (l : list A) : Prop :=
  forall l1 a l2 b l3, l = l1 ++ a :: l2 ++ b :: l3 ->
    if rev then lt (key a) (key b) = false else lt (key b) (key a) = false.

Section Hist.
  Context {A C K : Type} (A_dec : forall a b : A, {a = b} + {a <> b}) (lt : K -> K -> bool).
  Notation fstate := (fstate A C K).
  Notation fop := (fop A C K).

  Definition contents (s : fstate) : list A := match fs_cont s with Some l => l | None => [] end.
  Definition block_open (s : fstate) : Prop := (0 < fs_level s)%Z.
  Definition accepts (s : fstate) (x : A) : bool := fs_filter s (fs_content s x).

  (** [P] holds at every step of the history *)
  Fixpoint along (P : fstate -> fop -> Prop) (s : fstate) (h : list fop) : Prop :=
    match h with [] => True | o :: h' => P s o /\ along P (fst (fst (f_step A_dec lt s o))) h' end.

  (** the container never holds an item twice *)
  Definition no_duplicates (s : fstate) (o : fop) : Prop :=
    match o with
    | FInsert _ x => ~ In x (contents s)
    | FSetContainer (Some l) => NoDup l
    | _ => True
    end.
  (** iterating over a set visits each element once *)
  Definition set_order (s : fstate) (o : fop) : Prop :=
    match o with FEndChange ord => forall l, Permutation (ord l) l | _ => True end.
  (** the outermost block is not closed with sort_reverse set but no sort key *)
  Definition no_reverse_without_key (s : fstate) (o : fop) : Prop :=
    match o with FEndChange _ => fs_level s = 1%Z -> fs_key s = None -> fs_rev s = false | _ => True end.
  (** an item that is listed keeps its sort key *)
  Definition keeps_keys (s : fstate) (o : fop) : Prop :=
    match o with
    | FContent x c => forall k, fs_key s = Some k -> In x (fs_items s) -> k c = k (fs_content s x)
    | _ => True
    end.

  (** no item removed from the container in the current change block is put back in it ([gone]: the items
      removed so far in the block) *)
  Definition gone_after (gone : list A) (s : fstate) (o : fop) : list A :=
    let s' := fst (fst (f_step A_dec lt s o)) in
    if (0 <? fs_level s')%Z then
      match o with
      | FRemove i => match py_get (contents s) i with Ok x => x :: gone | Err _ => gone end
      | _ => gone
      end
    else [].
  Fixpoint no_reinsertion (gone : list A) (s : fstate) (h : list fop) : Prop :=
    match h with
    | [] => True
    | o :: h' =>
        match o with FInsert _ x => block_open s -> fs_key s = None -> ~ In x gone | _ => True end /\
        no_reinsertion (gone_after gone s o) (fst (fst (f_step A_dec lt s o))) h'
    end.

  (** a full rebuild: the operations that replace the whole list *)
  Definition full_rebuild (s : fstate) (o : fop) : Prop :=
    match o with
    | FSetFilter _ | FSetKey _ | FSetRev _ => True
    | FEndChange _ => fs_sorted s = false
    | _ => False
    end.
End Hist.
