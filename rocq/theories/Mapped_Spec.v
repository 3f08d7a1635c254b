(** Specification vocabulary for mapped lists: projections of the trace, an observer with a Python list. *)
From Coq Require Import List ZArith Bool Arith.
From Verif Require Import PyBase Selection_Model Mapped_Model.
Import ListNotations.
Local Open Scope nat_scope.

Section MS.
  Context {A B : Type}.
  Implicit Types (tr : list (mev A B)) (h : list (mop A)).

  (** an observer that edits a Python list with the notified values and indexes; every removal must name
      the value it removes *)
  Fixpoint m_observes (l : list B) tr (l' : list B) : Prop :=
    match tr with
    | [] => l = l'
    | MIns b i :: tr' => m_observes (py_insert i b l) tr' l'
    | MRem b i :: tr' => py_get l i = Ok b /\ exists l1, py_del l i = Ok l1 /\ m_observes l1 tr' l'
    | _ :: tr' => m_observes l tr' l'
    end.

  Fixpoint map_calls tr : list (nat * A * B) :=
    match tr with [] => [] | MMap n a b :: tr' => (n, a, b) :: map_calls tr' | _ :: tr' => map_calls tr' end.
  Fixpoint unmapped tr : list B :=
    match tr with [] => [] | MUnmap b :: tr' => b :: unmapped tr' | _ :: tr' => unmapped tr' end.
  Fixpoint m_removed_values tr : list B :=
    match tr with [] => [] | MRem b _ :: tr' => b :: m_removed_values tr' | _ :: tr' => m_removed_values tr' end.

  (** items a client puts into the container, in order *)
  Fixpoint entered (c : option (list A)) h : list A :=
    match h with
    | [] => []
    | MInsert i x :: h' => match c with Some l => x :: entered (Some (py_insert i x l)) h' | None => entered c h' end
    | MRemove i :: h' => match c with
                         | Some l => entered (match py_del l i with Ok l' => Some l' | Err _ => Some l end) h'
                         | None => entered c h'
                         end
    | MSetContainer c' :: h' => match c' with Some l => l | None => [] end ++ entered c' h'
    | _ :: h' => entered c h'
    end.

  Definition m_contents (s : mstate A B) : list A := match ms_cont s with Some l => l | None => [] end.

  (** begin / end events of a trace: an end only after a begin, no begin inside *)
  Fixpoint alternating (open : bool) tr : option bool :=
    match tr with
    | [] => Some open
    | MBegin :: tr' => if open then None else alternating true tr'
    | MEnd :: tr' => if open then alternating false tr' else None
    | _ :: tr' => alternating open tr'
    end.
  (** nesting depth of the client's change blocks, None if unbalanced *)
  Fixpoint blocks (d : nat) h : option nat :=
    match h with
    | [] => Some d
    | MBeginChange :: h' => blocks (S d) h'
    | MEndChange :: h' => match d with O => None | S d' => blocks d' h' end
    | _ :: h' => blocks d h'
    end.
End MS.

(** Selections: the calls made on them, and container edits with an index inside the list *)
Definition m_in_range {A B} (s : mstate A B) (o : mop A) : Prop :=
  match o with
  | MInsert i _ => (0 <= i <= Z.of_nat (length (m_contents s)))%Z
  | MRemove i => (0 <= i)%Z
  | _ => True
  end.
Fixpoint m_along {A B} (mapf : nat -> A -> B) (P : mstate A B -> mop A -> Prop) (s : mstate A B) (h : list (mop A)) : Prop :=
  match h with
  | [] => True
  | o :: h' => P s o /\ m_along mapf P (fst (fst (m_step mapf s o))) h'
  end.

(** insert_index / remove_index calls in a trace (ListModel.py:776-777, 789-790) *)
Fixpoint m_selection_calls {A B} (tr : list (mev A B)) : list sop :=
  match tr with
  | [] => []
  | MSelIns i :: tr' => OInsertIndex i :: m_selection_calls tr'
  | MSelRem i :: tr' => ORemoveIndex i :: m_selection_calls tr'
  | _ :: tr' => m_selection_calls tr'
  end.
