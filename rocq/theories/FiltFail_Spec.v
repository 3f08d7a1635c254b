(** Specification vocabulary for filtered lists whose filters raise. *)
From Coq Require Import List ZArith Bool Arith.
From Verif Require Import PyBase FiltFail_Model.
Import ListNotations.

Section FiltFailSpec.
  Context {A : Type}.

  (** an observer that edits a Python list with the notified items and indexes (removals by index) *)
  Fixpoint f_observes (l : list A) (tr : list (fev A)) (l' : list A) : Prop :=
    match tr with
    | [] => l = l'
    | FIns x i :: tr' => f_observes (py_insert i x l) tr' l'
    | FRem _ i :: tr' => exists l1, py_del l i = Ok l1 /\ f_observes l1 tr' l'
    end.

  Definition passes (flt : A -> res bool) (x : A) : bool := match flt x with Ok b => b | Err _ => false end.
  Definition raises (flt : A -> res bool) (x : A) : bool := match flt x with Ok _ => false | Err _ => true end.

  (** the items before the first one the filter raises for, and the others *)
  Fixpoint before (flt : A -> res bool) (l : list A) : list A :=
    match l with [] => [] | x :: l' => if raises flt x then [] else x :: before flt l' end.
  Fixpoint behind (flt : A -> res bool) (l : list A) : list A :=
    match l with [] => [] | x :: l' => if raises flt x then x :: l' else behind flt l' end.

  Inductive sublist : list A -> list A -> Prop :=
  | sub_nil : sublist [] []
  | sub_skip x l l' : sublist l l' -> sublist l (x :: l')
  | sub_keep x l l' : sublist l l' -> sublist (x :: l) (x :: l').

  (** what the client has done: the container's items, the filter *)
  Definition world : Type := option (list A) * (A -> res bool).
  Definition w_next (w : world) (o : fop A) : world :=
    match o, fst w with
    | FInsert i x, Some l => (Some (py_insert i x l), snd w)
    | FRemove i, Some l => (match py_del l i with Ok l' => Some l' | Err _ => Some l end, snd w)
    | FSet c, _ => (c, snd w)
    | FFilter flt, _ => (fst w, flt)
    | _, None => w
    end.
  Definition quiet (flt : A -> res bool) (l : list A) : Prop := forall x, In x l -> raises flt x = false.
  Definition w_items (w : world) : list A := match fst w with Some l => l | None => [] end.
  (** no item occurs twice; filters and containers are assigned only if the filter raises for no item, and items
      it raises for are inserted but not removed *)
  Definition gentle (w : world) (o : fop A) : Prop :=
    match o with
    | FInsert _ x => ~ In x (w_items w)
    | FRemove i => forall x, py_get (w_items w) i = Ok x -> raises (snd w) x = false
    | FSet None => True
    | FSet (Some l) => NoDup l /\ quiet (snd w) l
    | FFilter flt => quiet flt (w_items w)
    end.
  Fixpoint all_gentle (w : world) (h : list (fop A)) : Prop :=
    match h with [] => True | o :: h' => gentle w o /\ all_gentle (w_next w o) h' end.

  (** the model has a container it does not listen to *)
  Definition f_stuck (s : fstate A) : Prop := f_cont s <> None /\ f_live s = false.
  Definition is_filter (o : fop A) : bool := match o with FFilter _ => true | _ => false end.
End FiltFailSpec.
