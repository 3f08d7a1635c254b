(** What the theorems about lists sorted by keys that raise or cannot be compared mean. *)
From Coq Require Import List ZArith Bool Arith Permutation.
From Verif Require Import PyBase Filtered_Model Filtered_Spec SortFail_Model.
Import ListNotations.

Section Spec.
  Context {A K : Type} (lt : K -> K -> bool) (cls : K -> nat).
  Notation sstate := (sstate A K).
  Notation sop := (sop A K).

  (** the keys of both items can be had and compared *)
  Definition agrees (key : A -> res K) (x y : A) : Prop :=
    exists a b, key x = Ok a /\ key y = Ok b /\ cls a = cls b /\ cls a <> 0.
  (** the list can be sorted: one item with any key, or all keys agree *)
  Definition sortable (key : A -> res K) (l : list A) : Prop :=
    (forall x, In x l -> exists a, key x = Ok a) /\ (length l <= 1 \/ forall x y, In x l -> In y l -> agrees key x y).
  (** in order by their keys *)
  Definition in_order (rev : bool) (key : A -> res K) (l : list A) : Prop :=
    forall l1 x l2 y l3 a b, l = l1 ++ x :: l2 ++ y :: l3 -> key x = Ok a -> key y = Ok b ->
      if rev then lt a b = false else lt b a = false.

  (** the container holds no item twice; the order of a set's walk has each once *)
  Definition proper (s : sstate) (o : sop) : Prop :=
    match o with
    | SInsert _ x => ~ In x (s_cont s)
    | SMark ord => forall l, Permutation (ord l) l
    | _ => True
    end.
  (** the order and the keys of shown items change only when the container can be sorted by the new ones *)
  Definition steady (s : sstate) (o : sop) : Prop :=
    match o with
    | SChange x k m => In x (s_items s) -> m = false \/ k = s_key s x
    | SKey key => sortable key (s_cont s)
    | SReverse b => b = s_rev s \/ sortable (s_key s) (s_cont s)
    | _ => True
    end.
  (** all keys can be compared with each other at any time *)
  Definition level (good : A -> Prop) (key : A -> res K) : Prop := forall x y, good x -> good y -> agrees key x y.
  Definition even (good : A -> Prop) (s : sstate) (o : sop) : Prop :=
    match o with
    | SInsert _ x => good x
    | SChange x k m => (In x (s_items s) -> m = false \/ k = s_key s x) /\
                       forall y a, good y -> s_key s y = Ok a -> exists b, k = Ok b /\ cls b = cls a
    | SKey key => level good key
    | _ => True
    end.
  Fixpoint throughout (step : sstate -> sop -> sstate) (P : sstate -> sop -> Prop) (s : sstate) (h : list sop) : Prop :=
    match h with [] => True | o :: h' => P s o /\ throughout step P (step s o) h' end.

  (** only the item [z] is shown, and its key cannot be had or not be compared with any *)
  Definition blocked (z : A) (s : sstate) : Prop :=
    s_items s = [z] /\ s_filter s z = true /\ forall a, s_key s z = Ok a -> cls a = 0.
  (** [z] does not change, stays in the container and is accepted by filters; the sort key function stays *)
  Definition around (z : A) (s : sstate) (o : sop) : Prop :=
    match o with
    | SRemove i => py_get (s_cont s) i <> Ok z
    | SChange x _ _ => x <> z
    | SFilter f => f z = true
    | SKey _ => False
    | _ => True
    end.
  (** what the selections are told *)
  Definition sel_ins (tr : list (fev A)) : list Z := flat_map (fun e => match e with FSelIns i => [i] | _ => [] end) tr.
End Spec.
