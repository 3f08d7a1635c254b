(** What the streams should show, from the history of events alone. *)
From Coq Require Import List Arith Bool.
From Verif Require Import PyBase Stream_Model.
Import ListNotations.

(** the elements that differ from the one before them, [v] being before the first *)
Inductive changes {V} : V -> list V -> list V -> Prop :=
  | changes_nil v : changes v [] []
  | changes_same v l c : changes v l c -> changes v (v :: l) c
  | changes_diff v x l c : v <> x -> changes x l c -> changes v (x :: l) (x :: c).
(** every element is related to the one before it *)
Inductive chain {V} (R : V -> V -> Prop) : V -> list V -> Prop :=
  | chain_nil v : chain R v []
  | chain_cons v x l : R v x -> chain R x l -> chain R v (x :: l).

(** the last value event of input [i], or the value it had at first *)
Fixpoint latest_of {V} (i : nat) (v0 : V) (l : list (nat * V)) : V :=
  match l with [] => v0 | (j, v) :: l' => latest_of i (if Nat.eqb j i then v else v0) l' end.
Definition latest_all {V} (v0 : list V) (l : list (nat * V)) : list V :=
  map (fun p => latest_of (fst p) (snd p) l) (combine (seq 0 (length v0)) v0).

(** the inner stream chosen by the last outer event *)
Fixpoint inner_now {A V} (truthy : A -> bool) (cur : option nat) (l : list (kevent A V)) : option nat :=
  match l with
  | [] => cur
  | KOuter item made :: l' => inner_now truthy (if truthy item then Some made else None) l'
  | _ :: l' => inner_now truthy cur l'
  end.
(** the last value of inner stream [id] *)
Fixpoint inner_value {A V} (id : nat) (v0 : option V) (l : list (kevent A V)) : option V :=
  match l with
  | [] => v0
  | KInner j v :: l' => inner_value id (if Nat.eqb j id then v else v0) l'
  | _ :: l' => inner_value id v0 l'
  end.

(** the source of the last source event, if it is a true object *)
Fixpoint source_now {V} (truthy : nat -> bool) (cur : option nat) (l : list (qevent V)) : option nat :=
  match l with
  | [] => cur
  | QSource (Some id) :: l' => source_now truthy (if truthy id then Some id else None) l'
  | QSource None :: l' => source_now truthy None l'
  | _ :: l' => source_now truthy cur l'
  end.
(** the last value of the property of object [id] *)
Fixpoint prop_now {V} (id : nat) (v0 : option V) (l : list (qevent V)) : option V :=
  match l with
  | [] => v0
  | QProp j v :: l' => prop_now id (if Nat.eqb j id then v else v0) l'
  | _ :: l' => prop_now id v0 l'
  end.
