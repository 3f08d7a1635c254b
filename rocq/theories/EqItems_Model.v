(** Model of a FilteredListModel without sort key whose container may hold items that are equal, or one item several times,
    /repo/nion/utils/ListModel.py.
    Items are objects; two are equal (==) if they are of one class, such as strings with the same text, and the filter depends
    on the class.  The filter stays, there are no change blocks, selections and item changes, and the container stays attached.
    Exceptions of the handlers are printed by Event.fire (Event.py:103-114) and do not reach the one who edits; here they are
    given with the state. *)
From Coq Require Import List Bool Arith.
From Verif Require Import PyBase.
Import ListNotations.

Section Model.
  Context {X K : Type} (X_dec : forall x y : X, {x = y} + {x <> y}) (K_dec : forall x y : K, {x = y} + {x <> y}).
  Variable cls : X -> K.
  Variable accept : K -> bool.

  (** x == y *)
  Definition same (x y : X) : bool := if K_dec (cls x) (cls y) then true else false.
  Record state := State {
    cont : list X;          (* the items of the container *)
    master : list X;        (* __master_items *)
    watched : list X;       (* the keys of __item_changed_event_listeners: id(item) *)
    items : list X;         (* __items *)
    raised : list exn }.    (* what was printed, newest first *)
  Definition start : state := State [] [] [] [] [].

  (** 375-382 *)
  Fixpoint unsorted_index (x : X) (l : list X) : nat :=
    match l with
    | [] => 0
    | y :: l' => if same y x then 0 else (if accept (cls y) then 1 else 0) + unsorted_index x l'
    end.
  (** list.insert with an index that is not negative *)
  Definition insert (k : nat) (x : X) (l : list X) : list X := firstn k l ++ x :: skipn k l.
  (** 408-413: items.index(item), del; here for an item that is in the list *)
  Fixpoint remove_same (x : X) (l : list X) : list X :=
    match l with
    | [] => []
    | y :: l' => if same y x then l' else y :: remove_same x l'
    end.

  (** 611-627, 385-406 *)
  Definition item_inserted (k : nat) (x : X) (s : state) : state :=
    if existsb (same x) (master s) then State (cont s) (master s) (watched s) (items s) (AssertionError :: raised s)
    else
      let m := insert k x (master s) in
      let w := if in_dec X_dec x (watched s) then watched s else x :: watched s in
      let i := if accept (cls x) then insert (unsorted_index x m) x (items s) else items s in
      State (cont s) m w i (raised s).
  (** 630-640, 416-425 *)
  Definition item_removed (k : nat) (x : X) (s : state) : state :=
    if k <? length (master s) then
      let m := delete_at k (master s) in
      if in_dec X_dec x (watched s) then
        State (cont s) m (filter (fun y => if X_dec y x then false else true) (watched s))
          (if existsb (same x) (items s) then remove_same x (items s) else items s) (raised s)
      else State (cont s) m (watched s) (items s) (KeyError :: raised s)
    else State (cont s) (master s) (watched s) (items s) (IndexError :: raised s).

  Inductive op := Ins (k : nat) (x : X) | Del (k : nat).
  (** the edits of the container, which tell the list; positions that do not exist are left out *)
  Definition step (s : state) (o : op) : state :=
    match o with
    | Ins k x => if k <=? length (cont s) then item_inserted k x (State (insert k x (cont s)) (master s) (watched s) (items s) (raised s)) else s
    | Del k =>
        match nth_error (cont s) k with
        | None => s
        | Some x => item_removed k x (State (delete_at k (cont s)) (master s) (watched s) (items s) (raised s))
        end
    end.
  Definition run (h : list op) : state := fold_left step h start.
End Model.
Arguments State {X}.
Arguments cont {X}.
Arguments master {X}.
Arguments watched {X}.
Arguments items {X}.
Arguments raised {X}.
Arguments Ins {X} k x.
Arguments Del {X} k.
