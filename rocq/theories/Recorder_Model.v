(** Model of nion/utils/Recorder.py: a recorder listens to an object and everything below it and keeps a list of
    closures; [apply] calls them one after the other on another object.  What a closure reads from the recorded objects it
    reads when it is called, not when it was logged. *)
From Coq Require Import Arith Bool List.
From Verif Require Import PyBase.
Import ListNotations.

(** A node with a label and, for each item or relationship name, the nodes that are there.  Names are the numbers of the
    slots; an item is a slot with at most one node. *)
Inductive node (A : Type) := Node (a : A) (ss : list (list (node A))).
Arguments Node {A} a ss.
Definition label {A} (n : node A) : A := match n with Node a _ => a end.
Definition slots {A} (n : node A) : list (list (node A)) := match n with Node _ ss => ss end.
Definition slot {A} (k : nat) (n : node A) : list (node A) := nth k (slots n) [].
(** the node and all below it *)
Fixpoint nodes {A} (n : node A) : list (node A) :=
  match n with Node _ ss => n :: flat_map (flat_map nodes) ss end.
(** [f] done to the nodes whose label is [is] *)
Fixpoint upd {A} (is : A -> bool) (f : node A -> node A) (n : node A) : node A :=
  match n with Node a ss => if is a then f n else Node a (map (map (upd is f)) ss) end.
Definition set_nth {X} (k : nat) (x : X) (l : list X) : list X :=
  match nth_error l k with Some _ => firstn k l ++ x :: skipn (S k) l | None => l end.
Definition set_slot {A} (k : nat) (l : list (node A)) (n : node A) : node A := Node (label n) (set_nth k l (slots n)).
Definition mapi_from {X Y} (f : nat -> X -> Y) := fix go (k : nat) (l : list X) : list Y :=
  match l with [] => [] | x :: l' => f k x :: go (S k) l' end.

(** where an object is: at each step the name and the index in it (0 for an item) *)
Definition path := list (nat * nat).

Section Recorder.
  Context {V : Type}.
  (** the recorded objects: identity and property values.  An object (Persistence.py 331-382) has properties, items and
      relationships.  Simplified: all are of one class as far as the names go; no item and no property is hidden; nothing
      is validated or read only unless not recordable. *)
  Definition obj := node (nat * list V).
  (** the object to replay on, or part of it *)
  Definition tree := node (list V).
  (** a recorder (15-36): its object, its accessor (the way from the root), its sub-recorders *)
  Definition rcd := node (nat * path).
  Definition id_of (o : obj) : nat := fst (label o).
  Definition props_of (o : obj) : list V := snd (label o).
  Definition is_id {B} (i : nat) (a : nat * B) : bool := fst a =? i.

  (** which slots are items; which properties are recordable and not read only (Persistence.py 629-631) *)
  Variable item : nat -> bool.
  Variable recordable : nat -> nat -> bool.

  (** ** what is done to the objects.  All objects there are: those with no parent, and what is below them. *)
  Definition world := list obj.
  Definition all_nodes (w : world) : list obj := flat_map nodes w.
  Definition lookup (i : nat) (w : world) : option obj := find (fun o => id_of o =? i) (all_nodes w).
  Inductive op :=
  | SetProp (i p : nat) (v : V)              (* setattr: Persistence.py 644-661 *)
  | Insert (i k at_ c : nat)                 (* insert_item: Persistence.py 703-714; [c] the item *)
  | Remove (i k at_ : nat)                   (* remove_item of what is at the index: Persistence.py 720-731 *)
  | SetItem (i k : nat) (c : option nat).    (* set_item: Persistence.py 679-692 *)
  Definition target (a : op) : nat := match a with SetProp i _ _ | Insert i _ _ _ | Remove i _ _ | SetItem i _ _ => i end.

  Definition set_prop (p : nat) (v : V) (o : obj) : obj := Node (id_of o, set_nth p v (props_of o)) (slots o).
  (** what the operation does to its object; [c] is the item put in, if any *)
  Definition act (a : op) (c : option obj) (o : obj) : obj :=
    match a with
    | SetProp _ p v => set_prop p v o
    | Insert _ k n _ => match c with Some x => set_slot k (insert_at n x (slot k o)) o | None => o end
    | Remove _ k n => set_slot k (delete_at n (slot k o)) o
    | SetItem _ k _ => set_slot k (match c with Some x => [x] | None => [] end) o
    end.
  Definition is_root (i : nat) (o : obj) : bool := id_of o =? i.
  (** the item put in: an object with no parent.  Simplified: an object is never in two places. *)
  Definition taken (a : op) (w : world) : option obj :=
    match a with
    | Insert _ _ _ c | SetItem _ _ (Some c) => find (is_root c) w
    | _ => None
    end.
  Definition left_over (a : op) (w : world) : world :=
    match a with
    | Insert _ _ _ c | SetItem _ _ (Some c) => filter (fun o => negb (is_root c o)) w
    | _ => w
    end.
  (** the item taken out, left with no parent *)
  Definition dropped (a : op) (o : obj) : list obj :=
    match a with
    | Remove _ k n => match nth_error (slot k o) n with Some x => [x] | None => [] end
    | SetItem _ k _ => slot k o
    | _ => []
    end.
  (** the operation can be done: the names exist, an item put in has no parent and does not contain the object *)
  Definition possible (a : op) (w : world) (o : obj) : bool :=
    match a with
    | SetProp _ p _ => p <? length (props_of o)
    | Insert _ k _ _ => (k <? length (slots o)) && negb (item k) && (match taken a w with Some _ => true | None => false end)
    | Remove _ k n => (k <? length (slots o)) && negb (item k) && (n <? length (slot k o))
    | SetItem _ k c =>
        (k <? length (slots o)) && item k &&
        (match c with Some _ => match taken a w with Some _ => true | None => false end | None => true end)
    end.
  Definition change (w : world) (a : op) : option world :=
    match lookup (target a) (left_over a w) with
    | Some o =>
        if possible a w o then Some (dropped a o ++ map (upd (is_id (target a)) (act a (taken a w))) (left_over a w))
        else None
    | None => None
    end.

  (** ** the recorder *)
  Inductive entry :=
  | ESet (q : path) (i p : nat)                (* 71-72 *)
  | EInsert (q : path) (k n c : nat)           (* 95 *)
  | ERemove (q : path) (k n : nat).            (* 103 *)
  (** 14-36: a recorder for the object and for everything below it; the accessor of a sub-recorder goes through the
      accessor of its parent *)
  Fixpoint mk (q : path) (o : obj) : rcd :=
    match o with
    | Node (i, _) ss => Node (i, q) (mapi_from (fun k l => mapi_from (fun n x => mk (q ++ [(k, n)]) x) 0 l) 0 ss)
    end.
  (** 90-92, 98-100: assigning _accessor_fn calls itself (65-67): RecursionError, and Event.fire ends the call there, if
      any sub-recorder has an index to be shifted *)
  Definition shifts_up (n : nat) (subs : list rcd) : bool := existsb (fun j => n <=? j) (seq 0 (length subs)).
  Definition shifts_down (n : nat) (subs : list rcd) : bool := existsb (fun j => n <? j) (seq 0 (length subs)).
  (** what a recorder logs when its object tells of the change *)
  Definition logs (a : op) (r : rcd) : list entry :=
    let q := snd (label r) in
    match a with
    | SetProp i p _ => if recordable i p then [ESet q i p] else []                    (* 69-74 *)
    | Insert _ k n c => if shifts_up n (slot k r) then [] else [EInsert q k n c]      (* 93-95 *)
    | Remove _ k n =>
        if shifts_down n (slot k r) then []
        else match nth_error (slot k r) n with Some _ => [ERemove q k n] | None => [] end   (* 101: pop, IndexError *)
    | SetItem _ _ _ => []          (* 77: pop, KeyError; 80: the accessor called with no argument, TypeError *)
    end.
  (** and what becomes of its sub-recorders *)
  Definition react (a : op) (c : option obj) (r : rcd) : rcd :=
    let q := snd (label r) in
    match a with
    | SetProp _ _ _ => r
    | Insert _ k n _ =>
        if shifts_up n (slot k r) then r
        else match c with Some x => set_slot k (insert_at n (mk (q ++ [(k, n)]) x) (slot k r)) r | None => r end
    | Remove _ k n => if shifts_down n (slot k r) then r else set_slot k (delete_at n (slot k r)) r
    | SetItem _ k _ => set_slot k [] r                                                (* 77-79 *)
    end.

  (** Each recorder of the object hears of the change after it was made.  The notifications are made by the object's class
      in the callbacks of the operations.  Simplified: with several recorders of one object the order is that of the tree. *)
  Record state := State { st_world : world; st_rec : rcd; st_log : list entry }.
  Definition step (s : state) (a : op) : state :=
    match change (st_world s) a with
    | None => s
    | Some w =>
        State w (upd (is_id (target a)) (react a (taken a (st_world s))) (st_rec s))
          (st_log s ++ flat_map (logs a) (filter (fun r => is_id (target a) (label r)) (nodes (st_rec s))))
    end.
  Definition run (s : state) (l : list op) : state := fold_left step l s.
  (** a recorder made for the object [r] *)
  Definition start (w : world) (o : obj) : state := State w (mk [] o) [].

  (** ** replay *)
  Fixpoint erase (o : obj) : tree := match o with Node a ss => Node (snd a) (map (map erase) ss) end.
  (** getattr along the way (26-36, 93): the attribute of None or of an object without the name raises AttributeError *)
  Fixpoint at_path (q : path) (f : tree -> res tree) (t : tree) : res tree :=
    match q with
    | [] => f t
    | (k, n) :: q' =>
        match nth_error (slots t) k with
        | None => Err AttributeError
        | Some l =>
            match nth_error l n with
            | None => Err (if item k then AttributeError else IndexError)
            | Some x => match at_path q' f x with Ok y => Ok (set_slot k (set_nth n y l) t) | Err e => Err e end
            end
        end
    end.
  (** one closure called on [t] when the objects are [w] *)
  Definition call (w : world) (e : entry) (t : tree) : res tree :=
    match e with
    | ESet q i p =>
        at_path q (fun x => match lookup i w with
                            | Some o => match nth_error (props_of o) p with
                                        | Some v => Ok (Node (set_nth p v (label x)) (slots x))
                                        | None => Err AttributeError
                                        end
                            | None => Err AttributeError
                            end) t
    | EInsert q k n c =>     (* deepcopy: Persistence.py 384-399 *)
        at_path q (fun x => match lookup c w with
                            | Some o => if k <? length (slots x) then Ok (set_slot k (insert_at n (erase o) (slot k x)) x) else Err KeyError
                            | None => Err AttributeError
                            end) t
    | ERemove q k n =>
        at_path q (fun x => match nth_error (slots x) k with
                            | Some l => match nth_error l n with
                                        | Some _ => Ok (set_slot k (delete_at n l) x)
                                        | None => Err IndexError
                                        end
                            | None => Err AttributeError
                            end) t
    end.
  (** 57-59 *)
  Fixpoint apply (w : world) (l : list entry) (t : tree) : res tree :=
    match l with
    | [] => Ok t
    | e :: l' => match call w e t with Ok t' => apply w l' t' | Err x => Err x end
    end.
End Recorder.
