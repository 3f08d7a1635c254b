(** Model of reading dicts into objects that already are in use, with the registrations in their context,
    /repo/nion/utils/Persistence.py.
    An object is a tree: its number, uuid, context, the flag _is_reading, its items and its relationships, in the order of
    the definitions of its class.  Objects that are replaced while reading are kept in [w_lost], nothing else refers to
    them.  Objects stay alive, so a weak reference gives the object.  Properties are in PersistDict_Model and parents in
    PersistHeap_Model.  Factories make an object (526, 543) that has the items and relationships which the dict has, the
    uuids in dicts are uuids, and the hooks item_changed, insert, remove and persistent_object_context_changed, the
    subscribers and the listeners of registration_event do nothing. *)
From Coq Require Import ZArith Bool List.
From Verif Require Import PyBase.
Import ListNotations.

Inductive obj := Obj (id uuid : nat) (ctx : option nat) (reading : bool) (items : list (option obj)) (rels : list (list obj)).
(** what is read of a dict (501-550): the uuid if there is one, what is under the keys of the items (None if there is nothing
    or it is empty, 516) and of the relationships (an empty list if there is nothing, 534) *)
Inductive data := Data (uuid : option nat) (items : list (option data)) (rels : list (list data)).

(** 174: of a context, the objects by uuid; the number of the next new object; objects replaced (664) *)
Record world := World { w_reg : nat -> nat -> option nat; w_next : nat; w_lost : list obj }.
Definition out (X : Type) : Type := X * world * option exn.

Definition set_reg (c u : nat) (x : option nat) (w : world) : world :=
  World (fun c' u' => if Nat.eqb c' c && Nat.eqb u' u then x else w_reg w c' u') (w_next w) (w_lost w).
(** 178-190 *)
Definition register (c u x : nat) (w : world) : world := set_reg c u (Some x) w.
(** 192-206: the entry is deleted, and that raises KeyError if there is none *)
Definition unregister (c u : nat) (w : world) : world * option exn :=
  match w_reg w c u with Some _ => (set_reg c u None w, None) | None => (w, Some KeyError) end.

(** do [f] to the elements one after the other, until an exception *)
Definition each {X} (f : X -> world -> out X) : list X -> world -> out (list X) :=
  fix go l w :=
    match l with
    | [] => ([], w, None)
    | x :: l' =>
        match f x w with
        | (x', w1, Some e) => (x' :: l', w1, Some e)
        | (x', w1, None) => let '(l'', w2, e) := go l' w1 in (x' :: l'', w2, e)
        end
    end.
(** 417-419: only if there is an item *)
Definition opt {X} (f : X -> world -> out X) (x : option X) (w : world) : out (option X) :=
  match x with None => (None, w, None) | Some x => let '(x', w', e) := f x w in (Some x', w', e) end.

(** 410-427 *)
Fixpoint set_context (c : option nat) (o : obj) (w : world) : out obj :=
  match o with
  | Obj i u old r is rs =>
      match old, c with
      | Some _, Some _ => (o, w, Some AssertionError)
      | _, _ =>
          match each (opt (set_context c)) is w with
          | (is', w1, Some e) => (Obj i u c r is' rs, w1, Some e)
          | (is', w1, None) =>
              match each (each (set_context c)) rs w1 with
              | (rs', w2, Some e) => (Obj i u c r is' rs', w2, Some e)
              | (rs', w2, None) =>
                  let '(w3, e) := match old with Some k => unregister k u w2 | None => (w2, None) end in
                  (Obj i u c r is' rs', match e, c with None, Some k => register k u i w3 | _, _ => w3 end, e)
              end
          end
      end
  end.

Definition begin_reading (o : obj) : obj := match o with Obj i u c _ is rs => Obj i u c true is rs end.     (* 498-499 *)
(** 552-560 *)
Fixpoint finish_reading (o : obj) : obj :=
  match o with Obj i u c _ is rs => Obj i u c false (map (option_map finish_reading) is) (map (map finish_reading) rs) end.

Section Read.
  (** uuid.uuid4() of the new object (378) *)
  Variable new_uuid : nat -> nat.
  (** 523, 541: the factory makes a new object, without a context *)
  Definition make (ni nr : nat) (w : world) : obj * world :=
    (Obj (w_next w) (new_uuid (w_next w)) None false (repeat None ni) (repeat [] nr), World (w_reg w) (S (w_next w)) (w_lost w)).
  Definition lose (x : option obj) (w : world) : world :=
    World (w_reg w) (w_next w) (w_lost w ++ match x with Some o => [o] | None => [] end).
  (** 523-531 or 541-550, up to the place where the object is put *)
  Definition read_new (c : option nat) (read : obj -> world -> out obj) (ni nr : nat) (w : world) : out obj :=
    let (x, w1) := make ni nr w in
    match read (begin_reading x) w1 with
    | (x', w2, Some e) => (x', w2, Some e)
    | (x', w2, None) => set_context c x' w2
    end.
  Definition n_items (d : data) : nat := match d with Data _ is _ => length is end.
  Definition n_rels (d : data) : nat := match d with Data _ _ rs => length rs end.
  (** 514-531: the items of the dict against those of the object.  An item that raised is not put anywhere (530-531: it is
      put there before its context is set, but that does not raise for a new object) *)
  Definition read_items (c : option nat) (read : data -> obj -> world -> out obj) : list (option data) -> list (option obj) -> world -> out (list (option obj)) :=
    fix go ds is w :=
      match ds, is with
      | Some d :: ds', x :: is' =>
          match read_new c (read d) (n_items d) (n_rels d) w with
          | (_, w1, Some e) => (x :: is', w1, Some e)
          | (y, w1, None) => let '(l, w2, e) := go ds' is' (lose x w1) in (Some y :: l, w2, e)
          end
      | None :: ds', x :: is' => let '(l, w2, e) := go ds' is' w in (x :: l, w2, e)
      | _, _ => (is, w, None)
      end.
  (** 534-550: of one relationship; the new objects go after those that are there *)
  Definition read_rel (c : option nat) (read : data -> obj -> world -> out obj) : list data -> list obj -> world -> out (list obj) :=
    fix go ds l w :=
      match ds with
      | [] => (l, w, None)
      | d :: ds' =>
          match read_new c (read d) (n_items d) (n_rels d) w with
          | (_, w1, Some e) => (l, w1, Some e)
          | (y, w1, None) => go ds' (l ++ [y]) w1
          end
      end.
  (** 532-550 *)
  Definition read_rels (c : option nat) (read : data -> obj -> world -> out obj) : list (list data) -> list (list obj) -> world -> out (list (list obj)) :=
    fix go ds rs w :=
      match ds, rs with
      | d :: ds', l :: rs' =>
          match read_rel c read d l w with
          | (l', w1, Some e) => (l' :: rs', w1, Some e)
          | (l', w1, None) => let '(r, w2, e) := go ds' rs' w1 in (l' :: r, w2, e)
          end
      | _, _ => (rs, w, None)
      end.
  (** 501-550 *)
  Fixpoint read (d : data) (o : obj) (w : world) : out obj :=
    match d, o with
    | Data du dis drs, Obj i u c r is rs =>
        let u' := match du with Some x => x | None => u end in
        let w1 := match du, c with Some x, Some k => register k x i w | _, _ => w end in      (* 505-506 *)
        match read_items c read dis is w1 with
        | (is', w2, Some e) => (Obj i u' c r is' rs, w2, Some e)
        | (is', w2, None) => let '(rs', w3, e) := read_rels c read drs rs w2 in (Obj i u' c r is' rs', w3, e)
        end
    end.

  (** what a program does with a top level object *)
  Inductive op := Begin | Read (d : data) | Finish | SetContext (c : option nat).
  Definition step (s : obj * world) (o : op) : out obj :=
    let (x, w) := s in
    match o with
    | Begin => (begin_reading x, w, None)
    | Read d => read d x w
    | Finish => (finish_reading x, w, None)
    | SetContext c => set_context c x w
    end.
  (** an exception ends the operation, not the program *)
  Definition run (l : list op) (s : obj * world) : obj * world := fold_left (fun s o => fst (step s o)) l s.
  (** whether no operation raises *)
  Fixpoint smooth (l : list op) (s : obj * world) : Prop :=
    match l with [] => True | o :: l' => snd (step s o) = None /\ smooth l' (fst (step s o)) end.
End Read.
