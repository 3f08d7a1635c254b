(** Model of Binding, PropertyBinding, PropertyAttributeBinding, TuplePropertyBinding and ListBinding,
    /repo/nion/utils/Binding.py.
    A Python value is [option V] with [None] for None.  Converters and validators may raise.  The source is any object:
    a state [S] with notifications sent when its property is assigned.  The target setter and the inserter and remover
    are plain recorders: they do not call back into the binding.  Event.fire swallows what a listener raises (Event.py),
    so a converter that raises during a notification leaves the target alone. *)
From Coq Require Import String ZArith Bool List.
From Verif Require Import PyBase.
Import ListNotations.
Local Open Scope Z_scope.

Section Binding.
  Context {V S : Type}.
  Definition pv : Type := option V.
  (** 42-51; an absent converter or validator is the identity, 82-94 *)
  Record config := Config {
    c_name : string;                       (* the property that is observed *)
    c_convert : pv -> res pv;
    c_back : pv -> res pv;
    c_validate : pv -> res pv;
    c_fallback : pv;
    (* 240-245, 283-288, 339-344: what a notification does: a source value for update_target, or None for the fallback *)
    c_change : S -> res (option pv);
    c_getter : S -> res pv;                (* source_getter *)
    c_setter : S -> pv -> res (S * list string) (* source_setter: new source state and the notifications it sent *)
  }.
  Variable c : config.

  (** the binding with its source; [b_writes] records the calls of the target setter, latest first *)
  Record bstate := BState { b_src : S; b_open : bool; b_target : bool; b_writes : list pv }.

  (** 129-142 *)
  Definition target_direct (v : pv) (b : bstate) : bstate :=
    if b_target b then BState (b_src b) (b_open b) (b_target b) (v :: b_writes b) else b.
  (** 238-245, 281-288, 337-344: the listener; closed bindings have no listener *)
  Definition property_changed (name : string) (b : bstate) : bstate :=
    if b_open b && String.eqb name (c_name c) then
      match c_change c (b_src b) with
      | Ok (Some v) => match c_convert c v with Ok t => target_direct t b | Err _ => b end
      | Ok None => target_direct (c_fallback c) b
      | Err _ => b
      end
    else b.
  Definition notify (names : list string) (b : bstate) : bstate := fold_left (fun b n => property_changed n b) names b.
  (** 99-111, 113-127; the source setter is None after close *)
  Definition update_source (v : pv) (b : bstate) : bstate * res unit :=
    if b_open b then
      match c_back c v with
      | Ok v1 =>
          match c_validate c v1 with
          | Ok v2 =>
              match c_setter c (b_src b) v2 with
              | Ok (s', names) => (notify names (BState s' (b_open b) (b_target b) (b_writes b)), Ok tt)
              | Err e => (b, Err e)
              end
          | Err e => (b, Err e)
          end
      | Err e => (b, Err e)
      end
    else (b, Ok tt).
  (** 145-159 *)
  Definition get_target_value (b : bstate) : res pv :=
    if b_open b then
      match c_getter c (b_src b) with
      | Ok (Some v) => c_convert c (Some v)
      | Ok None => Ok (c_fallback c)
      | Err e => Err e
      end
    else Ok (c_fallback c).
  (** 54-64, 251-254; the second close finds no listener *)
  Definition close (b : bstate) : bstate * res unit :=
    if b_open b then (BState (b_src b) false false (b_writes b), Ok tt) else (b, Err AttributeError).
  (** the source changes to any state and sends any notifications; or the binding is used *)
  Inductive op := Change (s : S) (names : list string) | Update (v : pv) | SetTarget | Close.
  Definition step (b : bstate) (o : op) : bstate * res unit :=
    match o with
    | Change s names => (notify names (BState s (b_open b) (b_target b) (b_writes b)), Ok tt)
    | Update v => update_source v b
    | SetTarget => (BState (b_src b) (b_open b) true (b_writes b), Ok tt)
    | Close => close b
    end.
  Definition run (l : list op) (b : bstate) : bstate := fold_left (fun b o => fst (step b o)) l b.
End Binding.
Arguments pv : clear implicits.
Arguments config : clear implicits.
Arguments bstate : clear implicits.
Arguments op : clear implicits.

(** ** PropertyBinding, 213-254: the property is read and written directly *)
Section Property.
  Context {V S : Type} (sget : S -> pv V) (sset : S -> pv V -> S * list string).
  Definition property_binding (name : string) (conv back valid : pv V -> res (pv V)) (fallback : pv V) : config V S :=
    Config name conv back valid fallback
      (fun s => Ok (match sget s with Some v => Some (Some v) | None => None end))
      (fun s => Ok (sget s))
      (fun s v => Ok (sset s v)).
End Property.

(** ** TuplePropertyBinding, 313-366: the property is None or a tuple *)
Section Tuple.
  Context {V S : Type} (sget : S -> option (list (pv V))) (sset : S -> option (list (pv V)) -> S * list string).
  Definition tuple := option (list (pv V)).
  (** 341-344, 356-358: None unless the index is less than the length; a negative index beyond the start raises *)
  Definition tuple_element (t : tuple) (i : Z) : res (option (pv V)) :=
    match t with
    | Some l => if i <? Z.of_nat (length l) then match py_get l i with Ok x => Ok (Some x) | Err e => Err e end else Ok None
    | None => Ok None
    end.
  (** 348-354 *)
  Definition pad_to (i : Z) (l : list (pv V)) : list (pv V) := l ++ repeat None (Z.to_nat (i + 1 - Z.of_nat (length l))).
  Definition tuple_set (t : tuple) (i : Z) (v : pv V) : res tuple :=
    let l := pad_to i (match t with Some l => l | None => [] end) in
    match py_index (length l) i with
    | Some k => Ok (Some (firstn k l ++ v :: skipn (Datatypes.S k) l))
    | None => Err IndexError
    end.
  Definition tuple_binding (name : string) (i : Z) (conv back : pv V -> res (pv V)) (fallback : pv V) : config V S :=
    Config name conv back (fun v => Ok v) fallback
      (fun s => tuple_element (sget s) i)
      (fun s => match tuple_element (sget s) i with Ok (Some x) => Ok x | Ok None => Ok None | Err e => Err e end)
      (fun s v => match tuple_set (sget s) i v with Ok t => Ok (sset s t) | Err e => Err e end).
End Tuple.

(** ** PropertyAttributeBinding, 257-310: the property is None or an object with attributes *)
Section Attribute.
  Context {V : Type}.
  (** objects are mutable and shared: a heap of attribute maps (None: no such attribute) *)
  Record asource := ASource { a_heap : nat -> string -> option (pv V); a_prop : option nat }.
  (** which notifications an assignment of the property sends, given the state before and after *)
  Variable notifies : asource -> asource -> list string.
  Definition set_attribute (s : asource) (r : nat) (attr : string) (v : pv V) : asource :=
    ASource (fun r' a => if Nat.eqb r' r && String.eqb a attr then Some v else a_heap s r' a) (a_prop s).
  Definition assign (s : asource) (p : option nat) : asource * list string :=
    let s' := ASource (a_heap s) p in (s', notifies s s').
  Definition read_attribute (s : asource) (attr : string) : option (pv V) :=
    match a_prop s with Some r => a_heap s r attr | None => None end.
  (** 292-298 with no update_attribute_fn; setattr on None raises AttributeError *)
  Definition attribute_set (s : asource) (attr : string) (v : pv V) : res (asource * list string) :=
    match a_prop s with
    | Some r => Ok (assign (set_attribute s r attr v) (a_prop s))
    | None => Err AttributeError
    end.
  Definition attribute_binding (name attr : string) (conv back : pv V -> res (pv V)) (fallback : pv V) : config V asource :=
    Config name conv back (fun v => Ok v) fallback
      (fun s => Ok (read_attribute s attr))
      (fun s => Ok (match read_attribute s attr with Some x => x | None => None end))
      (fun s v => attribute_set s attr v).
End Attribute.
Arguments asource : clear implicits.

(** ** ListBinding, 162-210 *)
Section ListBind.
  Context {A : Type}.
  (** the source's lists by key; the target list kept by the inserter (list.insert) and the remover (del) *)
  Record lstate := LState { l_lists : string -> list A; l_open : bool; l_target : list A }.
  Definition set_list (k : string) (l : list A) (f : string -> list A) : string -> list A :=
    fun k' => if String.eqb k' k then l else f k'.
  Variable key : string.
  (** 188-195 *)
  Definition item_inserted (k : string) (x : A) (i : Z) (b : lstate) : lstate :=
    if l_open b && String.eqb k key then LState (l_lists b) (l_open b) (py_insert i x (l_target b)) else b.
  Definition item_removed (k : string) (i : Z) (b : lstate) : lstate :=
    if l_open b && String.eqb k key then
      match py_del (l_target b) i with Ok l => LState (l_lists b) (l_open b) l | Err _ => b end
    else b.
  (** a list of the source is edited and then the event is fired with the same arguments *)
  Inductive lop := LInsert (k : string) (i : Z) (x : A) | LRemove (k : string) (i : Z) | LClose.
  Definition lstep (b : lstate) (o : lop) : lstate * res unit :=
    match o with
    | LInsert k i x => (item_inserted k x i (LState (set_list k (py_insert i x (l_lists b k)) (l_lists b)) (l_open b) (l_target b)), Ok tt)
    | LRemove k i =>
        match py_del (l_lists b k) i with
        | Ok l => (item_removed k i (LState (set_list k l (l_lists b)) (l_open b) (l_target b)), Ok tt)
        | Err e => (b, Err e)
        end
    | LClose => if l_open b then (LState (l_lists b) false (l_target b), Ok tt) else (b, Err AttributeError)
    end.
  Definition lrun (l : list lop) (b : lstate) : lstate := fold_left (fun b o => fst (lstep b o)) l b.
End ListBind.
Arguments lstate : clear implicits.
Arguments lop : clear implicits.
