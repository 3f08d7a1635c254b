(** Model of trees of PersistentObjects: parents, contexts, modification counts and storage handlers,
    /repo/nion/utils/Persistence.py.
    Objects, contexts and storage handlers are numbered.  Object [r] has the uuid [uuid r].  Every object is alive, so a
    weak reference to a parent gives the parent.  The subclass hooks item_changed, insert, remove and
    persistent_object_context_changed do nothing.  A storage handler does to the item what the comments at 690, 712 and
    730 say: it sets the item's context, to that of the parent or to None.  What it stores is not modelled here.
    [fuel] is the recursion depth that Python allows. *)
From Coq Require Import String ZArith Bool List.
From Verif Require Import PyBase.
Import ListNotations.

Section Heap.
  Variable uuid : nat -> nat.
  Inductive regcall := Reg (c r : nat) | Unreg (c r : nat).
  Record heap := Heap {
    h_parent : nat -> option nat;                          (* 382: the parent object *)
    h_items : nat -> list (string * option nat);           (* 373, 119 *)
    h_rels : nat -> list (string * list nat);              (* 374, 131 *)
    h_ctx : nat -> option nat;                             (* 376 *)
    h_count : nat -> nat;                                  (* 379 *)
    h_reg : nat -> nat -> option nat;                      (* 174: of a context, the objects by uuid *)
    h_storage : nat -> nat -> option nat;                  (* 175: of a context, the handlers by object *)
    h_calls : list regcall                                 (* the calls of register and unregister, 424 and 426 *)
  }.
  Definition upd {X} (f : nat -> X) (r : nat) (x : X) : nat -> X := fun r' => if Nat.eqb r' r then x else f r'.
  Definition set_parent r p h := Heap (upd (h_parent h) r p) (h_items h) (h_rels h) (h_ctx h) (h_count h) (h_reg h) (h_storage h) (h_calls h).
  Definition set_items r l h := Heap (h_parent h) (upd (h_items h) r l) (h_rels h) (h_ctx h) (h_count h) (h_reg h) (h_storage h) (h_calls h).
  Definition set_rels r l h := Heap (h_parent h) (h_items h) (upd (h_rels h) r l) (h_ctx h) (h_count h) (h_reg h) (h_storage h) (h_calls h).
  Definition set_ctx r c h := Heap (h_parent h) (h_items h) (h_rels h) (upd (h_ctx h) r c) (h_count h) (h_reg h) (h_storage h) (h_calls h).
  Definition set_count r n h := Heap (h_parent h) (h_items h) (h_rels h) (h_ctx h) (upd (h_count h) r n) (h_reg h) (h_storage h) (h_calls h).
  Definition set_reg c u x h := Heap (h_parent h) (h_items h) (h_rels h) (h_ctx h) (h_count h) (upd (h_reg h) c (upd (h_reg h c) u x)) (h_storage h) (h_calls h).
  Definition set_storage c r s h := Heap (h_parent h) (h_items h) (h_rels h) (h_ctx h) (h_count h) (h_reg h) (upd (h_storage h) c (upd (h_storage h c) r s)) (h_calls h).
  Definition add_call x h := Heap (h_parent h) (h_items h) (h_rels h) (h_ctx h) (h_count h) (h_reg h) (h_storage h) (h_calls h ++ [x]).

  Definition out : Type := heap * res unit.
  Definition andthen (o : out) (f : heap -> out) : out := match o with (h, Ok _) => f h | (h, Err e) => (h, Err e) end.

  (** 599-605 *)
  Fixpoint update_modified (fuel : nat) (r : nat) (h : heap) : out :=
    match fuel with
    | O => (h, Err RecursionError)
    | S f =>
        let h1 := set_count r (S (h_count h r)) h in
        match h_parent h r with Some p => update_modified f p h1 | None => (h1, Ok tt) end
    end.

  (** 178-190 and 192-206 without the subscriptions, for which see PersistCtx_Model *)
  Definition register (c r : nat) (h : heap) : out := (add_call (Reg c r) (set_reg c (uuid r) (Some r) h), Ok tt).
  Definition unregister (c r : nat) (h : heap) : out :=
    let h1 := add_call (Unreg c r) h in
    match h_reg h1 c (uuid r) with
    | Some _ => (set_reg c (uuid r) None h1, Ok tt)
    | None => (h1, Err KeyError)
    end.
  (** 416-422: the items that are not None, then the relationships *)
  Definition children (h : heap) (r : nat) : list nat :=
    flat_map (fun p => match snd p with Some x => [x] | None => [] end) (h_items h r) ++ flat_map snd (h_rels h r).
  (** 410-427 *)
  Fixpoint set_context (fuel : nat) (c : option nat) (r : nat) (h : heap) : out :=
    match fuel with
    | O => (h, Err RecursionError)
    | S f =>
        match h_ctx h r, c with
        | Some _, Some _ => (h, Err AssertionError)
        | old, _ =>
            andthen (fold_left (fun o x => andthen o (set_context f c x)) (children h r) (set_ctx r c h, Ok tt)) (fun h1 =>
            andthen (match old with Some k => unregister k r h1 | None => (h1, Ok tt) end) (fun h2 =>
            match c with Some k => register k r h2 | None => (h2, Ok tt) end))
        end
    end.

  (** 239-247 *)
  Fixpoint get_storage (fuel : nat) (c r : nat) (h : heap) : res (option nat) :=
    match fuel with
    | O => Err RecursionError
    | S f =>
        match h_storage h c r with
        | Some s => Ok (Some s)
        | None => match h_parent h r with Some p => get_storage f c p h | None => Ok None end
        end
    end.
  (** 255-280: with a context, the handler is called; None has no such method *)
  Definition with_storage (fuel : nat) (r : nat) (f : nat -> heap -> out) (h : heap) : out :=
    match h_ctx h r with
    | None => (h, Ok tt)
    | Some c =>
        match get_storage fuel c r h with
        | Ok (Some _) => f c h
        | Ok None => (h, Err AttributeError)
        | Err e => (h, Err e)
        end
    end.

  Inductive op :=
    | SetProperty (r : nat)
    | SetItem (r : nat) (name : string) (x : option nat)
    | InsertItem (r : nat) (name : string) (i : Z) (x : nat)
    | RemoveItem (r : nat) (name : string) (x : nat)
    | SetContext (r : nat) (c : option nat)
    | SetStorage (c r : nat) (s : nat).

  (** 616-621, 655-657; an object has the property *)
  Definition set_property (fuel : nat) (r : nat) (h : heap) : out :=
    andthen (update_modified fuel r h) (with_storage fuel r (fun _ h => (h, Ok tt))).
  (** 679-692 *)
  Definition set_item (fuel : nat) (r : nat) (name : string) (x : option nat) (h : heap) : out :=
    match dict_get string_dec name (h_items h r) with
    | None => (h, Err KeyError)
    | Some _ =>
        andthen (update_modified fuel r (set_items r (dict_set string_dec name x (h_items h r)) h)) (fun h1 =>
        let h2 := match x with Some x => set_parent x (Some r) h1 | None => h1 end in
        with_storage fuel r (fun c h => match x with Some x => set_context fuel (Some c) x h | None => (h, Ok tt) end) h2)
    end.
  (** 703-714 *)
  Definition insert_item (fuel : nat) (r : nat) (name : string) (i : Z) (x : nat) (h : heap) : out :=
    match dict_get string_dec name (h_rels h r) with
    | None => (h, Err KeyError)
    | Some l =>
        andthen (update_modified fuel r (set_rels r (dict_set string_dec name (py_insert i x l) (h_rels h r)) h)) (fun h1 =>
        with_storage fuel r (fun c h => set_context fuel (Some c) x h) (set_parent x (Some r) h1))
    end.
  (** list.index and list.remove: objects are equal only to themselves *)
  Fixpoint remove_first (x : nat) (l : list nat) : option (list nat) :=
    match l with
    | [] => None
    | y :: l' => if Nat.eqb y x then Some l' else match remove_first x l' with Some l'' => Some (y :: l'') | None => None end
    end.
  (** 720-731 *)
  Definition remove_item (fuel : nat) (r : nat) (name : string) (x : nat) (h : heap) : out :=
    match dict_get string_dec name (h_rels h r) with
    | None => (h, Err KeyError)
    | Some l =>
        match remove_first x l with
        | None => (h, Err ValueError)
        | Some l' =>
            andthen (update_modified fuel r (set_rels r (dict_set string_dec name l' (h_rels h r)) h)) (fun h1 =>
            andthen (set_context fuel None x h1) (fun h2 =>
            andthen (with_storage fuel r (fun _ h => set_context fuel None x h) h2) (fun h3 =>
            (set_parent x None h3, Ok tt))))
        end
    end.
  Definition step (fuel : nat) (h : heap) (o : op) : out :=
    match o with
    | SetProperty r => set_property fuel r h
    | SetItem r name x => set_item fuel r name x h
    | InsertItem r name i x => insert_item fuel r name i x h
    | RemoveItem r name x => remove_item fuel r name x h
    | SetContext r c => set_context fuel c r h
    | SetStorage c r s => (set_storage c r (Some s) h, Ok tt)       (* 228-234 *)
    end.
  (** new objects with any items and relationships defined, all empty (449-453) *)
  Definition heap_make (items rels : nat -> list string) : heap :=
    Heap (fun _ => None) (fun r => map (fun n => (n, None)) (items r)) (fun r => map (fun n => (n, [])) (rels r))
      (fun _ => None) (fun _ => 0) (fun _ _ => None) (fun _ _ => None) [].
End Heap.
