(** Model of documents kept in a storage handler while their objects are edited, /repo/nion/utils/Persistence.py.
    Objects are numbered; object [r] is of class [cls r] and has the uuid [uu r].  The classes, and what an object writes, are
    those of PersistDict_Model.  All objects are alive and there is one context; an object is in it or not.  Contexts
    and registrations in general are in PersistHeap_Model and PersistCtx_Model; modification counts, which are not stored,
    in PersistHeap_Model.  The callbacks changed, item_changed, insert and remove do nothing.
    The repository has no storage handler, only the interface that one must have (136-170).  The handler here keeps the dict
    of the object it was set for.  It finds the dict of an object below by the accessors that the objects give for that
    purpose (429-437), from the top down, and does there what each method is named for; it puts the dict that
    write_to_dict gives for an item that is inserted or set, and it sets the context of the item as the comments at 690, 712
    and 730 say.  [fuel] is the recursion depth that Python allows.  A step that raises ends the execution. *)
From Coq Require Import String ZArith Bool List.
From Verif Require Import PyBase PersistDict_Model.
Import ListNotations.

(** 318-328: where an object is in its parent *)
Inductive place := AtItem (name : string) | InRel (name : string).
(** one application of an accessor, 433 and 436 *)
Inductive access := Item (name : string) | Elem (name : string) (index : nat).

(** ** the handler *)
Section Handler.
  Context {A : Type}.
  (** the calls of the handler, 255-280 *)
  Inductive hcall :=
    | SetProp (k : string) (j : json A)                       (* set_property *)
    | ClearProp (k : string)                                  (* clear_property *)
    | InsertIn (k : string) (i : Z) (d : dict A)              (* insert_item *)
    | RemoveAt (k : string) (i : nat)                         (* remove_item *)
    | SetItemIn (k : string) (d : option (dict A)).           (* set_item *)
  (** dict.pop(k, None) *)
  Definition without (k : string) (d : dict A) : dict A := filter (fun x => negb (String.eqb (fst x) k)) d.
  Definition handle (c : hcall) (d : dict A) : res (dict A) :=
    match c with
    | SetProp k j => Ok (dset k j d)
    | ClearProp k => Ok (without k d)
    | InsertIn k i x =>                                       (* d.setdefault(k, list()).insert(i, x) *)
        match dget k d with
        | None => Ok (dset k (JList [JDict x]) d)
        | Some (JList l) => Ok (dset k (JList (py_insert i (JDict x) l)) d)
        | Some _ => Err AttributeError
        end
    | RemoveAt k i =>                                         (* del d[k][i] *)
        match dget k d with
        | None => Err KeyError
        | Some (JList l) => if i <? length l then Ok (dset k (JList (delete_at i l)) d) else Err IndexError
        | Some _ => Err TypeError
        end
    | SetItemIn k (Some x) => Ok (dset k (JDict x) d)
    | SetItemIn k None => Ok (without k d)
    end.
  (** the dict that the accessors lead to is changed in place; 433: for an item that is not there, a new dict is changed
      that belongs to nothing *)
  Fixpoint change_at (path : list access) (g : dict A -> res (dict A)) (j : json A) : res (json A) :=
    match j with
    | JDict d =>
        match path with
        | [] => match g d with Ok d' => Ok (JDict d') | Err e => Err e end
        | Item n :: path' =>
            match dget n d with
            | Some x => match change_at path' g x with Ok x' => Ok (JDict (dset n x' d)) | Err e => Err e end
            | None => match change_at path' g (JDict []) with Ok _ => Ok j | Err e => Err e end
            end
        | Elem n i :: path' =>
            match dget n d with
            | None => Err KeyError
            | Some (JList l) =>
                match nth_error l i with
                | None => Err IndexError
                | Some x => match change_at path' g x with Ok x' => Ok (JDict (dset n (JList (set_nth i x' l)) d)) | Err e => Err e end
                end
            | Some _ => Err TypeError
            end
        end
    | _ => Err TypeError
    end.
End Handler.
Arguments hcall : clear implicits.

(** ** the objects *)
Section Store.
  Context {A V U M : Type}.
  Variable ustr : U -> json A.
  Variable class : nat -> classdef A V.
  Variable cls : nat -> nat.
  Variable uu : nat -> U.
  Variable m0 : M.                                         (* the time of modification, which is not written (562-580) *)
  Record heap := Heap {
    h_props : nat -> string -> pv (V := V);                (* 372, by name *)
    h_items : nat -> string -> option nat;                 (* 373, by name *)
    h_rels : nat -> string -> list nat;                    (* 374, by name *)
    h_parent : nat -> option (nat * place);                (* 382 *)
    h_ctx : nat -> bool;                                   (* 376: whether it is in the context *)
    h_store : nat -> option (dict A)                       (* 175: the handler set for the object, and the dict it keeps *)
  }.
  Definition upd {X} (f : nat -> X) (r : nat) (x : X) : nat -> X := fun r' => if Nat.eqb r' r then x else f r'.
  Definition upd_name {X} (f : string -> X) (n : string) (x : X) : string -> X := fun n' => if String.eqb n' n then x else f n'.
  Definition put_prop r n v h := Heap (upd (h_props h) r (upd_name (h_props h r) n v)) (h_items h) (h_rels h) (h_parent h) (h_ctx h) (h_store h).
  Definition put_item r n x h := Heap (h_props h) (upd (h_items h) r (upd_name (h_items h r) n x)) (h_rels h) (h_parent h) (h_ctx h) (h_store h).
  Definition put_rel r n l h := Heap (h_props h) (h_items h) (upd (h_rels h) r (upd_name (h_rels h r) n l)) (h_parent h) (h_ctx h) (h_store h).
  Definition put_parent r p h := Heap (h_props h) (h_items h) (h_rels h) (upd (h_parent h) r p) (h_ctx h) (h_store h).
  Definition put_ctx r b h := Heap (h_props h) (h_items h) (h_rels h) (h_parent h) (upd (h_ctx h) r b) (h_store h).
  Definition put_store r d h := Heap (h_props h) (h_items h) (h_rels h) (h_parent h) (h_ctx h) (upd (h_store h) r d).

  (** the definitions by name: 372-374 are dicts *)
  Definition prop_def (r : nat) (n : string) : option (propdef A V) := find (fun p => String.eqb (p_name p) n) (k_props (class (cls r))).
  Definition item_def (r : nat) (n : string) : option (itemdef A) := find (fun i => String.eqb (i_name i) n) (k_items (class (cls r))).
  Definition rel_def (r : nat) (n : string) : option (reldef A) := find (fun d => String.eqb (r_name d) n) (k_rels (class (cls r))).

  (** the object and all that is below it, as a tree; see [write] for 562-580 on trees *)
  Fixpoint unload (fuel : nat) (h : heap) (r : nat) : res (obj V U M) :=
    match fuel with
    | O => Err RecursionError
    | S f =>
        let k := class (cls r) in
        match all_ok (map (fun i => match h_items h r (i_name i) with
                                    | Some x => match unload f h x with Ok o => Ok (Some o) | Err e => Err e end
                                    | None => Ok None
                                    end) (k_items k)) with
        | Err e => Err e
        | Ok is =>
            match all_ok (map (fun d => all_ok (map (unload f h) (h_rels h r (r_name d)))) (k_rels k)) with
            | Err e => Err e
            | Ok rs => Ok (Obj (cls r) (uu r) m0 (map (fun p => h_props h r (p_name p)) (k_props k)) is rs)
            end
        end
    end.
  (** 562-580 *)
  Definition write_to_dict (fuel : nat) (h : heap) (r : nat) : res (dict A) :=
    match unload fuel h r with Ok o => write ustr class o | Err e => Err e end.

  (** 416-422 *)
  Definition children (h : heap) (r : nat) : list nat :=
    flat_map (fun i => match h_items h r (i_name i) with Some x => [x] | None => [] end) (k_items (class (cls r)))
    ++ flat_map (fun d => h_rels h r (r_name d)) (k_rels (class (cls r))).
  Definition then_ (o : res heap) (f : heap -> res heap) : res heap := match o with Ok h => f h | Err e => Err e end.
  (** 410-427 *)
  Fixpoint set_context (fuel : nat) (b : bool) (r : nat) (h : heap) : res heap :=
    match fuel with
    | O => Err RecursionError
    | S f => if h_ctx h r && b then Err AssertionError
             else fold_left (fun o x => then_ o (set_context f b x)) (children h r) (Ok (put_ctx r b h))
    end.

  (** 239-247: the object whose handler is the one for [r] *)
  Fixpoint storage_of (fuel : nat) (h : heap) (r : nat) : res (option nat) :=
    match fuel with
    | O => Err RecursionError
    | S f =>
        match h_store h r with
        | Some _ => Ok (Some r)
        | None => match h_parent h r with Some (p, _) => storage_of f h p | None => Ok None end
        end
    end.
  (** list.index *)
  Fixpoint index_of (x : nat) (l : list nat) : option nat :=
    match l with [] => None | y :: l' => if Nat.eqb y x then Some 0 else option_map S (index_of x l') end.
  (** 429-437; for an empty name there is no accessor, and None cannot be called *)
  Definition accessor (h : heap) (r : nat) : res access :=
    match h_parent h r with
    | None => Err AssertionError
    | Some (p, AtItem n) => if String.eqb n "" then Err TypeError else Ok (Item n)
    | Some (p, InRel n) =>
        if String.eqb n "" then Err TypeError
        else match index_of r (h_rels h p n) with Some i => Ok (Elem n i) | None => Err ValueError end
    end.
  (** the accessors from [s], whose handler it is, down to [r] *)
  Fixpoint path_to (fuel : nat) (h : heap) (s r : nat) : res (list access) :=
    match fuel with
    | O => Err RecursionError
    | S f =>
        if Nat.eqb r s then Ok []
        else match h_parent h r with
             | None => Err AssertionError
             | Some (p, _) =>
                 match path_to f h s p with
                 | Err e => Err e
                 | Ok path => match accessor h r with Ok a => Ok (path ++ [a]) | Err e => Err e end
                 end
             end
    end.
  (** 255-280: the handler is found and called *)
  Definition tell (fuel : nat) (r : nat) (c : hcall A) (h : heap) : res heap :=
    match storage_of fuel h r with
    | Err e => Err e
    | Ok None => Err AttributeError                        (* None has no such method *)
    | Ok (Some s) =>
        match path_to fuel h s r, h_store h s with
        | Err e, _ => Err e
        | _, None => Err AttributeError
        | Ok path, Some d =>
            match change_at path (handle c) (JDict d) with
            | Ok (JDict d') => Ok (put_store s (Some d') h)
            | Ok _ => Err TypeError
            | Err e => Err e
            end
        end
    end.
  Definition told (fuel : nat) (r : nat) (c : hcall A) (h : heap) : res heap := if h_ctx h r then tell fuel r c h else Ok h.

  (** 616-621 or 655-657, with 582-597 *)
  Definition set_property (fuel : nat) (r : nat) (n : string) (v : pv) (h : heap) : res heap :=
    match prop_def r n with
    | None => Err KeyError
    | Some p =>
        let v' := set_value p v in
        let h1 := put_prop r n v' h in
        match write_prop [] (p, v') with
        | [] => told fuel r (ClearProp n) h1
        | d => fold_left (fun o x => then_ o (told fuel r (SetProp (fst x) (snd x)))) d (Ok h1)
        end
    end.
  (** 679-692 *)
  Definition set_item (fuel : nat) (r : nat) (n : string) (x : option nat) (h : heap) : res heap :=
    match item_def r n with
    | None => Err KeyError
    | Some _ =>
        let h1 := put_item r n x h in
        match x with
        | None => told fuel r (SetItemIn n None) h1
        | Some x =>
            let h2 := put_parent x (Some (r, AtItem n)) h1 in
            if h_ctx h2 r then
              match write_to_dict fuel h2 x with
              | Err e => Err e
              | Ok d => then_ (tell fuel r (SetItemIn n (Some d)) h2) (set_context fuel true x)
              end
            else Ok h2
        end
    end.
  (** 703-714 *)
  Definition insert_item (fuel : nat) (r : nat) (n : string) (i : Z) (x : nat) (h : heap) : res heap :=
    match rel_def r n with
    | None => Err KeyError
    | Some _ =>
        let h1 := put_parent x (Some (r, InRel n)) (put_rel r n (py_insert i x (h_rels h r n)) h) in
        if h_ctx h1 r then
          match write_to_dict fuel h1 x with
          | Err e => Err e
          | Ok d => then_ (tell fuel r (InsertIn n i d) h1) (set_context fuel true x)
          end
        else Ok h1
    end.
  (** 720-731; list.remove removes the item at the index that list.index finds *)
  Definition remove_item (fuel : nat) (r : nat) (n : string) (x : nat) (h : heap) : res heap :=
    match rel_def r n with
    | None => Err KeyError
    | Some _ =>
        match index_of x (h_rels h r n) with
        | None => Err ValueError
        | Some i =>
            then_ (set_context fuel false x (put_rel r n (delete_at i (h_rels h r n)) h)) (fun h1 =>
            then_ (if h_ctx h1 r then then_ (tell fuel r (RemoveAt n i) h1) (set_context fuel false x) else Ok h1) (fun h2 =>
            Ok (put_parent x None h2)))
        end
    end.
  (** what is done with a new document: its handler is set, keeping what the object writes (228-234), and then it is put in
      the context (411-427) *)
  Definition open (fuel : nat) (s : nat) (h : heap) : res heap :=
    match write_to_dict fuel h s with
    | Err e => Err e
    | Ok d => set_context fuel true s (put_store s (Some d) h)
    end.

  Inductive op :=
    | SetProperty (r : nat) (n : string) (v : pv (V := V))
    | SetItem (r : nat) (n : string) (x : option nat)
    | InsertItem (r : nat) (n : string) (i : Z) (x : nat)
    | RemoveItem (r : nat) (n : string) (x : nat)
    | Open (s : nat).
  Definition step (fuel : nat) (o : op) (h : heap) : res heap :=
    match o with
    | SetProperty r n v => set_property fuel r n v h
    | SetItem r n x => set_item fuel r n x h
    | InsertItem r n i x => insert_item fuel r n i x h
    | RemoveItem r n x => remove_item fuel r n x h
    | Open s => open fuel s h
    end.
  (** new objects, 370-382, with the values their properties are defined with (32) *)
  Definition heap_make : heap :=
    Heap (fun r n => match prop_def r n with Some p => p_default p | None => None end) (fun _ _ => None) (fun _ _ => [])
      (fun _ => None) (fun _ => false) (fun _ => None).
  (** an execution; [legit] is what the caller keeps to at each step *)
  Inductive runs (legit : heap -> op -> Prop) : heap -> Prop :=
    | runs_new : runs legit heap_make
    | runs_step fuel o h h' : runs legit h -> legit h o -> step fuel o h = Ok h' -> runs legit h'.
End Store.
Arguments heap : clear implicits.
Arguments op : clear implicits.
