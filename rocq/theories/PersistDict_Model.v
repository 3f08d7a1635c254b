(** Model of reading and writing PersistentObjects as dicts, of storing property changes and of deep copies,
    /repo/nion/utils/Persistence.py.
    An object is a value here: a tree of objects, each with its properties, items and relationships in the order of the
    definitions of its class.  Parents and contexts are in PersistHeap_Model.  Converters, readers, writers and validators
    do not raise; the callbacks changed, item_changed, insert and remove do nothing. *)
From Coq Require Import String ZArith Bool List.
From Verif Require Import PyBase.
Import ListNotations.

Section Persist.
  Context {A V U M : Type}.
  (** JSON-like values; [JAtom] is a string, number or boolean *)
  Inductive json := JNone | JAtom (a : A) | JList (l : list json) | JDict (d : list (string * json)).
  Definition dict : Type := list (string * json).
  Definition dget (k : string) (d : dict) : option json := dict_get string_dec k d.
  Definition dset (k : string) (j : json) (d : dict) : dict := dict_set string_dec k j d.
  Definition pop (k : string) (d : dict) : dict := dict_del string_dec k d.
  Variable truthy : A -> bool.
  Definition truth (j : json) : bool :=
    match j with JNone => false | JAtom a => truthy a | JList [] => false | JDict [] => false | _ => true end.
  (** str(uuid), uuid.UUID(text) and the parser of line 509; the uuid and the time that a new object gets (378, 381) *)
  Variable ustr : U -> json.
  Variable uparse : json -> res U.
  Variable mparse : json -> res M.
  Variable fresh : U.
  Variable now : M.

  (** a property value; None is Python's None *)
  Definition pv : Type := option V.
  (** 29-44: with a converter or without (the conversions are then the identity, copied), with make, or with reader and
      writer.  [validate] is the validator or the copy that set_value makes (46-50). *)
  Inductive kind :=
    | Plain (get : pv -> json) (set : json -> pv)
    | Make (wr : V -> json) (rd : json -> V)
    | Custom (writer : pv -> dict -> dict) (reader : dict -> pv).
  Record propdef := PropDef { p_name : string; p_key : string; p_default : pv; p_kind : kind; p_validate : pv -> pv }.
  (** 111-135: name, hidden, factory; name, storage key, factory.  A factory makes an object of some class from the dict
      that is being read, or None.  Classes are numbered. *)
  Record itemdef := ItemDef { i_name : string; i_hidden : bool; i_factory : dict -> option nat }.
  Record reldef := RelDef { r_name : string; r_key : string; r_factory : dict -> option nat }.
  Record classdef := ClassDef { k_type : option json; k_props : list propdef; k_items : list itemdef; k_rels : list reldef }.
  Variable class : nat -> classdef.

  Inductive obj := Obj (cls : nat) (uuid : U) (modified : M) (props : list pv) (items : list (option obj)) (rels : list (list obj)).
  Definition o_cls (o : obj) : nat := match o with Obj c _ _ _ _ _ => c end.
  Definition o_uuid (o : obj) : U := match o with Obj _ u _ _ _ _ => u end.
  Definition o_props (o : obj) : list pv := match o with Obj _ _ _ p _ _ => p end.

  (** 77-93 *)
  Definition write_prop (d : dict) (x : propdef * pv) : dict :=
    let (p, v) := x in
    match p_kind p with
    | Custom writer _ => writer v d
    | Make wr _ => match v with Some y => dset (p_key p) (wr y) d | None => pop (p_key p) d end
    | Plain get _ => match get v with JNone => pop (p_key p) d | j => dset (p_key p) j d end
    end.
  (** 46-51 *)
  Definition set_value (p : propdef) (v : pv) : pv := p_validate p v.
  (** 63-75; the value that the property has before is [old] *)
  Definition read_prop (d : dict) (p : propdef) (old : pv) : pv :=
    match p_kind p with
    | Custom _ reader => match reader d with Some v => set_value p (Some v) | None => old end
    | Make _ rd => match dget (p_key p) d with Some j => set_value p (Some (rd j)) | None => old end
    | Plain _ set => match dget (p_key p) d with Some j => set_value p (set j) | None => old end
    end.

  (** 571-574, the items already written *)
  Fixpoint write_items (l : list (itemdef * option (res dict))) (d : dict) : res dict :=
    match l with
    | [] => Ok d
    | (_, None) :: l' => write_items l' d
    | (i, Some (Ok j)) :: l' => write_items l' (dset (i_name i) (JDict j) d)
    | (_, Some (Err e)) :: _ => Err e
    end.
  Fixpoint all_ok {X} (l : list (res X)) : res (list X) :=
    match l with
    | [] => Ok []
    | Ok x :: l' => match all_ok l' with Ok xs => Ok (x :: xs) | Err e => Err e end
    | Err e :: _ => Err e
    end.
  (** 575-579: setdefault, then append; what is there and is no list has no append *)
  Fixpoint write_rels (l : list (reldef * list (res dict))) (d : dict) : res dict :=
    match l with
    | [] => Ok d
    | (r, ws) :: l' =>
        match all_ok ws with
        | Err e => Err e
        | Ok js =>
            match dget (r_key r) d with
            | None => write_rels l' (dset (r_key r) (JList (map JDict js)) d)
            | Some (JList old) => write_rels l' (dset (r_key r) (JList (old ++ map JDict js)) d)
            | Some _ => match js with [] => write_rels l' d | _ => Err AttributeError end
            end
        end
    end.
  (** 562-580 *)
  Fixpoint write (o : obj) : res dict :=
    match o with
    | Obj c u _ ps is rs =>
        let k := class c in
        let d0 := dset "uuid" (ustr u) (match k_type k with Some t => dset "type" t [] | None => [] end) in
        let d1 := fold_left write_prop (combine (k_props k) ps) d0 in
        match write_items (combine (k_items k) (map (fun i => match i with Some x => Some (write x) | None => None end) is)) d1 with
        | Err e => Err e
        | Ok d2 => write_rels (combine (k_rels k) (map (fun l => map write l) rs)) d2
        end
    end.

  (** what is needed of a value to read it: itself, and how it is read as an object of a class *)
  Definition reader : Type := json * (nat -> res obj).
  Definition read_with (factory : dict -> option nat) (r : reader) : res obj :=
    match fst r with
    | JDict d => match factory d with Some c => snd r c | None => Err AssertionError end
    | _ => Err TypeError                     (* 523, 541: outside the model *)
    end.
  (** 514-531 *)
  Fixpoint read_items (l : list itemdef) (sub : list (string * reader)) : res (list (option obj)) :=
    match l with
    | [] => Ok []
    | i :: l' =>
        let here := match dict_get string_dec (i_name i) sub with
                    | Some r => if truth (fst r) then match read_with (i_factory i) r with Ok o => Ok (Some o) | Err e => Err e end else Ok None
                    | None => Ok None
                    end in
        match here with
        | Err e => Err e
        | Ok x => match read_items l' sub with Ok xs => Ok (x :: xs) | Err e => Err e end
        end
    end.
  (** 532-550; iterating over what is no list is outside the model *)
  Fixpoint read_rels (l : list reldef) (sub : list (string * option (list reader))) : res (list (list obj)) :=
    match l with
    | [] => Ok []
    | r :: l' =>
        let here := match dict_get string_dec (r_key r) sub with
                    | Some (Some rs) => all_ok (map (read_with (r_factory r)) rs)
                    | Some None => Err TypeError
                    | None => Ok []
                    end in
        match here with
        | Err e => Err e
        | Ok x => match read_rels l' sub with Ok xs => Ok (x :: xs) | Err e => Err e end
        end
    end.
  (** 501-550 for a new object of class [c] *)
  Fixpoint read (j : json) (c : nat) : res obj :=
    match j with
    | JDict d =>
        let k := class c in
        match (match dget "uuid" d with Some x => uparse x | None => Ok fresh end) with
        | Err e => Err e
        | Ok u =>
            match (match dget "modified" d with Some x => mparse x | None => Ok now end) with
            | Err e => Err e
            | Ok m =>
                let ps := map (fun p => read_prop d p (p_default p)) (k_props k) in
                match read_items (k_items k) (map (fun x => (fst x, (snd x, read (snd x)))) d) with
                | Err e => Err e
                | Ok is =>
                    match read_rels (k_rels k) (map (fun x => (fst x, match snd x with JList l => Some (map (fun y => (y, read y)) l) | _ => None end)) d) with
                    | Err e => Err e
                    | Ok rs => Ok (Obj c u m ps is rs)
                    end
                end
            end
        end
    | _ => Err TypeError
    end.

  (** 384-399: a new object gets copies; getattr of a hidden item raises (638-642).  [renew u] is the uuid of the new
      object that the object with uuid [u] is copied to. *)
  Variable renew : U -> U.
  Fixpoint deepcopy (o : obj) : res obj :=
    match o with
    | Obj c u _ ps is rs =>
        let k := class c in
        if existsb i_hidden (k_items k) then Err AttributeError
        else match all_ok (map (fun i => match i with Some x => match deepcopy x with Ok y => Ok (Some y) | Err e => Err e end | None => Ok None end) is) with
             | Err e => Err e
             | Ok is' =>
                 match all_ok (map (fun l => all_ok (map deepcopy l)) rs) with
                 | Err e => Err e
                 | Ok rs' => Ok (Obj c (renew u) now (map (fun x => set_value (fst x) (snd x)) (combine (k_props k) ps)) is' rs')
                 end
             end
    end.

  (** ** storing property changes.  The handler keeps a dict: set_property assigns, clear_property deletes if present. *)
  Record stored := Stored { st_props : list pv; st_dict : dict }.
  Definition set_nth {X} (n : nat) (x : X) (l : list X) : list X :=
    match nth_error l n with Some _ => firstn n l ++ x :: skipn (S n) l | None => l end.
  (** 616-621 or 655-657, with 582-597, for the [n]-th property of the class, with a context *)
  Definition set_prop (k : classdef) (n : nat) (v : pv) (s : stored) : stored :=
    match nth_error (k_props k) n with
    | None => s
    | Some p =>
        let v' := set_value p v in
        let d := write_prop [] (p, v') in
        Stored (set_nth n v' (st_props s))
          (match d with
           | [] => pop (p_name p) (st_dict s)
           | _ => fold_left (fun st x => dset (fst x) (snd x) st) d (st_dict s)
           end)
    end.
  Definition set_props (k : classdef) (l : list (nat * pv)) (s : stored) : stored := fold_left (fun s x => set_prop k (fst x) (snd x) s) l s.
End Persist.
Arguments json : clear implicits.
Arguments dict : clear implicits.
Arguments kind : clear implicits.
Arguments propdef : clear implicits.
Arguments itemdef : clear implicits.
Arguments reldef : clear implicits.
Arguments classdef : clear implicits.
Arguments obj : clear implicits.
Arguments stored : clear implicits.
