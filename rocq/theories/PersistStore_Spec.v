(** What it means that a stored dict is the dict that is written, and how the objects must be used. *)
From Coq Require Import String ZArith Bool List.
From Verif Require Import PyBase PersistDict_Model PersistDict_Spec PersistStore_Model.
Import ListNotations.

(** ** equal dicts *)
Section Same.
  Context {A : Type}.
  (** what stands at a place of a JSON-like value *)
  Inductive leaf := LNone | LAtom (a : A) | LList (length : nat) | LDict.
  (** the place is given by the keys and indexes that lead to it *)
  Fixpoint look (p : list (string + nat)) (j : json A) : option leaf :=
    match p with
    | [] => Some (match j with JNone => LNone | JAtom a => LAtom a | JList l => LList (length l) | JDict _ => LDict end)
    | inl k :: p' => match j with JDict d => match dget k d with Some x => look p' x | None => None end | _ => None end
    | inr i :: p' => match j with JList l => match nth_error l i with Some x => look p' x | None => None end | _ => None end
    end.
  (** the values are equal, up to the order of the keys in dicts *)
  Definition same (j j' : json A) : Prop := forall p, look p j = look p j'.
End Same.
Arguments leaf : clear implicits.

Section Use.
  Context {A V : Type}.
  Variable class : nat -> classdef A V.
  Variable cls : nat -> nat.
  Notation heap := (heap A V).

  (** the class stores everything under its name, and no property has a reader and writer of its own *)
  Definition plain (k : classdef A V) : Prop :=
    class_ok k /\ (forall p, In p (k_props k) -> p_key p = p_name p /\ ~ is_custom p) /\ (forall r, In r (k_rels k) -> r_key r = r_name r).

  (** [x] is at the place [pl] of [r] *)
  Definition held (h : heap) (r : nat) (pl : place) (x : nat) : Prop :=
    match pl with
    | AtItem n => In n (map i_name (k_items (class (cls r)))) /\ h_items h r n = Some x
    | InRel n => In n (map r_name (k_rels (class (cls r)))) /\ In x (h_rels h r n)
    end.
  (** [y] is [x] or below it *)
  Inductive below (h : heap) (x : nat) : nat -> Prop :=
    | below_refl : below h x x
    | below_held y pl z : below h x y -> held h y pl z -> below h x z.
  (** [x] is nowhere, and it is no document *)
  Definition free (h : heap) (x : nat) : Prop := (forall r pl, ~ held h r pl x) /\ h_store h x = None.
  (** if the object is in the context then it is in a document that is open; a replaced item and what is below it is not *)
  Definition usable (h : heap) (r : nat) : Prop := h_ctx h r = true -> exists s, h_store h s <> None /\ below h s r.
  (** 352-353: no object is added that is somewhere already *)
  Definition legit (h : heap) (o : op V) : Prop :=
    match o with
    | SetProperty r _ _ => usable h r
    | SetItem r _ x => usable h r /\ match x with Some x => free h x | None => True end
    | InsertItem r _ _ x => usable h r /\ free h x
    | RemoveItem r _ _ => usable h r
    | Open s => free h s
    end.
  (** and no object is put below itself *)
  Definition careful (h : heap) (o : op V) : Prop :=
    legit h o /\
    match o with
    | SetItem r _ (Some x) | InsertItem r _ _ x => ~ below h x r
    | _ => True
    end.
  (** the names exist and are not empty, an item that is removed is there, and nothing that is added is in the context *)
  Definition able (h : heap) (o : op V) : Prop :=
    (forall c n, In n (map i_name (k_items (class c)) ++ map r_name (k_rels (class c))) -> n <> ""%string) /\
    match o with
    | SetProperty r n _ => In n (map p_name (k_props (class (cls r))))
    | SetItem r n x =>
        In n (map i_name (k_items (class (cls r)))) /\
        match x with Some x => h_ctx h r = true -> forall y, below h x y -> h_ctx h y = false | None => True end
    | InsertItem r n _ x => In n (map r_name (k_rels (class (cls r)))) /\ (h_ctx h r = true -> forall y, below h x y -> h_ctx h y = false)
    | RemoveItem r n x => In n (map r_name (k_rels (class (cls r)))) /\ In x (h_rels h r n)
    | Open s => forall y, below h s y -> h_ctx h y = false
    end.
End Use.

(** the conversions, makers, parsers and factories do not depend on the order of keys *)
Definition order_free {A V U M} (class : nat -> classdef A V) (uparse : json A -> res U) (mparse : json A -> res M) : Prop :=
  (forall j j', same j j' -> uparse j = uparse j' /\ mparse j = mparse j') /\
  forall c,
    (forall p, In p (k_props (class c)) ->
       match p_kind p with
       | Plain _ set => forall j j', same j j' -> set j = set j'
       | Make _ rd => forall j j', same j j' -> rd j = rd j'
       | Custom _ reader => forall d d', same (JDict d) (JDict d') -> reader d = reader d'
       end) /\
    (forall i, In i (k_items (class c)) -> forall d d', same (JDict d) (JDict d') -> i_factory i d = i_factory i d') /\
    (forall r, In r (k_rels (class c)) -> forall d d', same (JDict d) (JDict d') -> r_factory r d = r_factory r d').
