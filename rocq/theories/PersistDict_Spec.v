(** What the theorems about dicts of persistent objects mean. *)
From Coq Require Import String ZArith Bool List.
From Verif Require Import PyBase PersistDict_Model.
Import ListNotations.

Definition all1 {X} (P : X -> Prop) : list X -> Prop := fix go l := match l with [] => True | x :: l => P x /\ go l end.
(** the lists are equally long and [P] holds of the elements pairwise *)
Definition all2 {X Y} (P : X -> Y -> Prop) : list X -> list Y -> Prop :=
  fix go l l' := match l, l' with [], [] => True | x :: l, y :: l' => P x y /\ go l l' | _, _ => False end.
Definition all3 {X Y Z} (P : X -> Y -> Z -> Prop) : list X -> list Y -> list Z -> Prop :=
  fix go l l' l'' := match l, l', l'' with [], [], [] => True | x :: l, y :: l', z :: l'' => P x y z /\ go l l' l'' | _, _, _ => False end.

Section Spec.
  Context {A V U M : Type}.
  Variable class : nat -> classdef A V.

  (** what stands under the key of a property without a reader and writer *)
  Definition written (p : propdef A V) (v : option V) : option (json A) :=
    match p_kind p with
    | Plain get _ => match get v with JNone => None | j => Some j end
    | Make wr _ => option_map wr v
    | Custom _ _ => None
    end.
  Definition is_custom (p : propdef A V) : Prop := match p_kind p with Custom _ _ => True | _ => False end.
  (** nothing is written for the value *)
  Definition unwritten (p : propdef A V) (v : option V) : Prop :=
    match p_kind p with Plain get _ => get v = JNone | _ => v = None end.

  (** the storage keys of a class *)
  Definition storage_keys (k : classdef A V) : list string := map p_key (k_props k) ++ map i_name (k_items k) ++ map r_key (k_rels k).
  Definition class_ok (k : classdef A V) : Prop := NoDup ("type" :: "uuid" :: "modified" :: storage_keys k)%string.
  (** the conversions of a property are inverse to each other at the value it has, and the validator accepts it *)
  Definition prop_ok (p : propdef A V) (v : option V) : Prop :=
    p_validate p v = v /\
    match p_kind p with
    | Plain get set => get v <> JNone -> set (get v) = v
    | Make wr rd => forall x, v = Some x -> rd (wr x) = x
    | Custom writer reader =>
        exists j : option (json A),
          (forall d, writer v d = match j with Some j => dset (p_key p) j d | None => d end) /\
          (forall d, dget (p_key p) d = j -> reader d = v)
    end.
  (** the factory makes an object of the class of [x] from a dict with the type of that class *)
  Definition makes (factory : dict A -> option nat) (x : obj V U M) : Prop :=
    forall d, dget "type" d = k_type (class (o_cls x)) -> factory d = Some (o_cls x).
  (** an object as it can be with the definitions of its class, all the way down *)
  Fixpoint well (o : obj V U M) : Prop :=
    match o with
    | Obj c _ _ ps is rs =>
        class_ok (class c) /\
        all2 prop_ok (k_props (class c)) ps /\
        all2 (fun x i => match x with Some x => makes (i_factory i) x /\ well x | None => True end) is (k_items (class c)) /\
        all2 (fun l r => all1 (fun x => makes (r_factory r) x /\ well x) l) rs (k_rels (class c))
    end.
  (** [P] holds of all properties of the object and of the objects below it *)
  Fixpoint every (P : propdef A V -> option V -> Prop) (o : obj V U M) : Prop :=
    match o with
    | Obj c _ _ ps is rs =>
        all2 P (k_props (class c)) ps /\
        all1 (fun x => match x with Some x => every P x | None => True end) is /\ all1 (all1 (every P)) rs
    end.
  (** the two trees have the same shape and classes, uuids related by [Ru] and property values related by [R] *)
  Fixpoint like (Ru : U -> U -> Prop) (R : propdef A V -> option V -> option V -> Prop) (o o' : obj V U M) : Prop :=
    match o, o' with
    | Obj c u _ ps is rs, Obj c' u' _ ps' is' rs' =>
        c' = c /\ Ru u u' /\ all3 R (k_props (class c)) ps ps' /\
        all2 (fun x y => match x, y with Some x, Some y => like Ru R x y | None, None => True | _, _ => False end) is is' /\
        all2 (all2 (like Ru R)) rs rs'
    end.
  (** what comes back for a value: the value, or the default if nothing was written *)
  Definition comes_back (p : propdef A V) (v v' : option V) : Prop :=
    (unwritten p v /\ v' = p_default p) \/ (~ unwritten p v /\ v' = v).
  Definition same_value (p : propdef A V) (v v' : option V) : Prop := v' = v.
  Definition o_modified (o : obj V U M) : M := match o with Obj _ _ m _ _ _ => m end.
  (** the class of the object and those of all objects below it have no hidden items *)
  Fixpoint no_hidden (o : obj V U M) : Prop :=
    match o with
    | Obj c _ _ ps is rs =>
        (forall i, In i (k_items (class c)) -> i_hidden i = false) /\
        all1 (fun x => match x with Some x => no_hidden x | None => True end) is /\ all1 (all1 no_hidden) rs
    end.

  (** the last thing written for the [n]-th property, [p], in a history of property changes *)
  Fixpoint last_written (n : nat) (p : propdef A V) (l : list (nat * option V)) (j : option (json A)) : option (json A) :=
    match l with
    | [] => j
    | (m, v) :: l' =>
        last_written n p l' (if Nat.eqb m n then match written p (p_validate p v) with Some x => Some x | None => j end else j)
    end.
  (** the stored dict has what write_prop gives for every property *)
  Definition stores (k : classdef A V) (s : stored A V) : Prop :=
    length (st_props s) = length (k_props k) /\
    forall n p v, nth_error (k_props k) n = Some p -> nth_error (st_props s) n = Some v -> dget (p_key p) (st_dict s) = written p v.
End Spec.
