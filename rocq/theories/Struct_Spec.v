(** Schemas and values for which structured models should be faithful. *)
From Coq Require Import String ZArith Bool List.
From Verif Require Import PyBase Struct_Model.
Import ListNotations.

Section Spec.
  Context {A : Type}.
  Notation pyval := (pyval A). Notation schema := (schema A).
  Definition field_name (f : string * schema * pyval) : string := fst (fst f).
  (** primitive fields, records and arrays of records (or of such arrays), to any depth; no defaults; distinct names *)
  Fixpoint good (s : schema) : Prop :=
    match s with
    | SPrim => True
    | SBad => False
    | SRecord fields =>
        NoDup (map field_name fields) /\
        (fix all (fs : list (string * schema * pyval)) : Prop :=
           match fs with [] => True | (_, t, d) :: fs' => (d = VNone /\ good t) /\ all fs' end) fields
    | SArray it => it <> SPrim /\ good it
    end.
  (** a value of a schema: primitives are not None; records have only the schema's keys and at least those of record and
      array fields - and of primitive fields if [full]; arrays have conforming items *)
  Fixpoint conforms (full : bool) (s : schema) (v : pyval) : Prop :=
    match s with
    | SPrim => v <> VNone
    | SBad => False
    | SRecord fields =>
        exists d, v = VDict d /\ NoDup (map fst d) /\ (forall k, In k (map fst d) -> In k (map field_name fields)) /\
        (fix all (fs : list (string * schema * pyval)) : Prop :=
           match fs with
           | [] => True
           | (n, t, _) :: fs' =>
               match dict_get string_dec n d with Some x => conforms full t x | None => full = false /\ t = SPrim end /\ all fs'
           end) fields
    | SArray it => exists l, v = VList l /\ (fix all (l : list pyval) : Prop := match l with [] => True | x :: l' => conforms full it x /\ all l' end) l
    end.
  (** Python equality: dicts are compared without regard to order *)
  Inductive pyeq : pyval -> pyval -> Prop :=
    | pyeq_refl v : pyeq v v
    | pyeq_list l1 l2 : Forall2 pyeq l1 l2 -> pyeq (VList l1) (VList l2)
    | pyeq_dict d1 d2 :
        (forall k v1, dict_get string_dec k d1 = Some v1 -> exists v2, dict_get string_dec k d2 = Some v2 /\ pyeq v1 v2) ->
        (forall k, dict_get string_dec k d1 = None -> dict_get string_dec k d2 = None) ->
        pyeq (VDict d1) (VDict d2).
  (** models of a schema, with any current values *)
  Fixpoint typed (s : schema) (m : model A) : Prop :=
    match s with
    | SPrim => exists v, m = MField v
    | SBad => False
    | SRecord fields =>
        exists ms, m = MRecord fields ms /\ map fst ms = map field_name fields /\
        (fix all (fs : list (string * schema * pyval)) : Prop :=
           match fs with
           | [] => True
           | (n, t, _) :: fs' => match dict_get string_dec n ms with Some x => typed t x | None => False end /\ all fs'
           end) fields
    | SArray it => exists l, m = MArray it l /\ (fix all (l : list (model A)) : Prop := match l with [] => True | x :: l' => typed it x /\ all l' end) l
    end.
  (** a type that cannot be built occurs as a field, possibly of records inside records *)
  Inductive has_bad : schema -> Prop :=
    | bad_here : has_bad SBad
    | bad_field fields n t d : In (n, t, d) fields -> has_bad t -> has_bad (SRecord fields).
End Spec.

(** histories of an array that insert at the end only, or insert without ever removing *)
Fixpoint appends_only (n : nat) (l : list top) : Prop :=
  match l with
  | [] => True
  | TInsert i _ :: l' => i = Z.of_nat n /\ appends_only (S n) l'
  | TRemove i :: l' => match py_index n i with Some _ => appends_only (n - 1) l' | None => appends_only n l' end
  | TLoad _ _ :: _ => False
  end.
Definition insert_op (o : top) : Prop := match o with TInsert _ _ => True | _ => False end.
