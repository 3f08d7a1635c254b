(** What reading into objects in use is to do to the objects and to the registrations. *)
From Coq Require Import ZArith Bool List.
From Verif Require Import PyBase PersistRead_Model.
Import ListNotations.

Definition o_id (o : obj) := match o with Obj i _ _ _ _ _ => i end.
Definition o_uuid (o : obj) := match o with Obj _ u _ _ _ _ => u end.
Definition o_ctx (o : obj) := match o with Obj _ _ c _ _ _ => c end.
Definition o_reading (o : obj) := match o with Obj _ _ _ r _ _ => r end.
Definition o_items (o : obj) := match o with Obj _ _ _ _ is _ => is end.
Definition o_rels (o : obj) := match o with Obj _ _ _ _ _ rs => rs end.
Definition d_uuid (d : data) := match d with Data u _ _ => u end.
Definition d_items (d : data) := match d with Data _ is _ => is end.
Definition d_rels (d : data) := match d with Data _ _ rs => rs end.

Definition somes {X} (l : list (option X)) : list X := flat_map (fun x => match x with Some x => [x] | None => [] end) l.
(** the object and all objects below it, those below first *)
Fixpoint objects (o : obj) : list obj :=
  match o with
  | Obj i u c r is rs =>
      flat_map (fun x => match x with Some x => objects x | None => [] end) is ++ flat_map (flat_map objects) rs ++ [o]
  end.
Definition uuids (o : obj) : list nat := map o_uuid (objects o).
(** [l] are uuids with objects, registered one after the other: the last one counts *)
Fixpoint registered (l : list (nat * nat)) (f : nat -> option nat) : nat -> option nat :=
  match l with [] => f | (u, x) :: l' => registered l' (fun v => if Nat.eqb v u then Some x else f v) end.
Definition entries (l : list obj) : list (nat * nat) := map (fun o => (o_uuid o, o_id o)) l.

(** every object of the tree is in the context *)
Definition within (c : option nat) (o : obj) : Prop := Forall (fun x => o_ctx x = c) (objects o).

(** the lists are equally long and [P] holds of the elements pairwise *)
Definition all2 {X Y} (P : X -> Y -> Prop) : list X -> list Y -> Prop :=
  fix go l l' := match l, l' with [], [] => True | x :: l, y :: l' => P x y /\ go l l' | _, _ => False end.
Section Made.
  Variable new_uuid : nat -> nat.
  Variable c : option nat.
  (** the object is in the context, is being read, and has what the dict says, all the way down *)
  Fixpoint made (d : data) (o : obj) : Prop :=
    match d, o with
    | Data du dis drs, Obj i u k r is rs =>
        u = (match du with Some x => x | None => new_uuid i end) /\ k = c /\ r = true /\
        all2 (fun d x => match d, x with Some d, Some x => made d x | None, None => True | _, _ => False end) dis is /\
        all2 (all2 made) drs rs
    end.
End Made.

(** the items after reading: where the dict has one, the new one, else the old one; [new] and [old] are the new items and
    those that they replaced *)
Inductive items_read : list (option data) -> list (option obj) -> list (option obj) -> list (data * obj) -> list obj -> Prop :=
| ir_nil is : items_read [] is is [] []
| ir_none ds : items_read ds [] [] [] []
| ir_skip ds x is is' new old : items_read ds is is' new old -> items_read (None :: ds) (x :: is) (x :: is') new old
| ir_put d ds x y is is' new old : items_read ds is is' new old ->
    items_read (Some d :: ds) (x :: is) (Some y :: is') ((d, y) :: new) ((match x with Some o => [o] | None => [] end) ++ old).
(** the relationships after reading: the old objects, then the new ones *)
Inductive rels_read : list (list data) -> list (list obj) -> list (list obj) -> list (data * obj) -> Prop :=
| rr_nil rs : rels_read [] rs rs []
| rr_none ds : rels_read ds [] [] []
| rr_add d ds l rs rs' ys new : length ys = length d -> rels_read ds rs rs' new ->
    rels_read (d :: ds) (l :: rs) ((l ++ ys) :: rs') (combine d ys ++ new).

Section Orderly.
  Variable new_uuid : nat -> nat.
  (** the object is put into a context only when it is in none, and the uuids in the tree are different after every operation *)
  Fixpoint orderly (l : list op) (s : obj * world) : Prop :=
    match l with
    | [] => True
    | o :: l' =>
        (match o with SetContext (Some _) => o_ctx (fst s) = None | _ => True end) /\
        NoDup (uuids (fst (fst (step new_uuid s o)))) /\ orderly l' (fst (step new_uuid s o))
    end.
End Orderly.
