(** Specification vocabulary for filtered lists in a row: what the client has set, computed from the history alone. *)
From Coq Require Import List ZArith Bool Arith Permutation.
From Verif Require Import PyBase Filtered_Model Filtered_Spec Chain_Model Chain_Spec Cascade_Model.
Import ListNotations.

Section CascadeSpec.
  Context {A C K : Type} (A_dec : forall a b : A, {a = b} + {a <> b}).
  Notation csop := (csop A C K).
  Notation settings := (settings C K).

  (** the source list, the contents of the items, the settings of each list, and whether it has the list before it
      as container *)
  Record kview := Kv { k_source : option (list A); k_content : A -> C; k_sets : nat -> settings; k_att : nat -> bool }.

  Definition set_at {T} (f : nat -> T) (j : nat) (y : T) : nat -> T := fun i => if Nat.eqb i j then y else f i.
  Definition put_source (v : kview) (l : option (list A)) : kview := Kv l (k_content v) (k_sets v) (k_att v).

  Definition lop_sets (o : lop A C K) (e : settings) : settings :=
    match o with
    | LFilter f => Se f (se_key e) (se_rev e) (se_blocks e)
    | LKey k => Se (se_filter e) k (se_rev e) (se_blocks e)
    | LRev b => Se (se_filter e) (se_key e) b (se_blocks e)
    | LBegin => Se (se_filter e) (se_key e) (se_rev e) (se_blocks e + 1)
    | LEnd _ => Se (se_filter e) (se_key e) (se_rev e) (se_blocks e - 1)
    end.

  Definition k_step (v : kview) (o : csop) : kview :=
    match o with
    | KInsert i x => put_source v (option_map (py_insert i x) (k_source v))
    | KRemove i => put_source v (option_map (fun l => match py_del l i with Ok l' => l' | Err _ => l end) (k_source v))
    | KSource l => put_source v l
    | KContent x c => Kv (k_source v) (fun y => if A_dec y x then c else k_content v y) (k_sets v) (k_att v)
    | KSet j o => Kv (k_source v) (k_content v) (set_at (k_sets v) j (lop_sets o (k_sets v j))) (k_att v)
    | KAttach j => Kv (k_source v) (k_content v) (k_sets v) (set_at (k_att v) (S j) true)
    | KDetach j => Kv (k_source v) (k_content v) (k_sets v) (set_at (k_att v) (S j) false)
    end.
  Definition k_run (v : kview) (h : list csop) : kview := fold_left k_step h v.
  Definition k_new (w : A -> C) : kview := Kv None w (fun _ => default_settings) (fun _ => false).

  Definition k_src (v : kview) : list A := match k_source v with Some l => l | None => [] end.
  Definition k_passes (v : kview) (j : nat) (x : A) : bool := se_filter (k_sets v j) (k_content v x).
  (** passes the filters of the lists 0 .. j *)
  Definition k_passes_to (v : kview) (j : nat) (x : A) : bool := forallb (fun i => k_passes v i x) (seq 0 (S j)).

  (** the source never holds an item twice; the order of a set iteration is a permutation *)
  Definition k_ok (v : kview) (o : csop) : Prop :=
    match o with
    | KInsert _ x => ~ In x (k_src v)
    | KSource (Some l) => NoDup l
    | KSet _ (LEnd ord) => forall l, Permutation (ord l) l
    | _ => True
    end.
  Fixpoint k_along (P : kview -> csop -> Prop) (v : kview) (h : list csop) : Prop :=
    match h with [] => True | o :: h' => P v o /\ k_along P (k_step v o) h' end.

  (** no change block is used on list j *)
  Definition k_blockless (j : nat) (o : csop) : Prop :=
    match o with KSet i LBegin | KSet i (LEnd _) => i <> j | _ => True end.
  (** content changes do not alter the sort key that list j gives the item *)
  Definition k_keeps_key (j : nat) (v : kview) (o : csop) : Prop :=
    match o with
    | KContent x c => forall k, se_key (k_sets v j) = Some k -> k c = k (k_content v x)
    | _ => True
    end.
End CascadeSpec.
Arguments kview : clear implicits.
