(** What is said about a filtered list with change blocks used by threads. *)
From Coq Require Import List ZArith Bool Arith Permutation.
From Verif Require Import PyBase Filtered_Model FiltBlk_Model.
Import ListNotations.

Section FiltBlkSpec.
  Context {A C K : Type}.
  Notation bst := (bst A C K).
  Notation bact := (bact A C K).
  Notation bpc := (bpc A C K).

  Definition master (s : bst) : list A := b_master (b_sh s).
  Definition items (s : bst) : list A := b_items (b_sh s).
  Definition level (s : bst) : Z := b_level (b_sh s).
  (** the current filter passes the current content of the item *)
  Definition wanted (s : bst) (x : A) : bool := b_filter (b_sh s) (b_content (b_sh s) x).
  (** the item is listed just if it should be *)
  Definition right (s : bst) (x : A) : Prop := In x (items s) <-> In x (master s) /\ wanted s x = true.

  (** all calls have ended, and so have all blocks *)
  Definition over (s : bst) : Prop := forall p, In p (b_calls s) -> p = BDone.

  (** a block that has begun and whose end_change has not lowered the level *)
  Definition in_block (p : bpc) : bool := match p with BOpen | BEnd | BEndW _ => true | _ => false end.
  Definition blocks (s : bst) : Z := Z.of_nat (length (filter in_block (b_calls s))).

  (** an assignment or the end of a block is to update the list, and has not changed the items yet *)
  Definition updating (p : bpc) : Prop :=
    match p with BSetFlag | BUpd | BEndC | BEndU | BBuild _ _ | BApply _ => True | _ => False end.
  (** an insertion of [x] or a change of its content is being handled *)
  Definition handling (p : bpc) (x : A) : Prop :=
    match p with BTell y | BCheck y | BDrop y _ | BAgain y | BMatch y | BPlace y => y = x | _ => False end.
  (** the same for calls that wait for the mutex *)
  Definition awaiting (p : bpc) (x : A) : Prop := match p with BSetFlag | BUpd => True | BTell y => y = x | _ => False end.

  (** sets are visited in some order *)
  Definition visits (a : bact) : Prop := match a with BGo _ ord => forall l, Permutation (ord l) l | BCall _ => True end.
  (** a call already made goes on *)
  Definition goes (a : bact) : Prop := match a with BGo _ _ => True | BCall _ => False end.
  (** call [t] makes no step *)
  Definition leaves (t : nat) (a : bact) : Prop := match a with BGo u _ => u <> t | BCall _ => True end.

  (** a call between reading the level and writing it *)
  Definition counting (p : bpc) : bool := match p with BBeginW _ | BEndW _ => true | _ => false end.
  (** no two calls are there at once: changing the level is not interrupted by another change of it *)
  Definition counts_apart (s : bst) : Prop :=
    forall t u p q, nth_error (b_calls s) t = Some p -> nth_error (b_calls s) u = Some q ->
    counting p = true -> counting q = true -> t = u.

  Variable A_dec : forall a b : A, {a = b} + {a <> b}.
  Variable lt : K -> K -> bool.
  (** [P] holds in all states of the execution *)
  Fixpoint throughout (P : bst -> Prop) (s : bst) (acts : list bact) : Prop :=
    P s /\ match acts with [] => True | a :: acts' => throughout P (b_step A_dec lt s a) acts' end.
End FiltBlkSpec.
