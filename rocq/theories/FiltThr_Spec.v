(** What is said about a filtered list used by threads: which items a list must have, which calls are still about to
    put an item right, and which calls must be kept apart. *)
From Coq Require Import List ZArith Bool Arith Permutation.
From Verif Require Import PyBase Filtered_Model FiltThr_Model.
Import ListNotations.

Section FiltThrSpec.
  Context {A C : Type}.
  Notation tst := (tst A C).
  Notation tact := (tact A C).
  Notation tpc := (tpc A C).

  Definition master (s : tst) : list A := h_master (t_sh s).
  Definition items (s : tst) : list A := h_items (t_sh s).
  (** the current filter passes the current content of the item *)
  Definition wanted (s : tst) (x : A) : bool := h_filter (t_sh s) (h_content (t_sh s) x).
  (** the items are the master items that are wanted, in that order *)
  Definition exact (s : tst) : Prop := items s = filter (wanted s) (master s).
  (** the item is listed just if it should be *)
  Definition right (s : tst) (x : A) : Prop := In x (items s) <-> In x (master s) /\ wanted s x = true.

  Definition over (s : tst) : Prop := forall p, In p (t_calls s) -> p = TDone.

  (** an assignment to the filter has been made, or the mutex is waited for to update, and the items have not been
      changed yet *)
  Definition updating (p : tpc) : Prop := match p with TSetFlag | TUpd | TBuild _ _ | TApply _ => True | _ => False end.
  (** an insertion of [x] or a change of its content is being handled *)
  Definition handling (p : tpc) (x : A) : Prop :=
    match p with TTell y | TCheck y | TMatch y | TPlace y => y = x | _ => False end.
  (** the same for calls that wait for the mutex *)
  Definition awaiting (p : tpc) (x : A) : Prop := match p with TSetFlag | TUpd => True | TTell y => y = x | _ => False end.

  (** sets are visited in some order *)
  Definition visits (a : tact) : Prop := match a with TGo _ ord => forall l, Permutation (ord l) l | TCall _ => True end.

  (** a call already made goes on *)
  Definition goes (a : tact) : Prop := match a with TGo _ _ => True | TCall _ => False end.

  Variable A_dec : forall a b : A, {a = b} + {a <> b}.
  (** [P] holds in all states of the execution *)
  Fixpoint throughout (P : tst -> Prop) (s : tst) (acts : list tact) : Prop :=
    P s /\ match acts with [] => True | a :: acts' => throughout P (t_step A_dec s a) acts' end.

  (** while the place of an item is looked for, no other change of content waits to be handled *)
  Definition edits_apart (s : tst) : Prop :=
    forall x y, In (TPlace x) (t_calls s) -> In (TTell y) (t_calls s) -> y = x.
  (** while the place of an item is looked for, no update is to come *)
  Definition updates_apart (s : tst) : Prop :=
    forall x, In (TPlace x) (t_calls s) -> ~ In TSetFlag (t_calls s) /\ ~ In TUpd (t_calls s).
  (** the filter is not assigned while another thread is inside __update_items *)
  Definition filters_apart (s : tst) : Prop :=
    In TSetFlag (t_calls s) ->
    forall p, In p (t_calls s) -> match p with TBuild _ _ | TApply _ | TFlag => False | _ => True end.
End FiltThrSpec.
