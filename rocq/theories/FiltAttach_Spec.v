(** What is expected of attaching and detaching a container that may be edited meanwhile.  Nothing
    here refers to how the filtered list handles the items; only the places of the setter and the
    acts of the schedule are used. *)
From Coq Require Import ZArith Bool List.
From Verif Require Import PyBase FiltAttach_Model.
Import ListNotations.
Open Scope nat_scope.

Section Spec.
  Variable A : Type.

  (** Places where an insertion into the container does no harm. *)
  Definition ins_ok (p : place A) : Prop :=
    match p with Off | On | Drop _ => True | _ => False end.

  (** Places where removing index [i] does no harm: in the loop, only what was not read yet. *)
  Definition rem_ok (i : nat) (p : place A) : Prop :=
    match p with
    | Off | On | Half | Drop _ => True
    | Loop k => k <= i
    | Put k _ => k < i
    | _ => False
    end.

  (** A gentle act: an edit is notified before the setter moves on, new items are new, and the
      setter is at a place where the edit does no harm. *)
  Definition gentle (s : st A) (a : act A) : Prop :=
    match a with
    | EIns i x => told s = None /\ i <= length (cont s) /\ ~ In x (cont s) /\ ins_ok (at_ s)
    | ERem i => told s = None /\ i < length (cont s) /\ rem_ok i (at_ s)
    | Tell => True
    | Attach | Detach | Go => told s = None
    end.

  Fixpoint gentle_all (stp : st A -> act A -> st A) (s : st A) (l : list (act A)) : Prop :=
    match l with
    | [] => True
    | a :: l' => gentle s a /\ gentle_all stp (stp s a) l'
    end.

  (** The filtered list mirrors the container when attached and is empty when not. *)
  Definition mirrors (s : st A) : Prop :=
    (at_ s = On -> master s = cont s) /\ (at_ s = Off -> master s = []) /\
    (forall x, In x (keys s) <-> In x (master s)).
End Spec.

Arguments ins_ok {A}. Arguments rem_ok {A}. Arguments gentle {A}. Arguments gentle_all {A}.
Arguments mirrors {A}.
