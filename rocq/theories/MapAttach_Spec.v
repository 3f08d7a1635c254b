(** What is expected of attaching and detaching a container of a mapped list that may be edited
    meanwhile.  Nothing here refers to how the mapped list handles the items; only the places of the
    setter, the acts of the schedule and what is seen of the list are used. *)
From Coq Require Import ZArith Bool List.
From Verif Require Import PyBase MapAttach_Model.
Import ListNotations.
Open Scope nat_scope.

Section Spec.
  Variable A : Type.

  (** The items of the container that the mapped list shows images of. *)
  Definition shown (s : st A) : list A := map snd (items s).

  (** Places where an insertion into the container does no harm. *)
  Definition ins_ok (p : place A) : Prop :=
    match p with Off | On | Drop _ => True | _ => False end.

  (** Places where removing index [i] does no harm: in the loop, only what was not read yet. *)
  Definition rem_ok (i : nat) (p : place A) : Prop :=
    match p with
    | Off | On | Half | Deaf | Drop _ => True
    | Loop k => k <= i
    | Put k _ => k < i
    | _ => False
    end.

  (** A gentle act: an edit is notified before the setter moves on and is made at a place where it
      does no harm. *)
  Definition gentle (s : st A) (a : act A) : Prop :=
    match a with
    | EIns i x => told s = None /\ i <= length (cont s) /\ ins_ok (at_ s)
    | ERem i => told s = None /\ i < length (cont s) /\ rem_ok i (at_ s)
    | Tell => True
    | Attach | Detach | Go => told s = None
    end.

  (** Stricter: the container is left alone while the setter is at work. *)
  Definition still (s : st A) (a : act A) : Prop :=
    match a with
    | EIns i x => told s = None /\ i <= length (cont s) /\ (at_ s = On \/ at_ s = Off)
    | ERem i => told s = None /\ i < length (cont s) /\ (at_ s = On \/ at_ s = Off)
    | Tell => True
    | Attach | Detach | Go => told s = None
    end.

  Fixpoint always (P : st A -> act A -> Prop) (s : st A) (l : list (act A)) : Prop :=
    match l with
    | [] => True
    | a :: l' => P s a /\ always P (step s a) l'
    end.

  (** Only insertions, their notifications and steps of the setter. *)
  Definition growing (a : act A) : Prop :=
    match a with EIns _ _ | Tell | Go => True | _ => False end.

  (** An insertion is made while the setter walks (or is about to), told then or later. *)
  Definition late (s : st A) (a : act A) : nat :=
    match a, told s, at_ s with
    | EIns _ _, None, (Half | Loop _ | Put _ _) => 1
    | _, _, _ => 0
    end.
  Fixpoint lates (s : st A) (l : list (act A)) : nat :=
    match l with [] => 0 | a :: l' => late s a + lates (step s a) l' end.

  (** [x] with the place in the order of calls it has. *)
  Definition numbered (n : nat) (l : list A) : list (nat * A) := combine (seq n (length l)) l.
End Spec.

(** A listener that does what it is told, oldest first, with Python's list operations. *)
Fixpoint replay {B : Type} (l : list (note B)) : list B :=
  match l with
  | [] => []
  | NIns x i :: l' => py_insert (Z.of_nat i) x (replay l')
  | NRem _ i :: l' => delete_at i (replay l')
  end.

Arguments shown {A}. Arguments ins_ok {A}. Arguments rem_ok {A}. Arguments gentle {A}. Arguments still {A}.
Arguments always {A}. Arguments growing {A}. Arguments late {A}. Arguments lates {A}. Arguments numbered {A}.
