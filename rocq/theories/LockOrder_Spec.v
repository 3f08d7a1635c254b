(** What it means that lists can be used by threads without a deadlock. *)
From Coq Require Import Arith Bool List.
From Verif Require Import PyBase LockOrder_Model.
Import ListNotations.

(** all calls have come to their end *)
Definition ended (l : list thread) : Prop := forall t, In t l -> t_acts t = [] /\ t_held t = [].
(** some thread has something to do, and none can go on *)
Definition deadlock (l : list thread) : Prop := ~ ended l /\ forall l', ~ step l l'.
(** how much there is to do *)
Definition work (l : list thread) : nat := list_sum (map (fun t => length (t_acts t)) l).
Inductive takes : nat -> list thread -> list thread -> Prop :=
  | takes_0 l : takes 0 l l
  | takes_S n l l' l'' : takes n l l' -> step l' l'' -> takes (S n) l l''.

Section Order.
  Variable list_kind : nat -> kind.
  Variable listeners : nat -> list listener.
  Variable masters : nat -> list nat.
  (** what a list fires comes to the list [m], or to a listener that reads it *)
  Inductive reaches : nat -> nat -> Prop :=
    | reaches_derived n d : In (Derived d) (listeners n) -> reaches n d
    | reaches_reads n m : In (Reads m) (listeners n) -> reaches n m
    | reaches_within n f m : In (Within f) (listeners n) -> reaches f m -> reaches n m.
  (** an order of the lists: derived lists after their container, master items after the flattened list, what listens to the
      flattened list after the master items; a listener reads only lists after the one it listens to, or that one itself *)
  Definition ordered (rank : nat -> nat) : Prop :=
    (forall n d, In (Derived d) (listeners n) -> rank n < rank d) /\
    (forall f m, In m (masters f) -> rank f < rank m) /\
    (forall n f m, In (Within f) (listeners n) -> reaches f m -> rank n < rank m) /\
    (forall n m, In (Reads m) (listeners n) -> rank n < rank m \/ m = n).
  (** what threads may do *)
  Definition clients (ps : list (list act)) : Prop := forall p, In p ps -> exists cs, does list_kind listeners masters (Calls cs) p.
End Order.
