(** Specification vocabulary for task queues and task sets used by threads. *)
From Coq Require Import List Bool Arith.
From Verif Require Import PyBase TaskThr_Model.
Import ListNotations.

Section TaskQueueSpec.
  Context {T : Type}.
  (** the tasks put, those taken from the queue, and those taken by a call, in order *)
  Fixpoint puts (l : list (qev T)) : list T :=
    match l with [] => [] | EPut t :: l' => t :: puts l' | _ :: l' => puts l' end.
  Fixpoint takes (l : list (qev T)) : list T :=
    match l with [] => [] | ETake _ _ t :: l' => t :: takes l' | _ :: l' => takes l' end.
  Fixpoint takes_of (c : nat) (l : list (qev T)) : list T :=
    match l with [] => [] | ETake c' _ t :: l' => if c' =? c then t :: takes_of c l' else takes_of c l' | _ :: l' => takes_of c l' end.
  (** tasks run and returned from, or cleared *)
  Fixpoint settled (l : list (qev T)) : nat :=
    match l with
    | [] => 0
    | EReturn _ _ :: l' | ETake _ true _ :: l' => S (settled l')
    | _ :: l' => settled l'
    end.
  Fixpoint raised (l : list (qev T)) : nat :=
    match l with [] => 0 | ERaise _ _ :: l' => S (raised l') | _ :: l' => raised l' end.
End TaskQueueSpec.

Section TaskSetSpec.
  Context {K T : Type}.
  (** the event ends what is pending for the key *)
  Definition overrides (k : K) (e : sev K T) : Prop :=
    match e with VAdd k' _ => k' = k | VClear k' => k' = k | VCall _ => True | _ => False end.
  (** after the events [l] the task [t] is still to be done for the key [k] *)
  Definition pending (l : list (sev K T)) (k : K) (t : T) : Prop :=
    exists a b, l = a ++ VAdd k t :: b /\ forall e, In e b -> ~ overrides k e.
  Fixpoint added (l : list (sev K T)) : list T :=
    match l with [] => [] | VAdd _ t :: l' => t :: added l' | _ :: l' => added l' end.
  (** what a call has started, in order *)
  Fixpoint starts_of (c : nat) (l : list (sev K T)) : list (K * T) :=
    match l with
    | [] => []
    | VStart c' k t :: l' => if c' =? c then (k, t) :: starts_of c l' else starts_of c l'
    | _ :: l' => starts_of c l'
    end.
  Fixpoint started (l : list (sev K T)) : list T :=
    match l with [] => [] | VStart _ _ t :: l' => t :: started l' | _ :: l' => started l' end.
End TaskSetSpec.
