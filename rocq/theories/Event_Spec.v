(** Specification vocabulary for events: statements about traces. *)
From Coq Require Import List Arith Bool.
From Verif Require Import PyBase Event_Model.
Import ListNotations.

(** the actions and the turns of a trace *)
Fixpoint acts_of (tr : list tev) : list act :=
  match tr with [] => [] | TAct a :: tr' => a :: acts_of tr' | _ :: tr' => acts_of tr' end.
Fixpoint turns_of (tr : list tev) : list nat :=
  match tr with [] => [] | TCall i :: tr' | TVoid i :: tr' => i :: turns_of tr' | _ :: tr' => turns_of tr' end.
(** truth values in turn order; void returns None, which is false *)
Fixpoint results_of (tr : list tev) : list bool :=
  match tr with [] => [] | TRet _ b :: tr' => b :: results_of tr' | TVoid _ :: tr' => false :: results_of tr' | _ :: tr' => results_of tr' end.

Fixpoint listens (acts : list act) : nat :=
  match acts with [] => 0 | AListen _ :: acts' => S (listens acts') | _ :: acts' => listens acts' end.

(** listener [i] was created by the history [acts], with owner [ow], and [P] holds of what followed *)
Definition since (acts : list act) (i : nat) (P : option nat -> list act -> Prop) : Prop :=
  exists a1 ow a2, acts = a1 ++ AListen ow :: a2 /\ listens a1 = i /\ P ow a2.

Definition token_held (acts : list act) (i : nat) : Prop := since acts i (fun _ after => ~ In (ADrop i) after).
Definition owner_alive (acts : list act) (i : nat) : Prop :=
  since acts i (fun ow after => exists o, ow = Some o /\ ~ In (AOwnerGone o) after).
Definition was_closed (acts : list act) (i : nat) : Prop :=
  since acts i (fun ow after => In (AClose i) after \/ exists o, ow = Some o /\ In (AOwnerGone o) after).

(** [s] is a state of the event reached by the actions [acts] *)
Definition reaches (acts : list act) (s : est) : Prop := s = fold_left act_step acts est_new.
