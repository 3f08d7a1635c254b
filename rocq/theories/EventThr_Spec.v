(** Specification vocabulary for events used by threads. *)
From Coq Require Import List Bool Arith.
From Verif Require Import PyBase EventThr_Model.
Import ListNotations.

(** the listeners whose functions a call has called, in order *)
Fixpoint invokes (f : nat) (l : list xev) : list nat :=
  match l with
  | [] => []
  | VInvoke f' i :: l' => if f' =? f then i :: invokes f l' else invokes f l'
  | _ :: l' => invokes f l'
  end.
(** what ends the call early: an exception; a true result for fire_any, a false one for fire_all *)
Definition halting (m : mode) (r : option bool) : Prop :=
  r = None \/ (m = MAny /\ r = Some true) \/ (m = MAll /\ r = Some false).
Definition ended (f : nat) (l : list xev) : Prop :=
  In (VExit f) l \/ exists m i r, In (VFire f m) l /\ In (VRet f i r) l /\ halting m r.
(** no call is going on *)
Definition quiescent (l : list xev) : Prop := forall f m, In (VFire f m) l -> ended f l.
