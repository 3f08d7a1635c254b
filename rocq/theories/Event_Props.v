(** Properties C22-C25 of Event. *)
From Coq Require Import List Arith Lia Bool.
From Verif Require Import PyBase Event_Model Event_Spec Event_Proofs.
Import ListNotations.

(** C22.  The listeners that get their turn form an initial part of the listeners registered when the fire
    began, in that order; all of them unless a listener raises.  A listener is passed over exactly when it
    was closed (itself or through its owner) before its turn; in every other case it is called, also when
    its token was dropped meanwhile. *)
Theorem event_fire_turns {W} (handler : nat -> W -> est -> W * list act * hres) acts s w :
  reaches acts s ->
  let o := fire handler Fire s w in
  (exists rest, e_reg s = turns_of (f_trace o) ++ rest /\ (f_raised o = None -> rest = [])) /\
  NoDup (turns_of (f_trace o)) /\
  (forall t1 i t2, f_trace o = t1 ++ TVoid i :: t2 -> was_closed (acts ++ acts_of t1) i) /\
  (forall t1 i t2, f_trace o = t1 ++ TCall i :: t2 -> ~ was_closed (acts ++ acts_of t1) i).
Proof. exact (fire_turns_c22 handler acts s w). Qed.
Print Assumptions event_fire_turns.

(** The same turn rule holds for fire_any and fire_all. *)
Theorem event_fire_any_all_turns {W} (handler : nat -> W -> est -> W * list act * hres) acts m s w :
  reaches acts s ->
  let o := fire handler m s w in
  (exists rest, e_reg s = turns_of (f_trace o) ++ rest) /\
  (forall t1 i t2, f_trace o = t1 ++ TVoid i :: t2 -> was_closed (acts ++ acts_of t1) i) /\
  (forall t1 i t2, f_trace o = t1 ++ TCall i :: t2 -> ~ was_closed (acts ++ acts_of t1) i).
Proof. exact (fire_turns_any_all handler acts m s w). Qed.
Print Assumptions event_fire_any_all_turns.

(** C23.  When listener [j] raises, its turn is the last one (after those registered before it), the fire
    just returns None, and the event is left as the actions done so far leave it. *)
Theorem event_raise_stops_fire {W} (handler : nat -> W -> est -> W * list act * hres) acts m s w j :
  reaches acts s ->
  let o := fire handler m s w in
  f_raised o = Some j ->
  f_result o = RNone /\
  (exists t1 al l1 l2, f_trace o = t1 ++ TCall j :: map TAct al /\ e_reg s = l1 ++ j :: l2 /\ turns_of t1 = l1) /\
  f_state o = fold_left act_step (acts_of (f_trace o)) s.
Proof. exact (fire_raise_c23 handler acts m s w j). Qed.
Print Assumptions event_raise_stops_fire.

(** C24 *)
Theorem event_fire_any_result {W} (handler : nat -> W -> est -> W * list act * hres) s w :
  e_reg s <> [] -> let o := fire handler FireAny s w in
  f_raised o = None ->
  f_result o = RBool (existsb id (results_of (f_trace o))) /\
  (exists rest, e_reg s = turns_of (f_trace o) ++ rest /\ (f_result o = RBool false -> rest = [])) /\
  (forall r1 r2, results_of (f_trace o) = r1 ++ true :: r2 -> r2 = [] /\ existsb id r1 = false).
Proof. exact (fire_any_lemma handler s w). Qed.
Print Assumptions event_fire_any_result.

Theorem event_fire_all_result {W} (handler : nat -> W -> est -> W * list act * hres) s w :
  e_reg s <> [] -> let o := fire handler FireAll s w in
  f_raised o = None ->
  f_result o = RBool (forallb id (results_of (f_trace o))) /\
  (exists rest, e_reg s = turns_of (f_trace o) ++ rest /\ (f_result o = RBool true -> rest = [])) /\
  (forall r1 r2, results_of (f_trace o) = r1 ++ false :: r2 -> r2 = [] /\ forallb id r1 = true).
Proof. exact (fire_all_lemma handler s w). Qed.
Print Assumptions event_fire_all_result.

Theorem event_fire_without_listeners {W} (handler : nat -> W -> est -> W * list act * hres) m s w :
  e_reg s = [] -> fire handler m s w = Fo s w [] RNone None.
Proof. exact (fire_none_lemma handler m s w). Qed.
Print Assumptions event_fire_without_listeners.

(** C25.  Registration follows token and owner; closing follows close and the owner's death. *)
Theorem event_registered_iff acts s i :
  reaches acts s -> (In i (e_reg s) <-> token_held acts i \/ owner_alive acts i).
Proof. exact (registered_iff_lemma acts s i). Qed.
Print Assumptions event_registered_iff.

Theorem event_closed_iff acts s i : reaches acts s -> (In i (e_closed s) <-> was_closed acts i).
Proof. exact (closed_iff_lemma acts s i). Qed.
Print Assumptions event_closed_iff.

(** Over every client history with fires in between: the event is in the state the flat list of actions
    leads to (so the previous two theorems describe it), and no call follows a closing. *)
Theorem event_never_called_after_close {W} (handler : nat -> W -> est -> W * list act * hres) h w s' w' tr :
  ev_run handler est_new w h = (s', w', tr) ->
  reaches (acts_of tr) s' /\
  forall t1 i t2, tr = t1 ++ TCall i :: t2 -> ~ was_closed (acts_of t1) i.
Proof. exact (ev_history_c25 handler h w s' w' tr). Qed.
Print Assumptions event_never_called_after_close.

(** Finding: fire_all does not return True when nobody is listening, and one raising listener turns both
    results into None and silences the listeners after it. *)
Theorem event_fire_all_true_refuted :
  exists (handler : nat -> unit -> est -> unit * list act * hres) s,
    (forall t1 i t2, f_trace (fire handler FireAll s tt) <> t1 ++ TRet i false :: t2) /\
    f_result (fire handler FireAll s tt) <> RBool true.
Proof. exact fire_all_true_refuted_lemma. Qed.
Print Assumptions event_fire_all_true_refuted.

Theorem event_all_listeners_called_refuted :
  exists (handler : nat -> unit -> est -> unit * list act * hres) acts s i,
    reaches acts s /\ In i (e_reg s) /\ ~ was_closed acts i /\ acts_of (f_trace (fire handler Fire s tt)) = [] /\
    ~ In (TCall i) (f_trace (fire handler Fire s tt)).
Proof. exact all_called_refuted_lemma. Qed.
Print Assumptions event_all_listeners_called_refuted.

(** Finding: fire_all is False although every open listener returns true, because a closed listener whose
    token is still held answers None. *)
Theorem event_fire_all_closed_refuted :
  exists (handler : nat -> unit -> est -> unit * list act * hres) acts s,
    reaches acts s /\ (forall i w s, snd (handler i w s) = HRet true) /\
    f_result (fire handler FireAll s tt) = RBool false.
Proof. exact fire_all_closed_refuted_lemma. Qed.
Print Assumptions event_fire_all_closed_refuted.

(** A fire in which listener 0 closes 1, drops the token of 2 and adds a listener; 3 belongs to an owner
    that listener 2 destroys; 4 is still called. *)
Example event_c22_case :
  let acts := [AListen None; AListen None; AListen None; AListen (Some 7); AListen None; ADrop 3] in
  let handler := fun i (w : list nat) (_ : est) =>
    (w ++ [i], match i with 0 => [AClose 1; ADrop 2; AListen None] | 2 => [AOwnerGone 7] | _ => [] end, HRet true) in
  let o := fire handler Fire (fold_left act_step acts est_new) [] in
  f_world o = [0; 2; 4] /\ turns_of (f_trace o) = [0; 1; 2; 3; 4] /\ e_reg (f_state o) = [0; 1; 4; 5].
Proof. vm_compute. auto. Qed.

Example event_c23_case :
  let acts := [AListen None; AListen None; AListen None] in
  let handler := fun i (w : list nat) (_ : est) => (w ++ [i], [AListen None], if i =? 1 then HRaise else HRet true) in
  let o := fire handler FireAny (fold_left act_step acts est_new) [] in
  let o' := fire handler Fire (fold_left act_step acts est_new) [] in
  f_world o = [0] /\ f_result o = RBool true /\ f_world o' = [0; 1] /\ f_raised o' = Some 1 /\
  e_reg (f_state o') = [0; 1; 2; 3; 4].
Proof. vm_compute. auto. Qed.

Example event_c25_case :
  let handler := fun i (w : list nat) (_ : est) => (w ++ [i], if i =? 0 then [AClose 0; AClose 1] else [], HRet true) in
  let '(s, w, _) := ev_run handler est_new []
     [HAct (AListen None); HAct (AListen (Some 3)); HAct (AListen (Some 3)); HFire Fire; HAct (ADrop 1); HFire FireAny;
      HAct (AOwnerGone 3); HFire Fire] in
  w = [0; 2; 2] /\ e_reg s = [0; 2].
Proof. vm_compute. auto. Qed.
