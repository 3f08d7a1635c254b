(** Networks of reference counted objects used by threads: the theorems. *)
From Coq Require Import List Bool Arith Lia.
From Verif Require Import PyBase RefNet_Model RefNet_Spec RefNet_Proofs.
Import ListNotations.

(** a source 0, two maps 1 and 2 of it, their combination 3; clients have 3 and 0; two threads *)
Definition ex_make : list nact :=
  [NThread; NThread; NNew; NNew; NAttach 0 1 0; NNew; NAttach 0 2 0; NNew; NAttach 0 3 1; NAttach 0 3 2; NAcquire 0 3; NAcquire 1 0].
(** thread 0 drops the combination, thread 1 meanwhile the source *)
Definition ex_drop : list nact := ex_make ++ [NRelease 0 3; NStep 0; NRelease 1 0; NStep 0; NStep 0; NStep 1].

(** The reference count is the references of clients, of objects not deleted, and of threads about to give one up; the assertion never fails. *)
Theorem refnet_count : forall acts o b, let s := n_run acts in nth_error (n_objs s) o = Some b ->
  o_count b = o_ext b + list_sum (map (obj_refs o) (n_objs s)) + list_sum (map (thr_refs o) (n_thrs s)) /\ n_failed s = false.
Proof.
  intros acts o b s H. pose proof (ninv_run acts) as I. split; [|exact (ni_ok _ I)].
  rewrite (ni_count _ I _ _ H). unfold inner. fold s. lia.
Qed.
Print Assumptions refnet_count.
Example refnet_count_ex : map o_count (n_objs (n_run ex_make)) = [3; 1; 1; 1] /\ map o_count (n_objs (n_run ex_drop)) = [2; 0; 1; 0].
Proof. vm_compute. auto. Qed.

(** What a client or an object that is not deleted refers to is not deleted. *)
Theorem refnet_safe : forall acts o, let s := n_run acts in
  ((exists b, nth_error (n_objs s) o = Some b /\ 0 < o_ext b) -> active s o) /\
  (forall p, active s p -> refers s p o -> active s o) /\ (reachable s o -> active s o).
Proof.
  intros acts o s. pose proof (ninv_run acts) as I. fold s in I. split; [|split].
  - intros (b & H & K). apply (root_active s o I). exists b. auto.
  - intros p. now apply active_refers.
  - now apply reachable_active.
Qed.
Print Assumptions refnet_safe.
Example refnet_safe_ex : map o_active (n_objs (n_run ex_drop)) = [true; false; true; false].
Proof. reflexivity. Qed.

(** about_to_delete is called at most once for an object; the objects it was called for are those deleted. *)
Theorem refnet_once : forall acts, let s := n_run acts in
  NoDup (n_log s) /\ forall o, In o (n_log s) <-> o < length (n_objs s) /\ ~ active s o.
Proof.
  intros acts s. pose proof (ninv_run acts) as I. fold s in I. split; [exact (ni_once _ I)|]. intros o. rewrite (ni_log _ I o). split.
  - intros (b & H & K). split; [apply nth_error_Some; congruence|]. intros (c & H' & K'). congruence.
  - intros (H & K). destruct (nth_error (n_objs s) o) as [b|] eqn:E; [|apply nth_error_None in E; lia].
    exists b. split; auto. destruct (o_active b) eqn:A; auto. destruct K. exists b. auto.
Qed.
Print Assumptions refnet_once.
Example refnet_once_ex : n_log (n_run ex_drop) = [3; 1].
Proof. reflexivity. Qed.

(** An object is deleted only after every object that refers to it. *)
Theorem refnet_order : forall acts p o a b, let s := n_run acts in refers s p o -> n_log s = a ++ o :: b -> In p a.
Proof. intros acts p o a b s. apply (ni_order _ (ninv_run acts)). Qed.
Print Assumptions refnet_order.
Example refnet_order_ex : n_log (n_run (ex_drop ++ repeat (NStep 0) 9)) = [3; 1; 2; 0].
Proof. reflexivity. Qed.

(** A thread inside remove_ref never waits for the about_to_delete of another thread: each of its steps goes through and brings the end nearer by one. *)
Theorem refnet_no_wait : forall acts t, let s := n_run acts in busy s t -> steps_left s = S (steps_left (n_step s (NStep t))).
Proof. intros acts t s. apply steps_step, ninv_run. Qed.
Print Assumptions refnet_no_wait.
Example refnet_no_wait_ex : steps_left (n_run ex_drop) = 10 /\ steps_left (n_run (ex_drop ++ [NStep 0])) = 9.
Proof. split; reflexivity. Qed.

(** However the threads take turns, they all come to an end, after no more than the steps left. *)
Theorem refnet_finish : forall acts ts s', goes (n_run acts) ts s' ->
  length ts <= steps_left (n_run acts) /\ (quiescent s' \/ exists t s2, goes s' [t] s2).
Proof.
  intros acts ts s' G. destruct (goes_inv _ _ _ G (ninv_run acts)) as (I & E). split; [lia|].
  destruct (quiescent_or_busy s') as [Q|(t & B)]; auto. right. exists t. eexists. econstructor; [exact B|constructor].
Qed.
Print Assumptions refnet_finish.
Example refnet_finish_ex : map idleb (n_thrs (n_run (ex_drop ++ repeat (NStep 0) 9))) = [false; true] /\
  map idleb (n_thrs (n_run (ex_drop ++ repeat (NStep 0) 10))) = [true; true].
Proof. split; reflexivity. Qed.

(** When no call is being made and no object refers to itself through others, the objects not deleted are exactly those
    clients can reach: nothing is lost and nothing is kept. *)
Theorem refnet_live : forall acts o, let s := n_run acts in quiescent s -> acyclic s -> (active s o <-> reachable s o).
Proof.
  intros acts o s Q A. pose proof (ninv_run acts) as I. split; [now apply active_reachable|now apply reachable_active].
Qed.
Print Assumptions refnet_live.
Example refnet_live_ex : map o_active (n_objs (n_run (ex_drop ++ repeat (NStep 0) 9))) = [false; false; false; false] /\
  map o_active (n_objs (n_run (ex_make ++ NRelease 0 3 :: repeat (NStep 0) 15))) = [true; false; false; false].
Proof. split; reflexivity. Qed.

(** Two objects that refer to each other are never deleted, though no client can reach them. *)
Theorem refnet_cycle_refuted : ~ (forall acts o, let s := n_run acts in quiescent s -> active s o -> reachable s o).
Proof.
  intros H. set (acts := [NThread; NNew; NNew; NAcquire 0 0; NAttach 0 0 1; NAttach 0 1 0; NRelease 0 0; NStep 0]).
  assert (Q : quiescent (n_run acts)). { intros h K. vm_compute in K. destruct K as [<-|[]]. split; reflexivity. }
  assert (A : active (n_run acts) 0). { eexists. split; reflexivity. }
  pose proof (H acts 0 Q A) as R. clear A. revert R. generalize 0 as o. intros o R. induction R as [o (b & E & X)|p o R IH _]; [|exact IH].
  destruct o as [|[|o]]; vm_compute in E; [| |destruct o; discriminate]; injection E as <-; cbn in X; destruct X as [X|X]; (discriminate || lia).
Qed.
Print Assumptions refnet_cycle_refuted.
Example refnet_cycle_ex :
  map o_count (n_objs (n_run [NThread; NNew; NNew; NAcquire 0 0; NAttach 0 0 1; NAttach 0 1 0; NRelease 0 0; NStep 0])) = [1; 1].
Proof. reflexivity. Qed.
