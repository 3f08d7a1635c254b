(** ThreadPool: what holds whatever the order in which any number of threads queue, start, run and close. *)
From Coq Require Import Arith Bool List Lia Sorted.
From Verif Require Import Pool_Model Pool_Spec Pool_Proofs Pool_Proofs2 Pool_Proofs3.
Import ListNotations.

(** A queued function is started at most once. *)
Theorem pool_once : forall l i,
  count (is_started i) (p_log (run l pool_make)) <= 1 /\
  count (is_ended i) (p_log (run l pool_make)) <= count (is_started i) (p_log (run l pool_make)).
Proof.
  intros l i. destruct (run_base l) as (_ & _ & _ & HP & _). specialize (HP i). unfold phase_of in HP.
  destruct (option_map _ _) as [[]|]; cbn [phase] in HP; lia.
Qed.
Print Assumptions pool_once.

(** Functions are taken in the order in which they were queued, none is lost, and each thread starts its functions in
    that order. *)
Theorem pool_fifo : forall l t, let s := run l pool_make in
  taken (p_log s) ++ waiting (p_queue s) = seq 0 (p_next s) /\ queued (p_log s) = seq 0 (p_next s) /\
  StronglySorted lt (started_by t (p_log s)).
Proof. intros l t s. split; [apply run_base|]. split; [apply run_queued|apply run_ordered]. Qed.
Print Assumptions pool_fifo.

(** Removing a task that is finished never fails, and happens once. *)
Theorem pool_removed : forall l i, let s := run l pool_make in
  ~ In (RemoveFailed i) (p_log s) /\ count (is_removed i) (p_log s) <= 1 /\
  (i < p_next s -> (In i (p_tasks s) <-> count (is_removed i) (p_log s) = 0)).
Proof.
  intros l i s. assert (H := run_base l). fold s in H. split; [apply H|]. destruct H as (_ & _ & HT & HP & _). destruct HT as [H1 _].
  split.
  - specialize (HP i). unfold phase_of in HP. destruct (option_map (p_pc s) (p_lock s i)) as [[]|]; cbn [phase] in HP; try lia; destruct (p_fn s i); intuition lia.
  - intros Hi. specialize (H1 i Hi). rewrite (count_occ_In Nat.eq_dec). lia.
Qed.
Print Assumptions pool_removed.

(** After close was called no function is queued.  After close has returned no function is started or running. *)
Theorem pool_closed : forall l l1 e l2, p_log (run l pool_make) = l1 ++ e :: l2 ->
  (forall t, e = CloseCalled t -> forall i, ~ In (Queued i) l2) /\
  (forall t, e = CloseRet t -> forall u i, ~ In (Started u i) l2 /\ ~ In (Ended u i) l2).
Proof.
  intros l l1 e l2 El. split.
  - intros t -> i Hin. revert Hin.
    refine (fun Hin => none_after (fun x => exists t, x = CloseCalled t) (fun x => exists i, x = Queued i) _ l l1 _ l2 El _ _ Hin _); eauto.
    intros s a x [HB (_ & _ & H3)] (y & Hy & t' & ->) Ex [j ->]. destruct (step_event s a HB) as [E|(e' & E & He)].
    + rewrite E in Ex. apply (f_equal (@length event)) in Ex. rewrite app_length in Ex. simpl in Ex. lia.
    + rewrite E in Ex. apply app_inv_head in Ex. injection Ex as ->. destruct He as [He _]. rewrite (H3 _ Hy) in He. discriminate.
  - intros t -> u i.
    assert (H : forall x, In x l2 -> ~ (exists u i, x = Started u i \/ x = Ended u i)).
    { apply (none_after (fun x => exists t, x = CloseRet t) (fun x => exists u i, x = Started u i \/ x = Ended u i)) with (l := l) (l1 := l1) (x := CloseRet t); eauto.
      intros s a x [HB (_ & H2 & _)] (y & Hy & t' & ->) Ex (v & j & Hx). destruct (H2 _ Hy) as [_ Ht]. destruct (step_event s a HB) as [E|(e' & E & He)].
      - rewrite E in Ex. apply (f_equal (@length event)) in Ex. rewrite app_length in Ex. simpl in Ex. lia.
      - rewrite E in Ex. apply app_inv_head in Ex. injection Ex as ->. destruct Hx as [-> | ->]; [destruct He as [_ He]|]; rewrite Ht in He; exact He. }
    split; intros Hin; apply (H _ Hin); eauto.
Qed.
Print Assumptions pool_closed.

(** The one call of close returns: from wherever the threads are there is a bound on the number of steps that they can
    make, and when none of them can go on close has returned. *)
Theorem pool_close_returns : forall l t,
  count is_close_call (p_log (run l pool_make)) <= 1 -> in_close (p_pc (run l pool_make) t) = true ->
  exists N, forall ts s', runs ts (run l pool_make) s' -> length ts <= N /\ ((forall u, go u s' = None) -> In (CloseRet t) (p_log s')).
Proof. exact close_comes_back. Qed.
Print Assumptions pool_close_returns.

(** A second call of close never returns if the pool has threads and nothing runs any more. *)
Theorem pool_second_close_refuted : forall s l, p_threads s <> [] -> (forall t, p_pc s t = Idle \/ p_pc s t = Dead) ->
  (forall a, In a l -> match a with Queue | CallClose _ | Go _ => True | _ => False end) ->
  forall t, In (CloseRet t) (p_log (run l s)) -> In (CloseRet t) (p_log s).
Proof. intros s l H1 H2 Ha. apply second_close; assumption. Qed.
Print Assumptions pool_second_close_refuted.

(** two threads of the pool, one function run by each, a third cancelled by close *)
Definition pool_ex1 : list action :=
  [Start 1; Start 2; Queue; Go 1; Go 1; Go 1; Queue; Go 2; Go 2; Go 2; Queue; Go 2; Go 1; Go 2; CallClose 9].
Example pool_ex_busy : let s := run pool_ex1 pool_make in
  p_pc s 1 = Running Worker 0 /\ p_pc s 2 = Clearing Worker 1 /\ p_pc s 9 = Closing [0; 1; 2] /\ p_queue s = [Some 2] /\ p_unfinished s = 3.
Proof. vm_compute. repeat split. Qed.
Definition pool_ex2 : list action :=
  pool_ex1 ++ [Queue; Go 9; Go 9; Go 1; Go 1; Go 1; Go 1; Go 9; Go 9; Go 9; Go 9; Go 9; Go 2; Go 2; Go 2; Go 9; Go 9; Go 9; Go 9; Go 9; Go 9; Go 9; Go 9; Go 9; Go 9; Go 9; Go 9]
    ++ [Go 1; Go 1; Go 1; Go 1; Go 1; Go 1; Go 1; Go 1; Go 2; Go 2; Go 2; Go 2; Go 2; Go 9].
Example pool_ex_closed : let s := run pool_ex2 pool_make in
  p_log s = [Queued 0; Taken 1 0; Queued 1; Taken 2 1; Queued 2; Started 2 1; Started 1 0; Ended 2 1; CloseCalled 9; Dropped;
             Ended 1 0; Removed 0; Removed 1; Removed 2; Taken 1 2; CloseRet 9] /\
  p_pc s 1 = Dead /\ p_pc s 2 = Dead /\ p_pc s 9 = Idle /\ p_threads s = [2; 1] /\ p_unfinished s = 0.
Proof. vm_compute. repeat split. Qed.
(** closing again: close waits for ever for its own None *)
Example pool_ex_again : let s := run (pool_ex2 ++ [CallClose 9; Go 9; Go 9; Go 9; Go 9; Go 9]) pool_make in
  p_pc s 9 = Join /\ p_unfinished s = 2 /\ go 9 s = None /\ go 1 s = None /\ go 2 s = None.
Proof. vm_compute. repeat split. Qed.
