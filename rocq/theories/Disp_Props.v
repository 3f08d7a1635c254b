(** ThreadDispatcher: what holds whatever the order in which the threads run and however the time passes. *)
From Coq Require Import Arith Bool List Lia.
From Verif Require Import Disp_Model Disp_Spec Disp_Proofs Disp_Proofs2.
Import ListNotations.

(** While a trigger is unserved and the dispatcher is not being closed, the dispatcher thread can go on, or it waits for
    the lock of a thread that can go on. *)
Theorem disp_served : forall i now l, let s := run i l (disp_make now) in
  unserved (d_log s) -> d_break s = false -> ~ disp_stuck i s \/ exists u s', d_lock s = Some (Cl u) /\ go i (GoClient u) s = Some s'.
Proof. intros i now l s Hu Hb. apply not_stuck; [apply run_sound|apply pend_unserved; exact Hu|exact Hb]. Qed.
Print Assumptions disp_served.

(** Whatever the other threads do, the dispatcher thread makes at most 13 steps without starting the function, and four
    more for each time that it finds that the interval is not over. *)
Theorem disp_soon : forall i now l0 l, let s := run i l0 (disp_make now) in let s' := run i l s in
  d_break s' = false ->
  exists l', d_log s' = d_log s ++ l' /\ (count is_start l' = 0 -> disp_steps i l s <= 13 + 4 * count is_early l').
Proof.
  intros i now l0 l s s' Hb. destruct (run_rank i l s Hb) as (l' & E & H). exists l'. split; [exact E|]. intros H0. specialize (H H0).
  assert (Hr : rank (d_pc s) <= 13) by (destruct (d_pc s); simpl; lia). lia.
Qed.
Print Assumptions disp_soon.

(** The function is started no sooner than the interval after each of its earlier ends. *)
Theorem disp_interval : forall i now l l1 b l2 a, d_log (run i l (disp_make now)) = l1 ++ Start b :: l2 ->
  In (EndOk a) l1 \/ In (EndRaise a) l1 -> a + i <= b.
Proof.
  intros i now l l1 b l2 a El.
  refine (at_event i now (fun l e => forall b a, e = Start b -> In (EndOk a) l \/ In (EndRaise a) l -> a + i <= b) _ l l1 _ l2 El b a eq_refl).
  intros s s' e HS Hst E b' a' -> Ha. destruct (start_event _ _ _ _ Hst E) as [Hp ->]. destruct HS as (_ & _ & _ & _ & _ & (_ & _ & H3 & H4) & _). rewrite Hp in *.
  destruct H3 as [H3|[H3|H3]]; try discriminate. specialize (H3 a' Ha). lia.
Qed.
Print Assumptions disp_interval.

(** After the break flag was set the function is started at most once, after close has returned it is not. *)
Theorem disp_closed : forall i now l l1 e l2, d_log (run i l (disp_make now)) = l1 ++ e :: l2 ->
  (forall t, e = Broke t -> count is_start l2 <= 1) /\ (forall n t, e = Start n -> ~ In (CloseRet t) l1).
Proof.
  intros i now l l1 e l2 El. split.
  - intros t ->. destruct (run_sound i now l) as (_ & _ & _ & _ & [H _] & _). rewrite El in H. assert (G := nb_split l1 t l2). lia.
  - intros n t Ee. refine (at_event i now (fun l e => forall n t, e = Start n -> ~ In (CloseRet t) l) _ l l1 _ l2 El n t Ee).
    intros s s' e' HS Hst E n' t' -> Hin. destruct (start_event _ _ _ _ Hst E) as [Hp _]. destruct HS as (_ & _ & _ & (_ & H2 & _) & _). rewrite (H2 t' Hin) in Hp. discriminate.
Qed.
Print Assumptions disp_closed.

(** close comes back: there is a bound on the moves that can be made and when none can be made any more close has
    returned, or raised because the dispatcher was closed already. *)
Theorem disp_close_returns : forall i now l t, let s := run i l (disp_make now) in closing (d_cl s t) = true ->
  exists N, forall ms s', moves i ms s s' -> length ms <= N /\
    ((forall m, go i m s' = None) ->
     d_cl s' t = Idle /\ (In (CloseRet t) (d_log s') \/ In (CloseErr t) (d_log s') /\ exists u, In (CloseRet u) (d_log s'))).
Proof. intros i now l t s H. exact (close_comes_back i now l t H). Qed.
Print Assumptions disp_close_returns.

(** trigger(wait=True) returns only after the end of a function that did not raise was signalled since the call. *)
Theorem disp_wait : forall i now l l1 t l2, d_log (run i l (disp_make now)) = l1 ++ WaitRet t :: l2 ->
  exists a b, l1 = a ++ WaitCall t :: b /\ In Signal b /\ ~ In (WaitCall t) b.
Proof.
  intros i now l l1 t l2 El.
  refine (at_event i now (fun l e => forall t, e = WaitRet t -> answered t l) _ l l1 _ l2 El t eq_refl).
  intros s s' e HS Hst E u ->. destruct HS as (_ & _ & _ & _ & _ & _ & HW & _). specialize (HW u).
  destruct (ret_event _ _ _ _ Hst E) as [[Hc Hd]|Hc]; rewrite Hc in HW; [apply HW; exact Hd|exact HW].
Qed.
Print Assumptions disp_wait.

(** It can return although the function was not started since the call: the function that ended was already running. *)
Definition disp_ex_early : list action :=
  [Trigger 5; Go GoDisp; Go GoDisp; Go GoDisp; Go GoDisp; Go GoDisp; Go GoDisp; Go GoDisp; Go GoDisp; Go GoDisp; Go GoDisp]
  ++ [CallWait 1; Go (GoClient 1); Go (GoClient 1); Go (GoClient 1); Go (GoClient 1); Go (GoClient 1)] ++ [Go GoDisp; Go GoDisp; Go (GoClient 1)].
Theorem disp_wait_early_refuted : exists l a b, d_log (run 10 l (disp_make 100)) = a ++ WaitCall 1 :: b /\ In (WaitRet 1) b /\ count is_start b = 0.
Proof. exists disp_ex_early, [Trig 5; Start 100], [Trig 1; EndOk 100; Signal; WaitRet 1]. vm_compute. repeat split. auto. Qed.
Print Assumptions disp_wait_early_refuted.
(** It does not return as long as the function raises. *)
Theorem disp_wait_raise_refuted : forall i s t l, d_cl s t = WBlocked -> d_pc s <> DOk ->
  count (fun e => match e with EndOk _ => true | _ => false end) (d_log (run i l s)) = count (fun e => match e with EndOk _ => true | _ => false end) (d_log s) ->
  d_cl (run i l s) t = WBlocked.
Proof. intros i s t l. exact (blocked_run i t l s). Qed.
Print Assumptions disp_wait_raise_refuted.
(** It never returns once the dispatcher thread has ended. *)
Theorem disp_wait_closed_refuted : forall i s t l, d_cl s t = WBlocked -> d_pc s = DEnd -> d_cl (run i l s) t = WBlocked.
Proof. intros i s t l. exact (end_run i t l s). Qed.
Print Assumptions disp_wait_closed_refuted.

Definition disp_go (n : nat) : list action := repeat (Go GoDisp) n.
(** a trigger while the interval is not over: the function is started when it is, and once more *)
Example disp_ex_interval :
  d_log (run 10 ([Trigger 5] ++ disp_go 13 ++ [Trigger 6] ++ disp_go 7 ++ [Tick 4; Trigger 7] ++ disp_go 4 ++ [Tick 6; Go Timeout] ++ disp_go 20) (disp_make 100))
  = [Trig 5; Start 100; EndOk 100; Signal; Trig 6; Early; Trig 7; Early; Start 110; EndOk 110; Signal; Early].
Proof. reflexivity. Qed.
(** closing while the function runs: it ends, and is not started again for the second trigger *)
Example disp_ex_close :
  d_log (run 10 ([Trigger 5] ++ disp_go 10 ++ [Trigger 6; CallClose 1] ++ repeat (Go (GoClient 1)) 5 ++ disp_go 8 ++ repeat (Go (GoClient 1)) 2) (disp_make 100))
  = [Trig 5; Start 100; Trig 6; Broke 1; EndOk 100; Signal; CloseRet 1].
Proof. reflexivity. Qed.
(** closing again raises; waiting for a trigger after closing blocks *)
Example disp_ex_again : let s := run 10 ([CallClose 1] ++ repeat (Go (GoClient 1)) 5 ++ disp_go 8 ++ repeat (Go (GoClient 1)) 2
    ++ [CallClose 2] ++ repeat (Go (GoClient 2)) 5 ++ [CallWait 3] ++ repeat (Go (GoClient 3)) 5) (disp_make 100) in
  d_log s = [Broke 1; CloseRet 1; Broke 2; CloseErr 2; WaitCall 3; Trig 3] /\ d_cl s 3 = WBlocked /\ d_pc s = DEnd.
Proof. vm_compute. repeat split. Qed.
