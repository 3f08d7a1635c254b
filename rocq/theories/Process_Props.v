(** Properties C31-C32 of TaskQueue and TaskSet. *)
From Coq Require Import List Arith Lia.
From Verif Require Import PyBase Process_Model Process_Spec Process_Proofs.
Import ListNotations.

(** ** C31 *)
(** Either every queued task ran once in order, and exactly the tasks put meanwhile are queued; or the
    run stopped at the first raising task with the later ones still queued, ahead of the new ones, and
    the raising task not counted as done. *)
Theorem taskqueue_perform_fifo {T} (behave : list T -> T -> list T * bool) s :
  length (tq_queue s) <= tq_unfinished s ->
  (exists puts, executes behave (tq_ran s) (tq_queue s) puts /\
     tq_perform behave s = (Tq puts (tq_unfinished s - length (tq_queue s) + length puts)
                               (tq_ran s ++ tq_queue s), None)) \/
  (exists done t rest puts p, tq_queue s = done ++ t :: rest /\ executes behave (tq_ran s) done puts /\
     behave (tq_ran s ++ done) t = (p, true) /\
     tq_perform behave s = (Tq (rest ++ puts ++ p) (tq_unfinished s - length done + length puts + length p)
                               (tq_ran s ++ done ++ [t]), Some HandlerError)).
Proof. exact (tq_perform_lemma behave s). Qed.
Print Assumptions taskqueue_perform_fifo.

(** In every history the unfinished counter (what join waits for) is the number of queued tasks plus the
    number of performs that raised: after one raise it never returns to zero. *)
Theorem taskqueue_unfinished_counts_raises {T} (behave : list T -> T -> list T * bool) h :
  tq_unfinished (fst (tq_run behave tq_new h))
  = length (tq_queue (fst (tq_run behave tq_new h))) + snd (tq_run behave tq_new h).
Proof. exact (tq_unfinished_lemma behave h). Qed.
Print Assumptions taskqueue_unfinished_counts_raises.

Definition c31_behave (log : list nat) (t : nat) : list nat * bool :=
  match t with 1 => ([10; 11], false) | 2 => ([12], true) | _ => ([], false) end.
Example taskqueue_c31_case :
  tq_run c31_behave tq_new [QPut 0; QPut 1; QPut 3; QPerform; QPut 2; QPut 4; QPerform]
  = (Tq [4; 12] 3 [0; 1; 3; 10; 11; 2], 1).
Proof. vm_compute. reflexivity. Qed.

(** ** C32 *)
(** In a state whose pending tasks are what the calls [acts] left: the performed tasks are exactly the
    latest task of every key, each once; afterwards the pending tasks are what the performed tasks
    themselves left.  If a task raises, the remaining tasks of the round are neither run nor pending. *)
Theorem taskset_perform_latest {K T} K_dec (behave : list (K * T) -> T -> list (tsact K T) * bool) s acts :
  reached K_dec s acts ->
  NoDup (map fst (ts_dict s)) /\ (forall k t, In (k, t) (ts_dict s) <-> latest K_dec acts k = Some t) /\
  ((exists acts' s', set_executes behave (ts_ran s) (ts_dict s) acts' /\
      ts_perform K_dec behave s = (s', None) /\ ts_ran s' = ts_ran s ++ ts_dict s /\ reached K_dec s' acts') \/
   (exists done k t rest acts' p s', ts_dict s = done ++ (k, t) :: rest /\
      set_executes behave (ts_ran s) done acts' /\ behave (ts_ran s ++ done) t = (p, true) /\
      ts_perform K_dec behave s = (s', Some HandlerError) /\
      ts_ran s' = ts_ran s ++ done ++ [(k, t)] /\ reached K_dec s' (acts' ++ p))).
Proof. exact (ts_perform_lemma K_dec behave s acts). Qed.
Print Assumptions taskset_perform_latest.

Theorem taskset_add_clear_latest {K T} K_dec (s : @ts K T) acts a :
  reached K_dec s acts -> reached K_dec (ts_act K_dec s a) (acts ++ [a]).
Proof. exact (reached_act K_dec s acts a). Qed.
Print Assumptions taskset_add_clear_latest.

Theorem taskset_every_history {K T} K_dec (behave : list (K * T) -> T -> list (tsact K T) * bool) h :
  exists acts, reached K_dec (fold_left (fun s o => fst (ts_step K_dec behave s o)) h ts_new) acts.
Proof. exact (ts_reachable_lemma K_dec behave h). Qed.
Print Assumptions taskset_every_history.

(** Finding: tasks pending when another task raises are lost. *)
Theorem taskset_raise_loses_tasks_refuted :
  exists (behave : list (nat * nat) -> nat -> list (tsact nat nat) * bool) s,
    ts_dict s = [(1, 100); (2, 200)] /\ ts_dict (fst (ts_perform Nat.eq_dec behave s)) = [] /\
    ts_ran (fst (ts_perform Nat.eq_dec behave s)) = [(1, 100)].
Proof.
  exists (fun _ _ => ([], true)), (Ts [(1, 100); (2, 200)] []). vm_compute. auto.
Qed.
Print Assumptions taskset_raise_loses_tasks_refuted.

Definition c32_behave (log : list (nat * nat)) (t : nat) : list (tsact nat nat) * bool :=
  match t with 12 => ([TsAdd 1 50; TsClear 2; TsAdd 7 70], false) | _ => ([], false) end.
Example taskset_c32_case :
  let s := fold_left (ts_act Nat.eq_dec) [TsAdd 1 10; TsAdd 2 20; TsAdd 3 30; TsAdd 1 12; TsClear 3] ts_new in
  reached Nat.eq_dec s [TsAdd 1 10; TsAdd 2 20; TsAdd 3 30; TsAdd 1 12; TsClear 3] /\
  ts_perform Nat.eq_dec c32_behave s = (Ts [(1, 50); (7, 70)] [(1, 12); (2, 20)], None).
Proof.
  split; [|vm_compute; reflexivity].
  change [TsAdd 1 10; TsAdd 2 20; TsAdd 3 30; TsAdd 1 12; TsClear 3]
    with ([] ++ [TsAdd 1 10] ++ [TsAdd 2 20] ++ [TsAdd 3 30] ++ [TsAdd 1 12] ++ [@TsClear nat nat 3]) at 2.
  rewrite !app_assoc. repeat apply reached_act. apply reached_new.
Qed.
