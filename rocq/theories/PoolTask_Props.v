(** Tasks of the thread pool: property C77. *)
From Coq Require Import Arith Bool List Lia.
From Verif Require Import PoolTask_Model PoolTask_Spec PoolTask_Proofs.
Import ListNotations.

(** C77: the function is started at most once, however execute and cancel are called, from any number of threads, also if
    the function cancels its own task *)
Theorem task_started_once l : no_inner_execute l task_make -> count is_started (k_log (run l task_make)) <= 1.
Proof. intros H. apply sound_once. apply run_sound; [exact H|exact sound_make]. Qed.
Print Assumptions task_started_once.
(** the finished function is called at most once, if the function makes no calls *)
Theorem task_finished_once l : outer_calls l task_make -> count is_finished (k_log (run l task_make)) <= 1.
Proof.
  intros H. destruct (run_sound2 l task_make H sound2_make) as [(_ & _ & Hp & _) _].
  - intros l1 e l2 E. destruct l1; discriminate E.
  - intros t. simpl. lia.
  - unfold phase2 in Hp. destruct (owner_stack (run l task_make)) as [|f [|g r]]; [| |]; destruct (k_fn (run l task_make)); try (destruct f); intuition lia.
Qed.
Print Assumptions task_finished_once.
(** when a call of cancel or execute returns, the function is not running and the finished function has been called, once;
    nothing but further returns happens after it, so the function does not start any more *)
Theorem task_returned l l1 e l2 :
  outer_calls l task_make -> k_log (run l task_make) = l1 ++ e :: l2 -> is_return e = true ->
  count is_started l1 = count is_ended l1 /\ count is_finished l1 = 1 /\ (forall e', In e' l2 -> is_return e' = true).
Proof.
  intros H E He. destruct (run_sound2 l task_make H sound2_make) as [(_ & _ & Hp & Hr) Hret].
  - intros l3 e3 l4 E3. destruct l3; discriminate E3.
  - intros t. simpl. lia.
  - assert (H2 := Hret _ _ _ E He).
    destruct Hr as [Hf Hfi]; [apply count_pos with e; [rewrite E; apply in_elt|exact He]|].
    assert (Hse : count is_started (k_log (run l task_make)) = count is_ended (k_log (run l task_make))).
    { unfold phase2 in Hp. destruct (owner_stack (run l task_make)) as [|f [|g r]]; try (destruct f); intuition congruence. }
    assert (Hz : forall f, (forall x, is_return x = true -> f x = false) -> count f (e :: l2) = 0).
    { intros f Hfx. unfold count. assert (filter f (e :: l2) = []) as ->; [|reflexivity].
      assert (Hall : forall x, In x (e :: l2) -> f x = false) by (intros x [<-|Hx]; apply Hfx; auto).
      clear - Hall. induction (e :: l2) as [|x m IH]; [reflexivity|]. simpl. rewrite (Hall x) by (left; reflexivity). apply IH. intros; apply Hall; right; assumption. }
    rewrite E, !count_app in Hse. rewrite E, count_app in Hfi.
    rewrite !Hz in Hse by (intros []; simpl; congruence). rewrite Hz in Hfi by (intros []; simpl; congruence).
    repeat split; [lia|lia|exact H2].
Qed.
Print Assumptions task_returned.

(** two threads: 1 executes, 2 cancels while the function runs *)
Definition ex_actions : list action :=
  [CallExecute 1; Go 1; CallCancel 2; Go 1; Go 2; Go 1; Go 2; Go 1; Go 1; Go 1; Go 2; Go 2; Go 2; CallExecute 3; Go 3; Go 3; Go 3].
Example task_example :
  k_log (run ex_actions task_make) = [Started 1; Ended 1; Finished 1; ExecRet 1; CancelRet 2; ExecRet 3] /\ outer_calls ex_actions task_make.
Proof. vm_compute. repeat split. Qed.
(** cancelled first *)
Example task_cancel_example :
  k_log (run [CallCancel 2; CallExecute 1; Go 2; Go 1; Go 2; Go 2; Go 1; Go 2; Go 1; Go 1; Go 1] task_make) = [Finished 2; CancelRet 2; ExecRet 1].
Proof. reflexivity. Qed.
(** a function that cancels its own task: cancel returns while the function runs, and the finished function is called twice *)
Theorem task_inner_cancel_refuted :
  let l := [CallExecute 1; Go 1; Go 1; CallCancel 1; Go 1; Go 1; Go 1; Go 1; Go 1; Go 1; Go 1; Go 1] in
  no_inner_execute l task_make /\ k_log (run l task_make) = [Started 1; Finished 1; CancelRet 1; Ended 1; Finished 1; ExecRet 1].
Proof. vm_compute. repeat split. Qed.
Print Assumptions task_inner_cancel_refuted.
(** a function that executes its own task starts again *)
Theorem task_inner_execute_refuted :
  count is_started (k_log (run [CallExecute 1; Go 1; Go 1; CallExecute 1; Go 1; Go 1] task_make)) = 2.
Proof. reflexivity. Qed.
Print Assumptions task_inner_execute_refuted.
