(** Property C98: task queues and task sets used by threads. *)
From Coq Require Import List Bool Arith Lia Permutation.
From Verif Require Import PyBase TaskThr_Model TaskThr_Spec TaskThr_Proofs TaskThr_Proofs2.
Import ListNotations.

Section Queue.
  Context {T : Type}.
  Implicit Types (acts : list (qact T)).

  (** every task is taken once at most, in the order put *)
  Theorem taskthr_queue_order acts : let s := q_run acts in puts (q_log s) = takes (q_log s) ++ q_queue s.
  Proof. apply (qinv_run acts). Qed.

  (** the counter of unfinished tasks never counts down one that raised *)
  Theorem taskthr_queue_unfinished acts : let s := q_run acts in
    q_unfinished s + settled (q_log s) = length (puts (q_log s)) /\ length (q_queue s) + raised (q_log s) <= q_unfinished s.
  Proof. intros s. pose proof (qinv_run acts) as I. fold s in I. split; [apply I|]. rewrite (qi_open s I). lia. Qed.

  (** when a call has returned, all tasks put before it have been taken *)
  Theorem taskthr_queue_exit acts c a b l : q_log (q_run acts) = a ++ ECall c :: b ++ EExit c :: l ->
    exists rest, takes (a ++ b) = puts a ++ rest.
  Proof.
    intros E. pose proof (qinv_run acts) as I. pose proof (qi_exit _ I _ _ _ _ E) as L.
    change (ECall c :: b ++ EExit c :: l) with ((ECall c :: b) ++ EExit c :: l) in E. rewrite app_assoc in E.
    destruct (qi_prefix _ I _ _ E) as (r & P). rewrite puts_app, !takes_app in P. cbn in P. rewrite <- takes_app in P.
    eapply prefix_prefix; eauto.
  Qed.

  (** a call takes no more tasks than were in the queue when it was made *)
  Theorem taskthr_queue_bound acts c a b : q_log (q_run acts) = a ++ ECall c :: b ->
    length (takes_of c (q_log (q_run acts))) + length (takes a) <= length (puts a).
  Proof.
    intros E. pose proof (qinv_run acts) as I.
    assert (X : c < length (q_calls (q_run acts))) by (apply (qi_calls _ I); rewrite E; apply in_or_app; right; now left).
    apply nth_error_Some in X. destruct (nth_error (q_calls (q_run acts)) c) as [st|] eqn:Hc; [|contradiction].
    pose proof (qi_ok _ I c st Hc a b E) as H. destruct st; lia.
  Qed.

  (** a call during which a task has raised, or that has returned, takes no more *)
  Theorem taskthr_queue_over acts c e a b : q_log (q_run acts) = a ++ e :: b -> e = EExit c \/ (exists t, e = ERaise c t) ->
    takes_of c b = [].
  Proof. intros E He. exact (proj1 (q_dead_run acts c e a b He E)). Qed.
End Queue.
Print Assumptions taskthr_queue_order.
Print Assumptions taskthr_queue_unfinished.
Print Assumptions taskthr_queue_exit.
Print Assumptions taskthr_queue_bound.
Print Assumptions taskthr_queue_over.

(** two threads perform tasks 1, 2, 3; the second returns while the first still runs task 1 *)
Definition tt_acts : list (qact nat) :=
  [QPut 1; QPut 2; QCall false; QGo 0; QGo 0; QPut 3; QCall false; QGo 1; QGo 1; QEnd 1 false; QPut 4; QGo 1; QGo 1; QEnd 1 false; QGo 1].
Example taskthr_queue_ex : let s := q_run tt_acts in
  q_log s = [EPut 1; EPut 2; ECall 0; ETake 0 false 1; EPut 3; ECall 1; ETake 1 false 2; EReturn 1 2; EPut 4; ETake 1 false 3; EReturn 1 3; EExit 1] /\
  q_queue s = [4] /\ q_unfinished s = 2 /\ q_calls s = [QTask 1 2; QOver].
Proof. vm_compute. auto. Qed.
(** a call that raises leaves the rest in the queue and the counter above it for ever; another one clears *)
Example taskthr_queue_raise_ex : let s := q_run [QPut 1; QPut 2; QCall false; QGo 0; QGo 0; QEnd 0 true; QCall true; QGo 1; QGo 1; QGo 1] in
  q_queue s = [] /\ q_unfinished s = 1 /\ q_calls s = [QOver; QOver].
Proof. vm_compute. auto. Qed.
Theorem taskthr_queue_running_refuted : exists acts : list (qact nat), exists a b, q_log (q_run acts) = a ++ ECall 1 :: b ++ [EExit 1] /\
  In (EPut 1) a /\ ~ In (EReturn 0 1) (a ++ b) /\ ~ In (ERaise 0 1) (a ++ b).
Proof.
  exists tt_acts, [EPut 1; EPut 2; ECall 0; ETake 0 false 1; EPut 3], [ETake 1 false 2; EReturn 1 2; EPut 4; ETake 1 false 3; EReturn 1 3].
  vm_compute. intuition discriminate.
Qed.
Print Assumptions taskthr_queue_running_refuted.

Section Set_.
  Context {K T : Type} (eqk : K -> K -> bool) (eqk_spec : forall x y, eqk x y = true <-> x = y).
  Implicit Types (acts : list (sact K T)).

  (** the set holds what was added last for each key since then neither cleared nor handed to a call *)
  Theorem taskthr_set_pending acts k t : let s := s_run eqk acts in In (k, t) (s_dict s) <-> pending (s_log s) k t.
  Proof. apply (sinv_run eqk eqk_spec acts). Qed.

  (** a call starts only tasks that were pending when it was made, each key once *)
  Theorem taskthr_set_starts acts c a b : let s := s_run eqk acts in s_log s = a ++ VCall c :: b ->
    NoDup (map fst (starts_of c (s_log s))) /\ forall k t, In (k, t) (starts_of c (s_log s)) -> pending a k t.
  Proof.
    intros s E. pose proof (sinv_run eqk eqk_spec acts) as I. fold s in I.
    assert (X : c < length (s_calls s)) by (apply (si_calls _ I); rewrite E; apply in_or_app; right; now left).
    apply nth_error_Some in X. destruct (nth_error (s_calls s) c) as [st|] eqn:Hc; [|contradiction].
    destruct (si_ok _ I c st Hc a b E) as (D & r & N & HD & ED & _). split.
    - rewrite ED, map_app in N. clear - N. induction (map fst (starts_of c (s_log s))) as [|x l IH]; [constructor|].
      cbn in N. inversion N as [|? ? N1 N2]; subst. constructor; [|auto]. intros H. apply N1. apply in_or_app. auto.
    - intros k t H. apply HD. rewrite ED. apply in_or_app. auto.
  Qed.

  (** ... and when it has returned, all of them *)
  Theorem taskthr_set_exit acts c a b l : s_log (s_run eqk acts) = a ++ VCall c :: b ++ VExit c :: l ->
    forall k t, pending a k t -> In (k, t) (starts_of c (a ++ b)).
  Proof. apply (sinv_run eqk eqk_spec acts). Qed.

  (** no task is started twice *)
  Theorem taskthr_set_once acts : let s := s_run eqk acts in NoDup (added (s_log s)) -> NoDup (started (s_log s)).
  Proof.
    intros s N. destruct (si_once _ (sinv_run eqk eqk_spec acts)) as (lost & P). fold s in P. apply (Permutation_NoDup P) in N.
    clear - N. induction (started (s_log s)) as [|x l IH]; [constructor|].
    cbn in N. inversion N as [|? ? N1 N2]; subst. constructor; [|auto]. intros H. apply N1. apply in_or_app. auto.
  Qed.

  (** a call during which a task has raised starts none of the rest, which are lost *)
  Theorem taskthr_set_over acts c e a b : s_log (s_run eqk acts) = a ++ e :: b -> e = VExit c \/ e = VRaise c ->
    starts_of c b = [].
  Proof. intros E He. exact (proj1 (s_dead_run eqk acts c e a b He E)). Qed.
End Set_.
Print Assumptions taskthr_set_pending.
Print Assumptions taskthr_set_starts.
Print Assumptions taskthr_set_exit.
Print Assumptions taskthr_set_once.
Print Assumptions taskthr_set_over.
(** a raising task: the call is over, and the task of key 2 is neither started nor pending *)
Example taskthr_set_raise_ex : let s := s_run Nat.eqb [SAdd 1 10; SAdd 2 20; SCall; SGo 0; SEnd 0 true; SGo 0; SGo 0] in
  s_log s = [VAdd 1 10; VAdd 2 20; VCall 0; VStart 0 1 10; VRaise 0] /\ s_dict s = [].
Proof. vm_compute. auto. Qed.

(** one thread takes tasks 11 of key 1 and 20 of key 2; before it comes to the second, key 2 is given task 21 and another
    thread runs that *)
Definition ts_acts : list (sact nat nat) :=
  [SAdd 1 10; SAdd 2 20; SAdd 1 11; SCall; SGo 0; SAdd 2 21; SAdd 3 30; SClear 3; SCall; SGo 1; SEnd 1 false; SGo 1; SEnd 0 false; SGo 0; SEnd 0 false; SGo 0; SAdd 1 12].
Example taskthr_set_ex : let s := s_run Nat.eqb ts_acts in
  s_log s = [VAdd 1 10; VAdd 2 20; VAdd 1 11; VCall 0; VStart 0 1 11; VAdd 2 21; VAdd 3 30; VClear 3; VCall 1; VStart 1 2 21; VExit 1; VStart 0 2 20; VExit 0; VAdd 1 12] /\
  s_dict s = [(1, 12)].
Proof. vm_compute. auto. Qed.
(** so the older task of a key can be started after the newer one *)
Theorem taskthr_set_order_refuted : exists (acts : list (sact nat nat)) k t t' a b c a' b' d,
  let s := s_run Nat.eqb acts in
  s_log s = a ++ VAdd k t :: b ++ VAdd k t' :: c /\ s_log s = a' ++ VStart 1 k t' :: b' ++ VStart 0 k t :: d.
Proof.
  exists ts_acts, 2, 20, 21.
  exists [VAdd 1 10], [VAdd 1 11; VCall 0; VStart 0 1 11], [VAdd 3 30; VClear 3; VCall 1; VStart 1 2 21; VExit 1; VStart 0 2 20; VExit 0; VAdd 1 12].
  exists [VAdd 1 10; VAdd 2 20; VAdd 1 11; VCall 0; VStart 0 1 11; VAdd 2 21; VAdd 3 30; VClear 3; VCall 1], [VExit 1], [VExit 0; VAdd 1 12].
  vm_compute. auto.
Qed.
Print Assumptions taskthr_set_order_refuted.
