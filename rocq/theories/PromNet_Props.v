(** Property C97: promises whose functions use other promises, read by several threads. *)
From Coq Require Import List Bool Arith Lia.
From Verif Require Import PyBase PromNet_Model PromNet_Spec PromNet_Proofs.
Import ListNotations.

Section Props.
  Context {V : Type} (fns : nat -> prog V).
  Notation evals := (evals fns).
  Notation p_step := (p_step fns).
  Notation p_run := (p_run fns).

  (** whatever the schedule, values and results are those of evaluation by a single thread *)
  Theorem promnet_values clients sched : let s := p_run (p_init clients) sched in
    (forall j v, vals s j = Some v -> exists n, evals (fns j) (Ok v) n) /\
    (forall t th r, nth_error (thr s) t = Some th -> done th r -> exists c n, nth_error clients t = Some c /\ evals c r n).
  Proof.
    intros s. destruct (sok_run fns clients sched _ (sok_init fns clients)) as [Hv Ht]. split; [exact Hv|].
    intros t th r Hth [F C]. destruct (forall2_nth_r _ _ _ _ _ Ht Hth) as (c & Hc & (R & _)). rewrite C in R.
    destruct (R r 0 (ev_ret _ _)) as (n & Hn). eauto.
  Qed.

  (** the value of a promise never changes *)
  Theorem promnet_kept clients sched1 sched2 j v :
    vals (p_run (p_init clients) sched1) j = Some v -> vals (p_run (p_run (p_init clients) sched1) sched2) j = Some v.
  Proof.
    pose proof (sok_run fns clients sched1 _ (sok_init fns clients)) as H. revert H. generalize (p_run (p_init clients) sched1).
    induction sched2 as [|t sched2 IH]; intros s H E; cbn; [exact E|]. destruct (p_step s t) as [s'|] eqn:St; [|now apply IH].
    apply IH; [eapply sok_step; eauto|eapply vals_step; eauto].
  Qed.

  (** no two threads are inside the function of a promise *)
  Theorem promnet_exclusive clients sched t t' th th' j c c' : let s := p_run (p_init clients) sched in
    nth_error (thr s) t = Some th -> nth_error (thr s) t' = Some th' -> In (j, c) (frames th) -> In (j, c') (frames th') -> t = t'.
  Proof.
    intros s H H' J J'. eapply (exclusive_run fns sched _ (exclusive_init clients)); eauto; apply holds_in; eauto.
  Qed.

  (** if the code of each thread terminates when run alone, no deadlock arises *)
  Theorem promnet_no_deadlock clients sched : Forall (terminates fns) clients ->
    let s := p_run (p_init clients) sched in finished s \/ exists t, p_step s t <> None.
  Proof.
    intros H s. pose proof (slow_run fns clients sched _ (slow_init fns clients H)) as Hs. fold s in Hs.
    assert (D : forall ths, (forall th, In th ths -> In th (thr s)) -> (forall th, In th ths -> exists r, done th r) \/ exists t, p_step s t <> None).
    { induction ths as [|th ths IH]; intros I; [left; intros ? []|].
      destruct IH as [IH|IH]; [intros; apply I; now right| |now right].
      pose proof (I th (or_introl eq_refl)) as Hth. apply In_nth_error in Hth as [t Hth].
      destruct (cur th) as [r|j k] eqn:C.
      - destruct (frames th) as [|f fs] eqn:F.
        + left. intros th' [<-|H']; [|auto]. exists r. split; [exact F|]. unfold cur in C. now rewrite F in C.
        + right. exists t. eapply can_step_ret; eauto. congruence.
      - right. destruct (proj2 Hs th (nth_error_In _ _ Hth)) as [_ (N & HN)]. destruct (left_cur _ _ _ HN) as (r & n & E).
        rewrite C in E. inversion E as [|? ? x n' ? m A B]; subst. eapply (can_step_read fns clients s Hs (S n')); eauto. }
    destruct (D (thr s)) as [D1|D1]; auto.
  Qed.

  (** ... all schedules together take no more steps than the threads alone, without sharing *)
  Theorem promnet_steps clients costs sched : Forall2 (fun c n => exists r, evals c r n) clients costs ->
    steps fns (p_init clients) sched <= list_sum costs.
  Proof.
    intros H. eapply (steps_bound fns clients).
    - apply slow_init. clear - H. induction H as [|c n l l' (r & E) H IH]; constructor; auto. exists r, n. exact E.
    - cbn. clear - H. induction H as [|c n l l' (r & E) H IH]; cbn; constructor; auto. cbn. eauto.
  Qed.

  (** ... so trying the threads in turn finishes *)
  Lemma steps_app s a b : steps fns s (a ++ b) = steps fns s a + steps fns (p_run s a) b.
  Proof. revert s. induction a as [|t a IH]; intros s; cbn; [reflexivity|]. destruct (p_step s t); rewrite IH; reflexivity. Qed.
  Lemma p_run_app s a b : p_run s (a ++ b) = p_run (p_run s a) b.
  Proof. revert s. induction a as [|t a IH]; intros s; cbn; [reflexivity|apply IH]. Qed.
  Lemma steps_none s sched : steps fns s sched = 0 -> forall t, In t sched -> p_step s t = None.
  Proof.
    induction sched as [|t sched IH]; intros E t' H; [destruct H|]. cbn in E. destruct (p_step s t) eqn:S1; [discriminate|].
    destruct H as [<-|H]; auto.
  Qed.
  Lemma finished_run s sched : finished s -> p_run s sched = s.
  Proof.
    intros H. induction sched as [|t sched IH]; cbn; [reflexivity|]. replace (p_step s t) with (@None (pstate V)); [exact IH|].
    unfold PromNet_Model.p_step. destruct (nth_error (thr s) t) as [th|] eqn:E; [|reflexivity].
    destruct (H th (nth_error_In _ _ E)) as (r & F & C). unfold cur. now rewrite F, C.
  Qed.
  Theorem promnet_turns clients costs : Forall2 (fun c n => exists r, evals c r n) clients costs ->
    finished (p_run (p_init clients) (concat (repeat (seq 0 (length clients)) (S (list_sum costs))))).
  Proof.
    intros H. assert (T : Forall (terminates fns) clients).
    { clear - H. induction H as [|c n l l' (r & E) H IH]; constructor; auto. exists r, n. exact E. }
    set (round := seq 0 (length clients)).
    assert (D : forall R, finished (p_run (p_init clients) (concat (repeat round R))) \/ R <= steps fns (p_init clients) (concat (repeat round R))).
    { induction R as [|R IH]; [right; lia|].
      replace (repeat round (S R)) with (repeat round R ++ [round]) by (symmetry; apply repeat_cons).
      rewrite concat_app, p_run_app, steps_app. cbn [concat]. rewrite app_nil_r. destruct IH as [IH|IH]; [left; now rewrite finished_run|].
      set (s := p_run (p_init clients) (concat (repeat round R))) in *.
      destruct (Nat.eq_dec (steps fns s round) 0) as [Z|Z]; [|right; lia].
      destruct (promnet_no_deadlock clients (concat (repeat round R)) T) as [F|(t & St)]; [left; fold s in F; now rewrite finished_run|].
      exfalso. apply St. fold s. apply (steps_none s round Z). apply in_seq.
      destruct (nth_error (thr s) t) as [th|] eqn:E; [|exfalso; apply St; unfold PromNet_Model.p_step; fold s; now rewrite E].
      assert (L : length (thr s) = length clients).
      { destruct (sok_run fns clients (concat (repeat round R)) _ (sok_init fns clients)) as [_ F2]. fold s in F2. clear - F2. induction F2; cbn; auto. }
      assert (t < length (thr s)) by (apply nth_error_Some; congruence). lia. }
    destruct (D (S (list_sum costs))) as [X|X]; [exact X|]. pose proof (promnet_steps clients costs (concat (repeat round (S (list_sum costs)))) H). lia.
  Qed.

  (** ... and a function that returns is called once at most, and once if its promise has a value *)
  Theorem promnet_once clients sched j v n : Forall (terminates fns) clients -> evals (fns j) (Ok v) n ->
    let s := p_run (p_init clients) sched in
    count_occ Nat.eq_dec (log s) j <= 1 /\ (vals s j <> None -> count_occ Nat.eq_dec (log s) j = 1).
  Proof.
    intros H E s. assert (G : slow fns clients s /\ once j s).
    { unfold s. assert (G0 : slow fns clients (p_init clients) /\ once j (p_init clients)).
      { split; [now apply slow_init|]. split; cbn; [lia|]. split; [intros []|]. intros [X|(th & Hth & J)]; [cbn in X; congruence|].
        apply In_nth_error in Hth as [t Hth]. apply init_frames in Hth as [F _]. unfold holds in J. rewrite F in J. discriminate. }
      clear s. revert G0. generalize (p_init clients). induction sched as [|t sched IH]; intros s0 [G1 G2]; cbn; [auto|]. apply IH.
      destruct (p_step s0 t) eqn:St; [|auto]. split; [eapply slow_step; eauto|eapply once_step; eauto]. }
    destruct G as [_ [G1 G2]]. split; [exact G1|]. intros X. apply (or_introl (B := exists th, In th (thr s) /\ holds j th = true)) in X.
    apply G2 in X. apply (count_occ_In Nat.eq_dec) in X. lia.
  Qed.
End Props.
Print Assumptions promnet_values.
Print Assumptions promnet_kept.
Print Assumptions promnet_exclusive.
Print Assumptions promnet_no_deadlock.
Print Assumptions promnet_steps.
Print Assumptions promnet_turns.
Print Assumptions promnet_once.

(** ** examples: promise 0 is 5, 1 raises, 2 adds promise 0 and what is left of 1, 3 doubles promise 2 *)
Definition pn_fns (j : nat) : prog nat :=
  match j with
  | 0 => Ret (Ok 5)
  | 1 => Ret (Err ValueError)
  | 2 => Read 0 (fun a => Read 1 (fun b => Ret (match a, b with Ok x, Ok y => Ok (x + y) | Ok x, Err _ => Ok (x + 1) | Err e, _ => Err e end)))
  | 3 => Read 2 (fun a => Ret (match a with Ok x => Ok (x + x) | Err e => Err e end))
  | 4 => Read 5 Ret
  | 5 => Read 4 Ret
  | _ => Read j Ret
  end.
Definition pn_clients : list (prog nat) := [Read 3 Ret; Read 2 (fun a => Read 1 (fun b => Ret b)); Read 0 Ret].
Definition pn_show (s : pstate nat) := (map (vals s) (seq 0 4), map (fun th => (map fst (frames th), client th)) (thr s), log s).
(** after these steps thread 0 is inside 3 and 2 and waits for 0, which thread 2 is inside of; thread 1 waits for 2 *)
Example promnet_values_ex1 : pn_show (p_run pn_fns (p_init pn_clients) [0; 0; 1; 2; 0; 1]) =
  ([None; None; None; None], [([2; 3], Read 3 Ret); ([], nth 1 pn_clients (Ret (Ok 0))); ([0], Read 0 Ret)], [0; 2; 3]).
Proof. vm_compute. reflexivity. Qed.
Example promnet_values_ex2 : pn_show (p_run pn_fns (p_init pn_clients) (concat (repeat [0; 1; 2] 12))) =
  ([Some 5; None; Some 6; Some 12], [([], Ret (Ok 12)); ([], Ret (Err ValueError)); ([], Ret (Ok 5))], [1; 1; 0; 2; 3]).
Proof. vm_compute. reflexivity. Qed.
Example promnet_costs_ex : Forall2 (fun c n => exists r, evals pn_fns c r n) pn_clients [8; 8; 2].
Proof.
  assert (E2 : evals pn_fns (pn_fns 2) (Ok 6) 4) by (apply (ev_read _ 0 _ (Ok 5) 0 _ 2); [constructor|apply (ev_read _ 1 _ (Err ValueError) 0 _ 0); constructor]).
  repeat constructor; eexists.
  - apply (ev_read _ 3 _ (Ok 12) 6 _ 0); [|constructor]. apply (ev_read _ 2 _ (Ok 6) 4 _ 0); [exact E2|constructor].
  - apply (ev_read _ 2 _ (Ok 6) 4 _ 2); [exact E2|]. apply (ev_read _ 1 _ (Err ValueError) 0 _ 0); constructor.
  - apply (ev_read _ 0 _ (Ok 5) 0 _ 0); constructor.
Qed.

(** two promises that use each other: two threads wait for each other for ever, one alone goes on for ever *)
Theorem promnet_deadlock_refuted : exists sched, let s := p_run pn_fns (p_init [Read 4 Ret; Read 5 Ret]) sched in
  (forall t, p_step pn_fns s t = None) /\ forall th, In th (thr s) -> frames th <> [].
Proof.
  exists [0; 1]. cbn zeta. split.
  - intros [|[|[|t]]]; reflexivity.
  - intros th [<-|[<-|[]]]; discriminate.
Qed.
Print Assumptions promnet_deadlock_refuted.
Theorem promnet_recursion_refuted : forall n,
  exists th, thr (p_run pn_fns (p_init [Read 6 Ret]) (repeat 0 n)) = [th] /\ length (frames th) = n /\ cur th = Read 6 Ret.
Proof.
  assert (G : forall n k vs lg, vs = (fun _ => None) ->
    exists th, thr (p_run pn_fns (Ps vs [Th (repeat (6, Read 6 Ret) k) (Read 6 Ret)] lg) (repeat 0 n)) = [th] /\ length (frames th) = n + k /\ cur th = Read 6 Ret).
  { induction n as [|n IH]; intros k vs lg ->; cbn [repeat p_run].
    - eexists. cbn. split; [reflexivity|]. split; [apply repeat_length|]. destruct k; reflexivity.
    - replace (p_step pn_fns _ 0) with (Some (Ps (fun _ => None) [Th (repeat (6, Read 6 (@Ret nat)) (S k)) (Read 6 Ret)] (6 :: lg))).
      + destruct (IH (S k) (fun _ => None) (6 :: lg) eq_refl) as (th & E1 & E2 & E3). exists th. rewrite E1. repeat split; auto. lia.
      + destruct k; reflexivity. }
  intros n. destruct (G n 0 (fun _ => None) [] eq_refl) as (th & E1 & E2 & E3). exists th. rewrite Nat.add_0_r in E2. auto.
Qed.
Print Assumptions promnet_recursion_refuted.
