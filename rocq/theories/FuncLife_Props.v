(** The life of function stream value models: the theorems. *)
From Coq Require Import List ZArith Arith Bool Lia.
From Verif Require Import PyBase PropModel_Model FuncLife_Model FuncLife_Spec FuncLife_Proofs.
Import ListNotations.

(** functions are numbers here; the model is closed while its first function runs *)
Definition ex_life : list (lop nat nat) := [LLoop 0; LFire (Some 7); LClose; LFire (Some 8)].
Definition ex_late : list (lop nat nat) := ex_life ++ [LThread 0 (Some (Some 5)); LLoop 0].
Definition ex_new : life nat nat := life_new None (Some 6).

Section Theorems.
  Context {V F : Type} (cmp : V -> V -> bool).

  (** The count is the number of evaluations that have not come to their end, those that raised included; the stream is
      referred to until close. *)
  Theorem funclife_count : forall l initial f, let s : life V F := lrun cmp l (life_new initial f) in
    l_count s = Z.of_nat (count unfinished (l_evals s)) /\ l_refs s = (if l_open s then 1 else 0).
  Proof. intros l i f s. destruct (linv_run cmp l i f). auto. Qed.

  (** _run_until_complete returns once every evaluation has come to its end; otherwise it raises if the model was closed, and goes on if not. *)
  Theorem funclife_drain : forall l initial f, let s : life V F := lrun cmp l (life_new initial f) in
    (drain_step s = DReturn <-> forall p, In p (l_evals s) -> p = Ended) /\
    (drain_step s = DError <-> l_open s = false /\ exists p, In p (l_evals s) /\ p <> Ended).
  Proof.
    intros l i f s. destruct (linv_run cmp l i f) as [C _]. fold s in C. unfold drain_step. rewrite C.
    assert (U : forall p : phase V F, unfinished p = false <-> p = Ended) by (intros []; cbn; split; congruence).
    destruct (count unfinished (l_evals s)) as [|n] eqn:E.
    - rewrite count_zero in E. cbn. split; split; try discriminate; auto.
      + intros _ p H. apply U. auto.
      + intros (_ & p & H & N). destruct N. apply U. auto.
    - assert (P : exists p, In p (l_evals s) /\ p <> Ended).
      { unfold count in E. destruct (filter unfinished (l_evals s)) as [|p ps] eqn:G; [discriminate|]. exists p.
        assert (K : In p (filter unfinished (l_evals s))) by (rewrite G; now left). apply filter_In in K as (K & N). split; auto. intros ->. discriminate. }
      replace (0 <? Z.of_nat (S n))%Z with true by (symmetry; apply Z.ltb_lt; lia). split.
      + split; [destruct (l_open s); discriminate|]. intros H. destruct P as (p & P & N). destruct N. auto.
      + destruct (l_open s); split; try discriminate; auto. intros (H & _). discriminate.
  Qed.

  (** Once an evaluation has raised, _run_until_complete never returns. *)
  Theorem funclife_stuck : forall l l' initial f, In Raised (l_evals (lrun cmp l (life_new initial f) : life V F)) ->
    drain_step (lrun cmp (l ++ l') (life_new initial f) : life V F) <> DReturn.
  Proof.
    intros l l' i f H D. apply In_nth_error in H as (j & H). apply funclife_drain with (p := Raised) in D; [discriminate|].
    unfold lrun. rewrite fold_left_app. apply nth_error_In with j. change (nth_error (l_evals (lrun cmp l' (lrun cmp l (life_new i f)))) j = Some Raised).
    revert H. generalize (lrun cmp l (life_new i f)). intros s H. apply (lrun_ind cmp (fun s => nth_error (l_evals s) j = Some Raised)); auto. intros. now apply raised_step.
  Qed.

  (** If the stream has no function when the model is made, _run_until_complete never returns, whatever the stream fires later. *)
  Theorem funclife_no_function : forall l initial, drain_step (lrun cmp l (life_new initial None) : life V F) <> DReturn.
  Proof.
    intros l i D. assert (H : none_phase (nth_error (l_evals (lrun cmp l (life_new i None) : life V F)) 0)).
    { apply (lrun_ind cmp (fun s => none_phase (nth_error (l_evals s) 0))); [intros; now apply none_step|exact I]. }
    destruct (nth_error (l_evals (lrun cmp l (life_new i None) : life V F)) 0) as [p|] eqn:E; [|exact H].
    apply nth_error_In in E. assert (P : p = Ended) by (eapply funclife_drain; eauto). subst p. exact H.
  Qed.

  (** After close nothing new is evaluated and on_value_changed is not called; but each evaluation still going on that ends
      well sets the value and tells listeners, once or twice. *)
  Theorem funclife_after_close : forall l l' initial f, let s : life V F := lrun cmp l (life_new initial f) in
    l_open s = true -> forallb leaves_alone l' = true ->
    let s0 := fst (lstep cmp s LClose) in let s1 := lrun cmp l' s0 in let ended p := negb (unfinished p) in
    length (l_evals s1) = length (l_evals s) /\ calls (l_model s1) = calls (l_model s) /\
    exists e, count ended (l_evals s1) = count ended (l_evals s) + e /\ e + count pending (l_evals s1) <= count pending (l_evals s) /\
      notifications (l_model s) + e <= notifications (l_model s1) <= notifications (l_model s) + 2 * e /\
      (e = 0 -> p_value (l_model s1) = p_value (l_model s)).
  Proof.
    intros l l' i f s O G s0 s1 e0. destruct (closed_since_run cmp l' s O G) as [A B C D E E' H J K L]. fold s0 in A, B, C, D, E, E', H, J, K, L. fold s1 in A, B, C, D, E, E', H, J, K, L.
    assert (X : l_evals s0 = l_evals s /\ calls (l_model s0) = calls (l_model s) /\ notifications (l_model s0) = notifications (l_model s) /\ p_value (l_model s0) = p_value (l_model s)).
    { unfold s0. cbn [lstep]. rewrite O. auto. }
    destruct X as (X1 & X2 & X3 & X4). rewrite X1, ?X2, ?X3 in *.
    assert (Y : forall q, count e0 q = count (@ended V F) q). { intros q. unfold count. f_equal. apply filter_ext. intros []; reflexivity. }
    rewrite !Y. repeat split; auto.
    exists (count ended (l_evals s1) - count ended (l_evals s)). repeat split; try lia.
    intros Z. rewrite L, X4; auto. lia.
  Qed.

  (** When no evaluation is going on any more, a closed model stays as it is. *)
  Theorem funclife_settled : forall l (s : life V F), l_open s = false -> (forall p, In p (l_evals s) -> pending p = false) ->
    forallb leaves_alone l = true -> lrun cmp l s = s.
  Proof.
    intros l s O P. apply count_zero in P. induction l as [|o l IH]; intros G; auto. cbn [forallb] in G. apply andb_true_iff in G as (G & G').
    unfold lrun in *. cbn [fold_left]. rewrite settled_step by auto. auto.
  Qed.
End Theorems.
Print Assumptions funclife_count.
Print Assumptions funclife_drain.
Print Assumptions funclife_stuck.
Print Assumptions funclife_no_function.
Print Assumptions funclife_after_close.
Print Assumptions funclife_settled.
Example funclife_count_ex : l_count (lrun Nat.eqb ex_late ex_new) = 1%Z /\ l_refs (lrun Nat.eqb ex_late ex_new) = 0.
Proof. split; reflexivity. Qed.
Example funclife_drain_ex : drain_step (lrun Nat.eqb [LLoop 0] ex_new) = DGoOn /\ drain_step (lrun Nat.eqb ex_late ex_new) = DError /\
  drain_step (lrun Nat.eqb (ex_late ++ [LLoop 1; LThread 1 (Some (Some 5)); LLoop 1]) ex_new) = DReturn.
Proof. repeat split; reflexivity. Qed.
Example funclife_stuck_ex : l_evals (lrun Nat.eqb [LLoop 0; LThread 0 None; LLoop 0] ex_new) = [Raised].
Proof. reflexivity. Qed.
Example funclife_no_function_ex :
  l_evals (lrun Nat.eqb [LFire (Some 1); LLoop 0; LLoop 1; LThread 0 (Some (Some 3)); LThread 1 (Some (Some 3)); LLoop 0; LLoop 1] (life_new None None : life nat nat)) = [Raised; Ended].
Proof. reflexivity. Qed.
Example funclife_after_close_ex : p_log (l_model (lrun Nat.eqb ex_life ex_new)) = [] /\ p_log (l_model (lrun Nat.eqb ex_late ex_new)) = [Notified; Notified].
Proof. split; reflexivity. Qed.
Example funclife_settled_ex : l_evals (lrun Nat.eqb (ex_late ++ [LLoop 1; LThread 1 None; LLoop 1; LFire (Some 4)]) ex_new) = [Ended; Raised].
Proof. reflexivity. Qed.

(** The value of a closed model changes, and listeners are told. *)
Theorem funclife_closed_refuted :
  ~ (forall l l' : list (lop nat nat), let s := lrun Nat.eqb l ex_new in l_open s = false -> forallb leaves_alone l' = true ->
     p_value (l_model (lrun Nat.eqb l' s)) = p_value (l_model s)).
Proof. intros H. specialize (H ex_life [LThread 0 (Some (Some 5)); LLoop 0] eq_refl eq_refl). discriminate. Qed.
Print Assumptions funclife_closed_refuted.
Example funclife_closed_ex : p_value (l_model (lrun Nat.eqb ex_late ex_new)) = Some 5.
Proof. reflexivity. Qed.
