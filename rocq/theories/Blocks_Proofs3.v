(** The account of a list when handlers change containers too. *)
From Coq Require Import ZArith Bool List Arith Lia.
From Verif Require Import Blocks_Model Blocks_Spec Blocks_Proofs.
Import ListNotations.
Open Scope Z_scope.

Section Account.
  Variable mapped : nat -> bool.
  Notation turn := (turn mapped).
  Notation go_on := (go_on mapped).
  Notation b_step := (b_step mapped).
  Notation b_run := (b_run mapped).
  Notation dues := (dues mapped).
  Notation account := (account mapped).

  (** identities are used once *)
  Definition fresh (s : blk) : Prop :=
    (forall r, In r (b_regs s) -> (r_id r < b_next s)%nat) /\ (forall r m, In (Notify r m) (b_stack s) -> (r_id r < b_next s)%nat).

  Lemma fresh_emit s j m after : fresh s -> (forall r m', ~ In (Notify r m') after) -> fresh (emit j m after s).
  Proof.
    intros [H1 H2] Ha. split; [exact H1|]. unfold emit. cbn [b_stack b_next]. intros r m' Hin.
    apply in_app_or in Hin as [Hin|Hin]; [|apply in_app_or in Hin as [Hin|Hin]; [now apply Ha in Hin|now apply (H2 r m')]].
    apply in_map_iff in Hin as (r' & [= <- <-] & Hin). apply filter_In in Hin as [Hin _]. now apply H1.
  Qed.
  Lemma fresh_turn s j m : fresh s -> fresh (turn j m s).
  Proof.
    intros H. unfold Blocks_Model.turn. destruct (mapped j).
    - destruct m.
      + unfold begin_change. destruct (b_level s j =? 0); [|exact H]. apply fresh_emit; [exact H|]. cbn. intros r m' [E|[]]. discriminate E.
      + unfold end_change. destruct (b_level _ j =? 0); [|exact H]. apply fresh_emit; [exact H|]. intros r m' [].
    - apply fresh_emit; [exact H|]. intros r m' [].
  Qed.
  Lemma fresh_step s a : fresh s -> fresh (b_step s a).
  Proof.
    intros H. destruct a as [j m|j c|]; cbn [Blocks_Model.b_step].
    - now apply fresh_turn.
    - destruct H as [H1 H2]. destruct c as [k|]; split; unfold move; cbn [b_regs b_next b_stack].
      + intros r Hin. apply in_app_or in Hin as [Hin|[<-|[]]]; [|cbn; lia]. apply filter_In in Hin as [Hin _]. specialize (H1 r Hin). lia.
      + intros r m Hin. specialize (H2 r m Hin). lia.
      + intros r Hin. apply filter_In in Hin as [Hin _]. now apply H1.
      + exact H2.
    - unfold Blocks_Model.go_on. destruct (b_stack s) as [|t rest] eqn:Es; [exact H|].
      assert (H' : fresh (Blk (b_regs s) (b_next s) (b_level s) rest (b_out s))).
      { destruct H as [H1 H2]. split; [exact H1|]. intros r m Hin. apply (H2 r m). rewrite Es. now right. }
      destruct t as [r m|j]; [|exact H']. destruct (open r s); [now apply fresh_turn|exact H'].
  Qed.

  Lemma existsb_filter r (f : reg -> bool) l : existsb (reg_eqb r) (filter f l) = existsb (reg_eqb r) l && f r.
  Proof.
    induction l as [|x l IH]; [reflexivity|]. cbn [filter existsb]. destruct (reg_eqb r x) eqn:E.
    - apply reg_eqb_eq in E. subst x. cbn [orb]. destruct (f r) eqn:Ef; cbn [existsb].
      + now rewrite reg_eqb_refl.
      + rewrite IH. apply andb_false_r.
    - cbn [orb]. destruct (f x); cbn [existsb]; rewrite ?E; exact IH.
  Qed.
  Lemma open_move r s j c : (r_id r < b_next s)%nat -> open r (move j c s) = open r s && negb (Nat.eqb (r_who r) j).
  Proof.
    intros H. unfold open, move. destruct c as [k|]; cbn [b_regs]; [|apply existsb_filter].
    rewrite existsb_app, existsb_filter. cbn [existsb]. rewrite orb_false_r.
    replace (reg_eqb r (Reg (b_next s) j k)) with false; [apply orb_false_r|].
    symmetry. unfold reg_eqb. cbn [r_id]. destruct (Nat.eqb_spec (r_id r) (b_next s)); [lia|reflexivity].
  Qed.

  Lemma dues_move s i j c l : (forall r m, In (Notify r m) l -> (r_id r < b_next s)%nat) ->
    dues i (move j c s) l = dues i s l - (if Nat.eqb j i then waiting i (b_regs s) l else 0).
  Proof.
    induction l as [|t l IH]; intros H; cbn [Blocks_Proofs.dues waiting]; [destruct (Nat.eqb j i); lia|].
    rewrite IH by (intros r m Hr; apply (H r m); now right). destruct t as [r m|i']; cbn [due waiting].
    - rewrite (open_move r s j c) by (apply (H r m); now left). unfold open.
      rewrite (Nat.eqb_sym j i).
      destruct (Nat.eqb_spec (r_who r) i) as [E|E]; cbn [andb].
      + subst i. destruct (Nat.eqb_spec (r_who r) j) as [E'|E']; cbn [negb]; destruct (existsb (reg_eqb r) (b_regs s)); cbn; lia.
      + destruct (Nat.eqb i j); lia.
    - destruct (Nat.eqb j i); lia.
  Qed.
  Lemma account_move_any s i j c : fresh s ->
    account i (move j c s) = account i s +
      (if Nat.eqb j i then told_by (container s i) (b_out s) - waiting i (b_regs s) (b_stack s) - told_by c (b_out s) else 0).
  Proof.
    intros [_ Hf]. unfold Blocks_Proofs.account, count. rewrite container_move.
    assert (E1 : b_stack (move j c s) = b_stack s) by now destruct c.
    assert (E2 : b_out (move j c s) = b_out s) by now destruct c.
    assert (E3 : b_level (move j c s) = b_level s) by now destruct c.
    rewrite E1, E2, E3, (dues_move s i j c _ Hf). destruct (Nat.eqb j i); lia.
  Qed.
  Lemma account_run_any h : forall s i, wf s -> incs_mapped mapped s -> fresh s ->
    account i (b_run s h) = account i s + own i h + heard_debt mapped i s h.
  Proof.
    induction h as [|a h IH]; intros s i H Hm Hf; cbn [own heard_debt]; [change (b_run s []) with s; lia|].
    change (b_run s (a :: h)) with (b_run (b_step s a) h).
    rewrite (IH _ _ (step_wf mapped s a H) (step_incs mapped s a Hm) (fresh_step s a Hf)).
    destruct a as [j m|j c|]; cbn [Blocks_Model.b_step].
    - rewrite account_turn by exact H. lia.
    - rewrite account_move_any by exact Hf. destruct (Nat.eqb_spec j i) as [->|]; lia.
    - rewrite account_go_on by assumption. lia.
  Qed.
  Lemma fresh_new : fresh b_new.
  Proof. split; [intros r []|intros r m []]. Qed.
  Lemma count_run_any h i : quiet (b_run b_new h) ->
    count mapped i (b_run b_new h) =
    own i h + heard_debt mapped i b_new h + told_by (container (b_run b_new h) i) (b_out (b_run b_new h)).
  Proof.
    intros Hq. pose proof (account_run_any h b_new i new_wf (new_incs mapped) fresh_new) as E.
    rewrite (account_quiet mapped _ _ Hq) in E.
    assert (E0 : account i b_new = 0) by (unfold Blocks_Proofs.account, count; cbn; destruct (mapped i); lia). lia.
  Qed.
End Account.
