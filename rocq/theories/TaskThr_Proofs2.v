(** Calls that are over do nothing more. *)
From Coq Require Import List Bool Arith Lia.
From Verif Require Import PyBase TaskThr_Model TaskThr_Spec TaskThr_Proofs.
Import ListNotations.


Section Queue.
  Context {T : Type}.
  Definition q_ended (c : nat) (e : qev T) : Prop := e = EExit c \/ exists t, e = ERaise c t.
  Definition q_dead (s : qst T) : Prop := forall c e a b, q_ended c e -> q_log s = a ++ e :: b ->
    takes_of c b = [] /\ nth_error (q_calls s) c = Some QOver.

  Lemma q_dead_log c e l a b e' : q_ended c e -> l ++ [e'] = a ++ e :: b ->
    (b = [] /\ e' = e /\ l = a) \/ exists b', b = b' ++ [e'] /\ l = a ++ e :: b'.
  Proof. intros _. apply snoc_split. Qed.

  Lemma q_dead_step s x : q_dead s -> q_dead (q_step s x).
  Proof.
    destruct s as [q u cs log]. intros D.
    assert (K : forall cs' q' u' e', (forall c, nth_error cs c = Some QOver -> nth_error cs' c = Some QOver) ->
      (forall c, q_ended c e' -> nth_error cs' c = Some QOver) -> (forall c, nth_error cs c = Some QOver -> takes_of c [e'] = []) ->
      q_dead (Qs q' u' cs' (log ++ [e']))).
    { intros cs' q' u' e' H1 H2 H3 c e a b He E. cbn [q_log q_calls s_log s_calls] in *. destruct (snoc_split _ _ _ _ _ E) as [(-> & -> & ->)|(b' & -> & E')].
      - split; auto.
      - destruct (D c e a b' He E') as (A & B). cbn in B. split; [|auto]. rewrite takes_of_app, A. cbn [app]. auto. }
    assert (P : forall c0 st st', nth_error cs c0 = Some st -> st <> QOver -> forall c, nth_error cs c = Some QOver -> nth_error (t_put c0 st' cs) c = Some QOver).
    { intros c0 st st' E N c H. rewrite t_put_other; [assumption|]. intros X. subst. congruence. }
    destruct x as [t|cl|c0|c0 r]; cbn.
    - apply K; auto. intros c [H|(? & H)]; discriminate.
    - apply K; [|intros c [H|(? & H)]; discriminate|auto]. intros c H. rewrite nth_error_app1; auto. apply nth_error_Some. congruence.
    - destruct (nth_error cs c0) as [[cl n|cl n|t n|]|] eqn:E0; try assumption.
      + assert (X : q_dead (Qs q u (t_put c0 QOver cs) (log ++ [EExit c0]))).
        { apply K; [eapply P; eauto; discriminate| |auto]. intros c [H|(? & H)]; [|discriminate]. injection H as ->. now rewrite (t_put_same _ _ _ _ E0). }
        destruct q as [|t q]; [exact X|]. destruct n as [|n]; [exact X|].
        intros c e a b He E. destruct (D c e a b He E) as (A & B). split; [assumption|]. eapply P; eauto. discriminate.
      + destruct q as [|t q].
        * intros c e a b He E. destruct (D c e a b He E) as (A & B). split; [assumption|]. eapply P; eauto. discriminate.
        * assert (Y : forall c, nth_error cs c = Some QOver -> takes_of c [ETake c0 cl t] = []).
          { intros c H. cbn. destruct (c0 =? c) eqn:N; auto. apply Nat.eqb_eq in N. subst. congruence. }
          destruct cl; apply K; auto; try (eapply P; eauto; discriminate); intros c [H|(? & H)]; discriminate.
    - destruct (nth_error cs c0) as [[cl n|cl n|t n|]|] eqn:E0; try assumption.
      destruct r; apply K; auto; try (eapply P; eauto; discriminate).
      + intros c [H|(t' & H)]; [discriminate|]. injection H as -> ->. now rewrite (t_put_same _ _ _ _ E0).
      + intros c [H|(? & H)]; discriminate.
  Qed.
  Lemma q_dead_run acts : q_dead (q_run acts).
  Proof.
    unfold q_run. assert (D : q_dead (@q_new T)) by (intros c e a b _ E; destruct a; discriminate).
    revert D. generalize (@q_new T). induction acts as [|x acts IH]; intros s D; [assumption|]. cbn [fold_left]. apply IH. now apply q_dead_step.
  Qed.
End Queue.

Section Set_.
  Context {K T : Type} (eqk : K -> K -> bool).
  Definition s_dead (s : sst K T) : Prop := forall c e a b, (e = VExit c \/ e = VRaise c) -> s_log s = a ++ e :: b ->
    starts_of c b = [] /\ nth_error (s_calls s) c = Some SOver.
  Lemma s_dead_step s x : s_dead s -> s_dead (s_step eqk s x).
  Proof.
    destruct s as [d cs log]. intros D.
    assert (Kp : forall cs' d' e', (forall c, nth_error cs c = Some SOver -> nth_error cs' c = Some SOver) ->
      (forall c, (e' = VExit c \/ e' = VRaise c) -> nth_error cs' c = Some SOver) -> (forall c, nth_error cs c = Some SOver -> starts_of c [e'] = []) ->
      s_dead (Ss d' cs' (log ++ [e']))).
    { intros cs' d' e' H1 H2 H3 c e a b He E. cbn [q_log q_calls s_log s_calls] in *. destruct (snoc_split _ _ _ _ _ E) as [(-> & -> & ->)|(b' & -> & E')].
      - split; auto.
      - destruct (D c e a b' He E') as (A & B). cbn in B. split; [|auto]. rewrite starts_of_app, A. cbn [app]. auto. }
    assert (P : forall c0 st st', nth_error cs c0 = Some st -> st <> SOver -> forall c, nth_error cs c = Some SOver -> nth_error (t_put c0 st' cs) c = Some SOver).
    { intros c0 st st' E N c H. rewrite t_put_other; [assumption|]. intros X. subst. congruence. }
    destruct x as [k t|k| |c0|c0 r]; cbn.
    - apply Kp; auto. intros c [H|H]; discriminate.
    - apply Kp; auto. intros c [H|H]; discriminate.
    - apply Kp; [|intros c [H|H]; discriminate|auto]. intros c H. rewrite nth_error_app1; auto. apply nth_error_Some. congruence.
    - destruct (nth_error cs c0) as [[[|p l]|p l|]|] eqn:E0; try assumption.
      + apply Kp; [eapply P; eauto; discriminate| |auto]. intros c [H|H]; [|discriminate]. injection H as ->. now rewrite (t_put_same _ _ _ _ E0).
      + apply Kp; [eapply P; eauto; discriminate|intros c [H|H]; discriminate|].
        intros c H. cbn. destruct (c0 =? c) eqn:N; auto. apply Nat.eqb_eq in N. subst. congruence.
    - destruct (nth_error cs c0) as [[l|p l|]|] eqn:E0; try assumption. destruct r.
      + apply Kp; [eapply P; eauto; discriminate| |auto]. intros c [H|H]; [discriminate|]. injection H as ->. now rewrite (t_put_same _ _ _ _ E0).
      + intros c e a b He E. destruct (D c e a b He E) as (A & B). split; [assumption|]. eapply P; eauto. discriminate.
  Qed.
  Lemma s_dead_run acts : s_dead (s_run eqk acts).
  Proof.
    unfold s_run. assert (D : s_dead (@s_new K T)) by (intros c e a b _ E; destruct a; discriminate).
    revert D. generalize (@s_new K T). induction acts as [|x acts IH]; intros s D; [assumption|]. cbn [fold_left]. apply IH. now apply s_dead_step.
  Qed.
End Set_.
