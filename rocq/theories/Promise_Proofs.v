From Coq Require Import List Arith Lia.
From Verif Require Import PyBase Promise_Model Promise_Spec.
Import ListNotations.

Section P.
  Context {V : Type} (outcome : nat -> option (option V)) (m : nat) (v : option V).
  Hypothesis Hfr : first_return outcome m v.

  Definition pstate (n : nat) : @promise V :=
    if n <=? m then Pr None true n else Pr v false (S m).

  Lemma p_step_state n a :
    p_step outcome (pstate n) a = (pstate (value_count [a] + n), expected m v n a).
  Proof.
    destruct Hfr as [H1 H2]. unfold pstate, expected.
    destruct a; cbn [value_count Nat.add];
      change (S n <=? m) with (n <? m);
      destruct (Nat.leb_spec n m); destruct (Nat.ltb_spec n m); try lia;
      cbn [p_step p_pending p_calls p_value]; try reflexivity.
    - rewrite H2 by lia. reflexivity.
    - replace n with m by lia. rewrite H1. reflexivity.
  Qed.

  Lemma value_count_cons a h : value_count (a :: h) = value_count [a] + value_count h.
  Proof. destruct a; reflexivity. Qed.

  Lemma p_run_state h n :
    fst (p_run outcome (pstate n) h) = pstate (value_count h + n) /\
    forall h1 a h2, h = h1 ++ a :: h2 ->
      nth_error (snd (p_run outcome (pstate n) h)) (length h1) = Some (expected m v (value_count h1 + n) a).
  Proof.
    revert n. induction h as [|a h IH]; intros n.
    - simpl. split; [reflexivity|]. intros h1 a h2 E. destruct h1; discriminate.
    - cbn [p_run]. rewrite p_step_state. destruct (IH (value_count [a] + n)) as [IH1 IH2].
      destruct (p_run outcome (pstate (value_count [a] + n)) h) as [p2 os] eqn:E. cbn [fst snd] in *.
      split.
      + rewrite IH1. f_equal. rewrite (value_count_cons a h). lia.
      + intros h1 b h2 Eh. destruct h1 as [|a' h1].
        * injection Eh as <- <-. reflexivity.
        * injection Eh as <- ->. cbn [length nth_error]. rewrite (IH2 h1 b h2 eq_refl).
          f_equal. f_equal. rewrite (value_count_cons a h1). lia.
  Qed.
End P.

Lemma promise_outputs_lemma {V} (outcome : nat -> option (option V)) m v h1 a h2 :
  first_return outcome m v ->
  nth_error (snd (p_run outcome p_new (h1 ++ a :: h2))) (length h1) = Some (expected m v (value_count h1) a).
Proof.
  intros H. destruct (p_run_state outcome m v H (h1 ++ a :: h2) 0) as [_ Hr].
  specialize (Hr h1 a h2 eq_refl). unfold pstate in Hr. simpl in Hr. unfold p_new. rewrite Hr. f_equal. f_equal. lia.
Qed.

Lemma promise_calls_lemma {V} (outcome : nat -> option (option V)) m v h :
  first_return outcome m v ->
  p_calls (fst (p_run outcome p_new h)) = Nat.min (value_count h) (S m).
Proof.
  intros H. destruct (p_run_state outcome m v H h 0) as [Hr _]. unfold pstate in Hr at 1. simpl in Hr.
  unfold p_new. rewrite Hr. unfold pstate. destruct (Nat.leb_spec (value_count h + 0) m); simpl; lia.
Qed.

Lemma promise_always_raises_lemma {V} (outcome : nat -> option (option V)) h :
  (forall j, j < value_count h -> outcome j = None) ->
  p_calls (fst (p_run outcome p_new h)) = value_count h /\
  forall h1 a h2, h = h1 ++ a :: h2 ->
    nth_error (snd (p_run outcome p_new h)) (length h1)
      = Some (match a with AValue => OutRaise | AOptValue => OutValue None | AHasValue => OutBool false end).
Proof.
  unfold p_new.
  assert (G : forall h n, (forall j, n <= j -> j < n + value_count h -> outcome j = None) ->
    p_calls (fst (p_run outcome (Pr None true n) h)) = n + value_count h /\
    forall h1 a h2, h = h1 ++ a :: h2 ->
    nth_error (snd (p_run outcome (Pr None true n) h)) (length h1)
      = Some (match a with AValue => OutRaise | AOptValue => OutValue None | AHasValue => OutBool false end)).
  { clear h. induction h as [|a h IH]; intros n Hn.
    - simpl. split; [lia|]. intros h1 a h2 E. destruct h1; discriminate.
    - assert (E : p_step outcome (Pr None true n) a =
        (Pr None true (value_count [a] + n),
         match a with AValue => OutRaise | AOptValue => OutValue None | AHasValue => OutBool false end)).
      { destruct a; simpl; try reflexivity. rewrite Hn; [reflexivity|lia|simpl; lia]. }
      cbn [p_run]. rewrite E.
      destruct (IH (value_count [a] + n)) as [IH1 IH2].
      { intros j H1 H2. apply Hn; [lia|]. rewrite (value_count_cons a h). lia. }
      destruct (p_run outcome (Pr None true (value_count [a] + n)) h) as [p2 os]. cbn [fst snd] in *.
      split; [rewrite IH1, (value_count_cons a h); lia|].
      intros h1 b h2 Eh. destruct h1 as [|a' h1].
      + injection Eh as <- <-. reflexivity.
      + injection Eh as <- ->. cbn [length nth_error]. apply (IH2 h1 b h2 eq_refl). }
  intros H. destruct (G h 0) as [G1 G2]; [intros; apply H; lia|]. split; [exact G1|exact G2].
Qed.
