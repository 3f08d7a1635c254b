(** Lemmas about the life of function stream value models. *)
From Coq Require Import List ZArith Arith Bool Lia.
From Verif Require Import PyBase PropModel_Model FuncLife_Model FuncLife_Spec.
Import ListNotations.

Section FuncLife.
  Context {V F : Type} (cmp : V -> V -> bool).
  Notation life := (life V F). Notation lop := (lop V F). Notation phase := (phase V F).
  Definition b2n (b : bool) : nat := if b then 1 else 0.
  Lemma count_snoc {A} (f : A -> bool) l x : count f (l ++ [x]) = count f l + b2n (f x).
  Proof. unfold count. rewrite filter_app, app_length. cbn. now destruct (f x). Qed.
  Lemma count_cons {A} (f : A -> bool) l x : count f (x :: l) = b2n (f x) + count f l.
  Proof. unfold count. cbn. now destruct (f x). Qed.
  Lemma count_put f k (x y : phase) l : nth_error l k = Some y -> count f (l_put k x l) + b2n (f y) = count f l + b2n (f x).
  Proof.
    revert k. induction l as [|z l IH]; intros [|k] H; cbn in H; try discriminate; cbn [l_put]; rewrite !count_cons.
    - injection H as ->. lia.
    - specialize (IH _ H). lia.
  Qed.
  Lemma l_put_length k (x : phase) l : length (l_put k x l) = length l.
  Proof. revert k. induction l as [|z l IH]; intros [|k]; cbn; auto. Qed.
  Lemma count_in {A} (f : A -> bool) l x : In x l -> f x = true -> 0 < count f l.
  Proof. intros H E. unfold count. destruct (filter f l) eqn:G; [|cbn; lia]. assert (In x (filter f l)) by (apply filter_In; auto). rewrite G in *. contradiction. Qed.
  Lemma count_zero {A} (f : A -> bool) l : count f l = 0 <-> forall x, In x l -> f x = false.
  Proof.
    split.
    - intros H x K. destruct (f x) eqn:E; auto. pose proof (count_in f l x K E). lia.
    - intros H. unfold count. induction l as [|x l IH]; auto. cbn. rewrite (H x) by now left. apply IH. intros y K. apply H. now right.
  Qed.

  Record linv (s : life) : Prop := {
    li_count : l_count s = Z.of_nat (count unfinished (l_evals s));
    li_refs : l_refs s = if l_open s then 1 else 0 }.
  Ltac put E f := let C := fresh in match type of E with nth_error ?l ?k = Some ?y =>
    match goal with |- context [l_put k ?x l] => pose proof (count_put f k x y l E) as C; cbn [b2n unfinished pending] in C end end.
  Lemma linv_step s o : linv s -> linv (fst (lstep cmp s o)).
  Proof.
    intros [C R]. destruct o as [f|k|k r|v| |]; cbn [lstep].
    - destruct (l_open s) eqn:O; constructor; cbn [fst handle l_count l_evals l_refs l_open]; auto; try (now rewrite O). rewrite count_snoc. cbn [unfinished b2n]. lia.
    - destruct (nth_error (l_evals s) k) as [[f|f|[v|]| |]|] eqn:E; constructor; cbn [fst resume l_count l_evals l_refs l_open]; auto; put E (@unfinished V F); lia.
    - destruct (nth_error (l_evals s) k) as [[f|[f|]|d| |]|] eqn:E; constructor; cbn [fst l_count l_evals l_refs l_open]; auto; put E (@unfinished V F); lia.
    - constructor; auto.
    - constructor; auto.
    - destruct (l_open s) eqn:O; constructor; cbn; auto; rewrite ?R, ?O; reflexivity.
  Qed.
  Lemma linv_new i f : linv (life_new i f).
  Proof. constructor; reflexivity. Qed.
  Lemma lrun_ind (P : life -> Prop) : (forall s o, P s -> P (fst (lstep cmp s o))) -> forall l s, P s -> P (lrun cmp l s).
  Proof. intros H l. induction l as [|o l IH]; intros s K; [exact K|]. apply (IH (fst (lstep cmp s o))). auto. Qed.
  Lemma lrun_ind_good (P : life -> Prop) : (forall s o, leaves_alone o = true -> P s -> P (fst (lstep cmp s o))) ->
    forall l s, forallb leaves_alone l = true -> P s -> P (lrun cmp l s).
  Proof. intros H l. induction l as [|o l IH]; intros s G K; [exact K|]. cbn [forallb] in G. apply andb_true_iff in G as (G & G'). apply (IH (fst (lstep cmp s o))); auto. Qed.
  Lemma linv_run l i f : linv (lrun cmp l (life_new i f)).
  Proof. apply lrun_ind; [apply linv_step|apply linv_new]. Qed.

  (** an evaluation that failed stays so *)
  Lemma put_get k (x y z : phase) l j : nth_error l k = Some y -> nth_error l j = Some z -> y <> z -> nth_error (l_put k x l) j = Some z.
  Proof. revert k j. induction l as [|w l IH]; intros [|k] [|j] H K N; cbn in *; try congruence; eauto. Qed.
  Lemma raised_step j (s : life) o : nth_error (l_evals s) j = Some Raised -> nth_error (l_evals (fst (lstep cmp s o))) j = Some Raised.
  Proof.
    intros H. destruct o as [f|k|k r|v| |]; cbn [lstep]; auto.
    - destruct (l_open s); cbn; auto. rewrite nth_error_app1; auto. apply nth_error_Some. congruence.
    - destruct (nth_error (l_evals s) k) as [[f|f|[v|]| |]|] eqn:E; cbn; auto; eapply put_get; eauto; discriminate.
    - destruct (nth_error (l_evals s) k) as [[f|[f|]|d| |]|] eqn:E; cbn; auto; eapply put_get; eauto; discriminate.
    - destruct (l_open s); auto.
  Qed.
  (** an evaluation of None never ends well *)
  Definition none_phase (p : option phase) : Prop :=
    match p with Some (Waiting None) | Some (Running None) | Some (Done None) | Some Raised => True | _ => False end.
  Lemma none_step j (s : life) o : none_phase (nth_error (l_evals s) j) -> none_phase (nth_error (l_evals (fst (lstep cmp s o))) j).
  Proof.
    assert (PS : forall k (x y : phase) l, nth_error l k = Some y -> nth_error (l_put k x l) k = Some x).
    { intros k x y l. revert k. induction l as [|w l IH]; intros [|k] H; cbn in *; try discriminate; eauto. }
    assert (PO : forall k i (x : phase) l, k <> i -> nth_error (l_put k x l) i = nth_error l i).
    { intros k i x l. revert k i. induction l as [|w l IH]; intros [|k] [|i] H; cbn in *; try congruence; auto. }
    intros H. destruct o as [f|k|k r|v| |]; cbn [lstep]; auto.
    - destruct (l_open s); cbn; auto. rewrite nth_error_app1; auto. apply nth_error_Some. intros E. rewrite E in H. exact H.
    - destruct (nth_error (l_evals s) k) as [[f|f|[v|]| |]|] eqn:E; cbn; auto;
        (destruct (Nat.eq_dec k j) as [->|N]; [|now rewrite PO]); rewrite (PS _ _ _ _ E); rewrite E in H; destruct f || idtac; cbn in *; auto; contradiction.
    - destruct (nth_error (l_evals s) k) as [[f|[f|]|d| |]|] eqn:E; cbn; auto;
        (destruct (Nat.eq_dec k j) as [->|N]; [|now rewrite PO]); rewrite (PS _ _ _ _ E); rewrite E in H; cbn in *; auto; contradiction.
    - destruct (l_open s); auto.
  Qed.

  (** after close *)
  Definition ended (p : phase) : bool := match p with Ended => true | _ => false end.
  Record closed_since (s0 s : life) : Prop := {
    cs_open : l_open s = false;
    cs_cb : p_callback (l_model s) = false;
    cs_len : length (l_evals s) = length (l_evals s0);
    cs_calls : calls (l_model s) = calls (l_model s0);
    cs_pend : count pending (l_evals s) <= count pending (l_evals s0);
    cs_end : count ended (l_evals s0) <= count ended (l_evals s);
    cs_le : count ended (l_evals s) + count pending (l_evals s) <= count ended (l_evals s0) + count pending (l_evals s0);
    cs_lo : count ended (l_evals s) + notifications (l_model s0) <= count ended (l_evals s0) + notifications (l_model s);
    cs_hi : notifications (l_model s) + 2 * count ended (l_evals s0) <= notifications (l_model s0) + 2 * count ended (l_evals s);
    cs_same : count ended (l_evals s) = count ended (l_evals s0) -> l_model s = l_model s0 }.
  Lemma closed_since_step s0 s o : leaves_alone o = true -> closed_since s0 s -> closed_since s0 (fst (lstep cmp s o)).
  Proof.
    intros G [O CB LE CA PE EN LL LO HI SA]. destruct o as [f|k|k r|v| |]; cbn [lstep]; cbn in G; try discriminate.
    - rewrite O. constructor; auto.
    - destruct (nth_error (l_evals s) k) as [[f|f|[v|]| |]|] eqn:E; try (constructor; assumption).
      + pose proof (count_put pending _ (Running f) _ _ E) as H1. pose proof (count_put ended _ (Running f) _ _ E) as H2. cbn [b2n pending ended] in *.
        constructor; cbn [fst l_open l_model l_evals]; rewrite ?l_put_length; auto; try lia. intros H. apply SA. lia.
      + pose proof (count_put pending _ Ended _ _ E) as H1. pose proof (count_put ended _ Ended _ _ E) as H2. cbn [b2n pending ended] in *.
        assert (X : calls (l_model (resume cmp v s (l_put k Ended (l_evals s)))) = calls (l_model s) /\
                    (notifications (l_model (resume cmp v s (l_put k Ended (l_evals s)))) = S (notifications (l_model s)) \/
                     notifications (l_model (resume cmp v s (l_put k Ended (l_evals s)))) = S (S (notifications (l_model s))))).
        { unfold resume, set_value. cbn [l_model p_log p_value p_callback]. destruct (not_equal cmp _ _); cbn [p_log p_callback]; rewrite ?CB; unfold calls, notifications; cbn [p_log].
          - rewrite !count_cons. cbn. auto.
          - rewrite !count_cons. cbn. auto. }
        destruct X as (X1 & X2).
        constructor; cbn [fst l_open l_evals resume]; rewrite ?l_put_length; auto; try lia.
        * unfold resume, set_value. cbn [l_model p_callback]. destruct (not_equal cmp (p_value (l_model s)) v); cbn [p_callback]; auto.
      + pose proof (count_put pending _ Raised _ _ E) as H1. pose proof (count_put ended _ Raised _ _ E) as H2. cbn [b2n pending ended] in *.
        constructor; cbn [fst l_open l_model l_evals]; rewrite ?l_put_length; auto; try lia. intros H. apply SA. lia.
    - destruct (nth_error (l_evals s) k) as [[f|[f|]|d| |]|] eqn:E; try (constructor; assumption).
      + pose proof (count_put pending _ (Done r) _ _ E) as H1. pose proof (count_put ended _ (Done r) _ _ E) as H2. cbn [b2n pending ended] in *.
        constructor; cbn [fst l_open l_model l_evals]; rewrite ?l_put_length; auto; try lia. intros H. apply SA. lia.
      + pose proof (count_put pending _ (Done None) _ _ E) as H1. pose proof (count_put ended _ (Done None) _ _ E) as H2. cbn [b2n pending ended] in *.
        constructor; cbn [fst l_open l_model l_evals]; rewrite ?l_put_length; auto; try lia. intros H. apply SA. lia.
    - rewrite O. constructor; auto.
  Qed.
  Lemma closed_since_run l (s : life) : l_open s = true -> forallb leaves_alone l = true ->
    let s0 := fst (lstep cmp s LClose) in closed_since s0 (lrun cmp l s0).
  Proof.
    intros O G s0. apply lrun_ind_good; auto; [apply closed_since_step|].
    unfold s0. cbn [lstep]. rewrite O. constructor; cbn; auto; lia.
  Qed.
  Lemma settled_step (s : life) o : l_open s = false -> count pending (l_evals s) = 0 -> leaves_alone o = true -> fst (lstep cmp s o) = s.
  Proof.
    intros O P G. rewrite count_zero in P. destruct o as [f|k|k r|v| |]; cbn [lstep]; cbn in G; try discriminate; rewrite ?O; auto.
    - destruct (nth_error (l_evals s) k) as [[f|f|[v|]| |]|] eqn:E; auto; apply nth_error_In, P in E; discriminate.
    - destruct (nth_error (l_evals s) k) as [[f|[f|]|d| |]|] eqn:E; auto; apply nth_error_In, P in E; discriminate.
  Qed.
End FuncLife.
