(** Proofs for Pool_Props: the tasks. *)
From Coq Require Import Arith Bool List Lia Setoid.
From Verif Require Import Pool_Model Pool_Spec.
Import ListNotations.

Ltac expose := unfold at_pc, add_log, set_lock, clear_fn, put, took, done, set_tasks, set_closed, add_thread, bump in *;
  cbn [p_closed p_queue p_unfinished p_threads p_tasks p_next p_fn p_lock p_pc p_log] in *.

Lemma upd_same {X} (f : nat -> X) t x : upd f t x t = x.
Proof. unfold upd. rewrite Nat.eqb_refl. reflexivity. Qed.
Lemma upd_other {X} (f : nat -> X) t x u : u <> t -> upd f t x u = f u.
Proof. intros H. unfold upd. destruct (Nat.eqb_spec u t); [contradiction|reflexivity]. Qed.
Lemma count_app f l l' : count f (l ++ l') = count f l + count f l'.
Proof. unfold count. rewrite filter_app, app_length. reflexivity. Qed.
Lemma count_one f e : count f [e] = if f e then 1 else 0.
Proof. unfold count. simpl. destruct (f e); reflexivity. Qed.
Lemma count_pos f l e : In e l -> f e = true -> 0 < count f l.
Proof.
  intros Hin Hf. unfold count. assert (H : In e (filter f l)) by (apply filter_In; auto). destruct (filter f l); [destruct H|simpl; lia].
Qed.
Lemma count_zero f l : (forall e, In e l -> f e = false) -> count f l = 0.
Proof.
  intros H. unfold count. induction l as [|e l IH]; [reflexivity|]. simpl. rewrite (H e) by (left; reflexivity). apply IH. intros; apply H; right; assumption.
Qed.

(** the task whose lock the thread holds; the tasks it knows *)
Definition held (c : pc) : option nat :=
  match c with
  | EIn _ i | Running _ i | Clearing _ i | EFin _ i | EOut _ i | CIn i _ | CFin i _ | COut i _ => Some i
  | _ => None
  end.
Definition refs (c : pc) : list nat :=
  match c with
  | Got _ (Some i) | EWait _ i | EIn _ i | Running _ i | Clearing _ i | EFin _ i | EOut _ i => [i]
  | Closing l => l
  | CWait i l | CIn i l | CFin i l | COut i l => i :: l
  | _ => []
  end.
Definition phase (c : option pc) (fn : bool) (st en rm : nat) : Prop :=
  match c with
  | Some (Running _ _) => fn = true /\ st = 1 /\ en = 0 /\ rm = 0
  | Some (Clearing _ _) => fn = true /\ st = 1 /\ en = 1 /\ rm = 0
  | Some (EFin _ _) => fn = false /\ st = 1 /\ en = 1 /\ rm = 0
  | Some (CFin _ _) => fn = false /\ st = 0 /\ en = 0 /\ rm = 0
  | Some (EOut _ _) | Some (COut _ _) => fn = false /\ st = en /\ st <= 1 /\ rm = 1
  | _ => st = en /\ st <= 1 /\ (fn = true -> st = 0 /\ rm = 0) /\ (fn = false -> rm = 1)
  end.
Definition phase_of (s : pool) (i : nat) : Prop :=
  phase (option_map (p_pc s) (p_lock s i)) (p_fn s i) (count (is_started i) (p_log s)) (count (is_ended i) (p_log s)) (count (is_removed i) (p_log s)).

Definition locked (s : pool) : Prop := forall t i, held (p_pc s t) = Some i <-> p_lock s i = Some t.
Definition known (s : pool) : Prop := forall t i, In i (refs (p_pc s t)) -> i < p_next s.
Definition listed (s : pool) : Prop :=
  (forall i, i < p_next s -> count_occ Nat.eq_dec (p_tasks s) i + count (is_removed i) (p_log s) = 1) /\
  (forall i, p_next s <= i -> p_fn s i = true /\ count_occ Nat.eq_dec (p_tasks s) i = 0).
Definition no_fail (s : pool) : Prop := forall i, ~ In (RemoveFailed i) (p_log s).
Definition fifo (s : pool) : Prop := taken (p_log s) ++ waiting (p_queue s) = seq 0 (p_next s).

(** a thread that changes its position without taking or giving a lock *)
Lemma locked_pc s t c : locked s -> held c = held (p_pc s t) -> locked (at_pc t c s).
Proof.
  intros H Hc u i. expose. unfold upd. destruct (Nat.eqb_spec u t) as [->|]; [rewrite Hc|]; apply H.
Qed.
Lemma locked_take s t i c : locked s -> held (p_pc s t) = None -> held c = Some i -> p_lock s i = None -> locked (at_pc t c (set_lock i (Some t) s)).
Proof.
  intros H H0 Hc Hi u j. red in H. expose. unfold upd. destruct (Nat.eqb_spec u t) as [->|Hu], (Nat.eqb_spec j i) as [->|Hj].
  - rewrite Hc. tauto.
  - rewrite Hc. rewrite <- H, H0. split; congruence.
  - rewrite H, Hi. split; congruence.
  - apply H.
Qed.
Lemma locked_give s t i c : locked s -> held (p_pc s t) = Some i -> held c = None -> locked (at_pc t c (set_lock i None s)).
Proof.
  intros H H0 Hc u j. red in H. expose. unfold upd. destruct (Nat.eqb_spec u t) as [->|Hu], (Nat.eqb_spec j i) as [->|Hj].
  - rewrite Hc. split; discriminate.
  - rewrite Hc, <- H, H0. split; congruence.
  - rewrite H. apply H in H0. rewrite H0. split; congruence.
  - apply H.
Qed.
(** [locked] looks at the positions and locks only *)
Lemma locked_ext s s' : p_pc s' = p_pc s -> p_lock s' = p_lock s -> locked s -> locked s'.
Proof. intros H1 H2 H t i. rewrite H1, H2. apply H. Qed.
Lemma remove_task_frame i s :
  p_pc (remove_task i s) = p_pc s /\ p_lock (remove_task i s) = p_lock s /\ p_fn (remove_task i s) = p_fn s /\ p_queue (remove_task i s) = p_queue s /\
  p_next (remove_task i s) = p_next s /\ p_closed (remove_task i s) = p_closed s /\ p_threads (remove_task i s) = p_threads s /\ p_unfinished (remove_task i s) = p_unfinished s.
Proof. unfold remove_task. destruct (remove_first i (p_tasks s)); repeat split. Qed.

Lemma step_locked s a : locked s -> locked (step s a).
Proof.
  intros H. destruct a as [|t|t|t|t|t]; cbn [step]; unfold if_idle.
  - unfold queue_fn. destruct (p_closed s); revert H; apply locked_ext; reflexivity.
  - destruct (p_pc s t) eqn:E; try exact H. eapply locked_ext; [| |apply (locked_pc s t (AtGet Worker) H)]; try reflexivity. rewrite E. reflexivity.
  - destruct (p_pc s t) eqn:E; try exact H. apply locked_pc; [exact H|rewrite E; reflexivity].
  - destruct (p_pc s t) eqn:E; try exact H. apply locked_pc; [exact H|rewrite E; reflexivity].
  - destruct (p_pc s t) eqn:E; try exact H. eapply locked_ext; [| |apply (locked_pc s t (Closing (p_tasks s)) H)]; try reflexivity. rewrite E. reflexivity.
  - destruct (go t s) as [s'|] eqn:Eg; [|exact H]. unfold go in Eg.
    assert (Hpc : forall c s0, p_pc s0 = p_pc s -> p_lock s0 = p_lock s -> held c = held (p_pc s t) -> locked (at_pc t c s0)).
    { intros c s0 H1 H2 Hc. apply locked_pc; [revert H; apply locked_ext; assumption|rewrite H1; exact Hc]. }
    destruct (p_pc s t) as [| |m|m|m x|m i|m i|m i|m i|m i|m i|m x|l|i l|i l|i l|i l|[|n]|] eqn:E; try discriminate; unfold lock_free in Eg;
      repeat match type of Eg with
             | (match ?x with _ => _ end) = Some _ => destruct x eqn:?; try discriminate Eg
             | Some (if ?x then _ else _) = Some _ => destruct x eqn:?
             end; injection Eg as <-;
      try (apply Hpc; try reflexivity; rewrite ?E; repeat match goal with |- context [match ?x with _ => _ end] => destruct x end; reflexivity);
      try (eapply locked_ext; [| |apply (Hpc _ s); try reflexivity; rewrite ?E; try reflexivity]; reflexivity);
      try (apply locked_take; [exact H|rewrite E; reflexivity|reflexivity|destruct (p_lock s i); [discriminate|reflexivity]]);
      try (apply locked_give; [exact H|rewrite E; reflexivity|reflexivity]).
    + apply Hpc; [apply remove_task_frame|apply remove_task_frame|reflexivity].
    + apply Hpc; [reflexivity|reflexivity|]. destruct m, x; reflexivity.
    + apply Hpc; [apply remove_task_frame|apply remove_task_frame|reflexivity].
Qed.

Lemma remove_first_some i l : In i l -> exists l', remove_first i l = Some l'.
Proof.
  induction l as [|j l IH]; simpl; [tauto|]. destruct (Nat.eqb_spec j i); [eauto|]. intros [?|H]; [congruence|]. destruct (IH H) as [l' ->]. eauto.
Qed.
Lemma remove_first_count i l l' j :
  remove_first i l = Some l' -> count_occ Nat.eq_dec l j = count_occ Nat.eq_dec l' j + (if Nat.eqb j i then 1 else 0).
Proof.
  revert l'. induction l as [|k l IH]; simpl; [discriminate|]. intros l'. destruct (Nat.eqb_spec k i) as [->|Hk].
  - intros [= <-]. destruct (Nat.eq_dec i j) as [->|]; [rewrite Nat.eqb_refl; lia|]. destruct (Nat.eqb_spec j i); [congruence|lia].
  - destruct (remove_first i l) as [r|]; [|discriminate]. intros [= <-]. simpl. rewrite (IH r eq_refl). destruct (Nat.eq_dec k j); lia.
Qed.
Definition base (s : pool) : Prop := locked s /\ known s /\ listed s /\ (forall i, phase_of s i) /\ no_fail s /\ fifo s.

Lemma fin_removes s t i :
  base s -> held (p_pc s t) = Some i -> (match p_pc s t with EFin _ _ | CFin _ _ => True | _ => False end) ->
  In i (p_tasks s) /\ i < p_next s.
Proof.
  intros (HL & HK & [H1 H2] & HP & _) Hh Hf.
  assert (Hi : i < p_next s). { apply (HK t). destruct (p_pc s t); try tauto; simpl in *; injection Hh as ->; left; reflexivity. }
  split; [|exact Hi]. specialize (H1 i Hi). assert (Hl : p_lock s i = Some t) by (apply HL; exact Hh).
  specialize (HP i). unfold phase_of in HP. rewrite Hl in HP. cbn [option_map] in HP.
  apply (count_occ_In Nat.eq_dec). destruct (p_pc s t); try tauto; cbn [phase] in HP; lia.
Qed.

(** what a step of a thread leaves alone *)
Lemma go_frame t s s' : go t s = Some s' ->
  exists c, p_pc s' = upd (p_pc s) t c /\ p_next s' = p_next s /\ p_threads s' = p_threads s /\ p_closed s' = p_closed s /\
    (forall k, In k (refs c) -> In k (refs (p_pc s t)) \/ In k (waiting (p_queue s))) /\
    (in_close c = true -> in_close (p_pc s t) = true).
Proof.
  assert (HR : forall c i s0, p_pc s0 = p_pc s -> p_next s0 = p_next s -> p_threads s0 = p_threads s -> p_closed s0 = p_closed s ->
    p_pc (at_pc t c (remove_task i s0)) = upd (p_pc s) t c /\ p_next (at_pc t c (remove_task i s0)) = p_next s /\
    p_threads (at_pc t c (remove_task i s0)) = p_threads s /\ p_closed (at_pc t c (remove_task i s0)) = p_closed s).
  { intros c i s0 <- <- <- <-. unfold remove_task. destruct (remove_first i (p_tasks s0)); repeat split. }
  unfold go. intros Eg.
  destruct (p_pc s t) as [| |m|m|m x|m i|m i|m i|m i|m i|m i|m x|l|i l|i l|i l|i l|[|n]|] eqn:E; try discriminate Eg.
  - injection Eg as <-. eexists. repeat split; destruct (p_queue s); simpl; auto.
  - destruct (p_queue s) as [|[i|] q]; [discriminate| |]; injection Eg as <-; eexists; repeat split; simpl; auto; intros k [<-|[]]; auto.
  - injection Eg as <-. eexists. repeat split; destruct x; [destruct (p_closed s)| |destruct (p_closed s)|]; simpl; auto; tauto.
  - destruct (lock_free i s); [|discriminate]. injection Eg as <-. eexists. repeat split; simpl; auto.
  - destruct (p_fn s i); injection Eg as <-; eexists; repeat split; simpl; auto.
  - injection Eg as <-; eexists; repeat split; simpl; auto.
  - injection Eg as <-; eexists; repeat split; simpl; auto.
  - injection Eg as <-. exists (EOut m i). destruct (HR (EOut m i) i s) as (-> & -> & -> & ->); auto. repeat split; simpl; auto.
  - injection Eg as <-; eexists; repeat split; simpl; auto; tauto.
  - injection Eg as <-; eexists; repeat split; destruct m, x; simpl; auto; tauto.
  - injection Eg as <-; eexists; repeat split; destruct l; simpl; auto; tauto.
  - destruct (lock_free i s); [|discriminate]. injection Eg as <-. eexists. repeat split; simpl; auto.
  - destruct (p_fn s i); injection Eg as <-; eexists; repeat split; simpl; auto.
  - injection Eg as <-. exists (COut i l). destruct (HR (COut i l) i s) as (-> & -> & -> & ->); auto. repeat split; simpl; auto.
  - injection Eg as <-; eexists; repeat split; simpl; auto; tauto.
  - injection Eg as <-; eexists; repeat split; simpl; auto; tauto.
  - injection Eg as <-; eexists; repeat split; simpl; auto; tauto.
  - assert (Eg' : Some (add_log (CloseRet t) (at_pc t Idle s)) = Some s') by (destruct (p_threads s), (p_unfinished s); try discriminate Eg; exact Eg).
    injection Eg' as <-; eexists; repeat split; simpl; auto; tauto.
Qed.
Lemma step_known s a : fifo s -> listed s -> known s -> known (step s a).
Proof.
  intros HF [_ HT] H.
  assert (Hpc : forall t c s0, p_pc s0 = upd (p_pc s) t c -> p_next s <= p_next s0 -> (forall i, In i (refs c) -> i < p_next s) -> known s0).
  { intros t c s0 E1 E2 Hc u i. rewrite E1. unfold upd. destruct (Nat.eqb u t); [intros Hi; specialize (Hc i Hi); lia|]. intros Hi. specialize (H u i Hi). lia. }
  assert (Hq : forall i, In i (waiting (p_queue s)) -> i < p_next s).
  { intros i Hi. assert (In i (seq 0 (p_next s))) by (rewrite <- HF; apply in_or_app; auto). apply in_seq in H0. lia. }
  assert (Ht : forall i, In i (p_tasks s) -> i < p_next s).
  { intros i Hi. destruct (Nat.lt_ge_cases i (p_next s)) as [|Hge]; [assumption|]. destruct (HT i Hge) as [_ Hc]. apply (count_occ_In Nat.eq_dec) in Hi. lia. }
  destruct a as [|t|t|t|t|t]; cbn [step]; unfold if_idle.
  - unfold queue_fn. destruct (p_closed s); [exact H|]. intros t i Hi. specialize (H t i Hi). expose. lia.
  - destruct (p_pc s t); try exact H. apply (Hpc t (AtGet Worker)); auto. intros i [].
  - destruct (p_pc s t); try exact H. apply (Hpc t (AtEmpty RunAll)); auto. intros i [].
  - destruct (p_pc s t); try exact H. apply (Hpc t (AtEmpty RunOne)); auto. intros i [].
  - destruct (p_pc s t); try exact H. apply (Hpc t (Closing (p_tasks s))); auto.
  - destruct (go t s) as [s'|] eqn:Eg; [|exact H]. destruct (go_frame _ _ _ Eg) as (c & E1 & E2 & _ & _ & E3 & _).
    apply (Hpc t c); [exact E1|lia|]. intros i Hi. destruct (E3 i Hi) as [Hi'|Hi']; [exact (H t i Hi')|auto].
Qed.
Lemma taken_app l l' : taken (l ++ l') = taken l ++ taken l'.
Proof. apply flat_map_app. Qed.
Lemma waiting_app l l' : waiting (l ++ l') = waiting l ++ waiting l'.
Proof. apply flat_map_app. Qed.
Lemma fifo_same s s' : fifo s -> taken (p_log s') = taken (p_log s) -> waiting (p_queue s') = waiting (p_queue s) -> p_next s' = p_next s -> fifo s'.
Proof. unfold fifo. intros H -> -> ->. exact H. Qed.
Lemma step_fifo s a : fifo s -> fifo (step s a).
Proof.
  intros H. destruct a as [|t|t|t|t|t]; cbn [step]; unfold if_idle.
  - unfold queue_fn. destruct (p_closed s).
    + apply (fifo_same s); auto. expose. rewrite taken_app. apply app_nil_r.
    + unfold fifo in *. expose. rewrite taken_app, waiting_app, seq_S. cbn [taken flat_map waiting app]. rewrite app_nil_r, app_assoc, H. reflexivity.
  - destruct (p_pc s t); auto.
  - destruct (p_pc s t); auto.
  - destruct (p_pc s t); auto.
  - destruct (p_pc s t); auto. apply (fifo_same s); auto. expose. rewrite taken_app. apply app_nil_r.
  - destruct (go t s) as [s'|] eqn:Eg; [|exact H]. unfold go in Eg.
    assert (HR : forall c i, fifo (at_pc t c (remove_task i s))).
    { intros c i. unfold remove_task. destruct (remove_first i (p_tasks s)); apply (fifo_same s); auto; expose; rewrite taken_app; apply app_nil_r. }
    destruct (p_pc s t) as [| |m|m|m x|m i|m i|m i|m i|m i|m i|m x|l|i l|i l|i l|i l|[|n]|] eqn:E; try discriminate Eg;
      try (injection Eg as <-; first [exact H|apply HR|apply (fifo_same s); auto; expose; rewrite ?taken_app, ?waiting_app; apply app_nil_r]).
    + destruct (p_queue s) as [|[i|] q] eqn:Eq; [discriminate| |]; injection Eg as <-.
      * unfold fifo in *. expose. rewrite taken_app. rewrite Eq in H. cbn [taken flat_map waiting app] in *. rewrite <- app_assoc. exact H.
      * apply (fifo_same s); auto. expose. rewrite Eq. reflexivity.
    + destruct (lock_free i s); [|discriminate]. injection Eg as <-. exact H.
    + destruct (p_fn s i); injection Eg as <-; [|exact H]. apply (fifo_same s); auto. expose. rewrite taken_app. apply app_nil_r.
    + destruct (lock_free i s); [|discriminate]. injection Eg as <-. exact H.
    + destruct (p_fn s i); injection Eg as <-; exact H.
    + assert (Eg' : Some (add_log (CloseRet t) (at_pc t Idle s)) = Some s') by (destruct (p_threads s), (p_unfinished s); try discriminate Eg; exact Eg).
      injection Eg' as <-. apply (fifo_same s); auto. expose. rewrite taken_app. apply app_nil_r.
Qed.

Definition about (j : nat) (e : event) : bool := is_started j e || is_ended j e || is_removed j e.
Definition adds (j : nat) (l l' : list event) : Prop := l' = l \/ exists e, l' = l ++ [e] /\ about j e = false.
Lemma adds_count j l l' : adds j l l' ->
  count (is_started j) l' = count (is_started j) l /\ count (is_ended j) l' = count (is_ended j) l /\ count (is_removed j) l' = count (is_removed j) l.
Proof.
  intros [->|(e & -> & He)]; [auto|]. unfold about in He. rewrite !orb_false_iff in He. destruct He as [[H1 H2] H3].
  rewrite !count_app, !count_one, H1, H2, H3. lia.
Qed.
Lemma phase_other s s' t c j :
  p_pc s' = upd (p_pc s) t c -> p_lock s' j = p_lock s j -> p_fn s' j = p_fn s j -> adds j (p_log s) (p_log s') ->
  p_lock s j <> Some t -> phase_of s j -> phase_of s' j.
Proof.
  intros E1 E2 E3 E4 Hn H. unfold phase_of in *. destruct (adds_count _ _ _ E4) as (-> & -> & ->). rewrite E2, E3, E1.
  destruct (p_lock s j) as [u|] eqn:E; [|exact H]. cbn [option_map] in *. rewrite upd_other by congruence. exact H.
Qed.
Lemma not_held s t j : locked s -> held (p_pc s t) <> Some j -> p_lock s j <> Some t.
Proof. intros H Hn C. apply Hn. apply H. exact C. Qed.
Lemma eqb_neq j i : j <> i -> Nat.eqb j i = false.
Proof. intros. apply Nat.eqb_neq. assumption. Qed.

Lemma remove_task_ok s i : In i (p_tasks s) -> exists l, remove_task i s = add_log (Removed i) (set_tasks l s) /\ remove_first i (p_tasks s) = Some l.
Proof. intros H. unfold remove_task. destruct (remove_first_some _ _ H) as [l ->]. eauto. Qed.

Lemma step_phase s a : base s -> forall j, phase_of (step s a) j.
Proof.
  intros HB j. assert (HB' := HB). destruct HB' as (HL & HK & HT & HP & HN & HF).
  assert (HI : forall t c s', p_pc s t = Idle -> p_pc s' = upd (p_pc s) t c -> p_lock s' = p_lock s -> p_fn s' = p_fn s -> adds j (p_log s) (p_log s') -> phase_of s' j).
  { intros t c s' Ei E1 E2 E3 E4. apply (phase_other s s' t c); auto; [rewrite E2|rewrite E3|]; try reflexivity. apply not_held; [exact HL|]. rewrite Ei. discriminate. }
  destruct a as [|t|t|t|t|t]; cbn [step]; unfold if_idle.
  - unfold queue_fn. assert (Hd := HP j). unfold phase_of in *. destruct (p_closed s); expose; rewrite !count_app, !count_one; cbn [is_started is_ended is_removed]; rewrite !Nat.add_0_r; exact Hd.
  - destruct (p_pc s t) eqn:E; auto. apply (HI t (AtGet Worker)); auto. left; reflexivity.
  - destruct (p_pc s t) eqn:E; auto. apply (HI t (AtEmpty RunAll)); auto. left; reflexivity.
  - destruct (p_pc s t) eqn:E; auto. apply (HI t (AtEmpty RunOne)); auto. left; reflexivity.
  - destruct (p_pc s t) eqn:E; auto. apply (HI t (Closing (p_tasks s))); auto. right. eexists. split; reflexivity.
  - destruct (go t s) as [s'|] eqn:Eg; [|apply HP].
    destruct (go_frame _ _ _ Eg) as (c & Ec & _). assert (Hj := HP j). unfold go in Eg.
    assert (HO : held (p_pc s t) <> Some j -> p_lock s' j = p_lock s j -> p_fn s' j = p_fn s j -> adds j (p_log s) (p_log s') -> phase_of s' j).
    { intros Hh E2 E3 E4. apply (phase_other s s' t c); auto. apply not_held; assumption. }
    assert (HH : forall i, held (p_pc s t) = Some i -> p_lock s i = Some t) by (intros i; apply HL).
    assert (HU : forall i, p_lock s i = None -> forall k, held (p_pc s t) = None -> p_lock s k <> Some t) by (intros i _ k Hk; apply not_held; [exact HL|congruence]).
    assert (HRM : forall i, held (p_pc s t) = Some i -> (match p_pc s t with EFin _ _ | CFin _ _ => True | _ => False end) -> In i (p_tasks s)).
    { intros i Hh Hf. apply (fin_removes s t i HB Hh Hf). }
    destruct (p_pc s t) as [| |m|m|m x|m i|m i|m i|m i|m i|m i|m x|l|i l|i l|i l|i l|[|n]|] eqn:E; try discriminate Eg; cbn [held] in *.
    + injection Eg as <-. apply HO; try reflexivity; [discriminate|left; reflexivity].
    + destruct (p_queue s) as [|[i|] q]; [discriminate| |]; injection Eg as <-; apply HO; try reflexivity; try discriminate; [right; eexists; split; reflexivity|left; reflexivity].
    + injection Eg as <-. apply HO; try reflexivity; [discriminate|left; reflexivity].
    + unfold lock_free in Eg. destruct (p_lock s i) eqn:El; [discriminate|]. injection Eg as <-.
      destruct (Nat.eq_dec j i) as [->|Hne].
      * unfold phase_of in *. expose. rewrite El in Hj. rewrite !upd_same. cbn [option_map phase] in *. rewrite upd_same. exact Hj.
      * apply HO; [discriminate| | |left; reflexivity]; expose; rewrite ?upd_other by exact Hne; reflexivity.
    + destruct (Nat.eq_dec j i) as [->|Hne].
      * specialize (HH i eq_refl). unfold phase_of in *. rewrite HH in Hj. cbn [option_map] in Hj. rewrite E in Hj. cbn [phase] in Hj.
        destruct (p_fn s i) eqn:Ef; injection Eg as <-; expose; rewrite HH; cbn [option_map]; rewrite upd_same; cbn [phase]; rewrite ?count_app, ?count_one; cbn [is_started is_ended is_removed]; rewrite ?Nat.eqb_refl; intuition (try congruence; try lia).
      * destruct (p_fn s i) eqn:Ef; injection Eg as <-; apply HO; try reflexivity; try congruence; [right; eexists; split; [reflexivity|]|left; reflexivity].
        unfold about. cbn [is_started is_ended is_removed]. rewrite eqb_neq by exact Hne. reflexivity.
    + injection Eg as <-. destruct (Nat.eq_dec j i) as [->|Hne].
      * specialize (HH i eq_refl). unfold phase_of in *. rewrite HH in Hj. cbn [option_map] in Hj. rewrite E in Hj. cbn [phase] in Hj.
        expose; rewrite HH; cbn [option_map]; rewrite upd_same; cbn [phase]; rewrite ?count_app, ?count_one; cbn [is_started is_ended is_removed]; rewrite ?Nat.eqb_refl; intuition (try congruence; try lia).
      * apply HO; try reflexivity; try congruence. right; eexists; split; [reflexivity|].
        unfold about. cbn [is_started is_ended is_removed]. rewrite eqb_neq by exact Hne. reflexivity.
    + injection Eg as <-. destruct (Nat.eq_dec j i) as [->|Hne].
      * specialize (HH i eq_refl). unfold phase_of in *. rewrite HH in Hj. cbn [option_map] in Hj. rewrite E in Hj. cbn [phase] in Hj.
        expose; rewrite HH; cbn [option_map]; rewrite !upd_same; cbn [phase]; intuition (try congruence; try lia).
      * apply HO; try congruence; expose; rewrite ?upd_other by exact Hne; try reflexivity. left. reflexivity.
    + destruct (remove_task_ok s i (HRM i eq_refl I)) as (l & Er & _). rewrite Er in Eg. injection Eg as <-. destruct (Nat.eq_dec j i) as [->|Hne].
      * specialize (HH i eq_refl). unfold phase_of in *. rewrite HH in Hj. cbn [option_map] in Hj. rewrite E in Hj. cbn [phase] in Hj.
        expose; rewrite HH; cbn [option_map]; rewrite upd_same; cbn [phase]; rewrite ?count_app, ?count_one; cbn [is_started is_ended is_removed]; rewrite ?Nat.eqb_refl; intuition (try congruence; try lia).
      * apply HO; try reflexivity; try congruence. right; eexists; split; [reflexivity|].
        unfold about. cbn [is_started is_ended is_removed]. rewrite eqb_neq by exact Hne. reflexivity.
    + injection Eg as <-. destruct (Nat.eq_dec j i) as [->|Hne].
      * specialize (HH i eq_refl). unfold phase_of in *. rewrite HH in Hj. cbn [option_map] in Hj. rewrite E in Hj. cbn [phase] in Hj.
        expose; rewrite !upd_same; cbn [option_map phase]; intuition (try congruence; try lia).
      * apply HO; try congruence; expose; rewrite ?upd_other by exact Hne; try reflexivity. left. reflexivity.
    + injection Eg as <-. apply HO; try reflexivity; [discriminate|left; reflexivity].
    + injection Eg as <-. apply HO; try reflexivity; [discriminate|left; reflexivity].
    + unfold lock_free in Eg. destruct (p_lock s i) eqn:El; [discriminate|]. injection Eg as <-.
      destruct (Nat.eq_dec j i) as [->|Hne].
      * unfold phase_of in *. expose. rewrite El in Hj. rewrite !upd_same. cbn [option_map phase] in *. rewrite upd_same. exact Hj.
      * apply HO; [discriminate| | |left; reflexivity]; expose; rewrite ?upd_other by exact Hne; reflexivity.
    + destruct (Nat.eq_dec j i) as [->|Hne].
      * specialize (HH i eq_refl). unfold phase_of in *. rewrite HH in Hj. cbn [option_map] in Hj. rewrite E in Hj. cbn [phase] in Hj.
        destruct (p_fn s i) eqn:Ef; injection Eg as <-; expose; rewrite HH; cbn [option_map]; rewrite !upd_same; cbn [phase]; intuition (try congruence; try lia).
      * destruct (p_fn s i) eqn:Ef; injection Eg as <-; apply HO; try congruence; expose; rewrite ?upd_other by exact Hne; try reflexivity; left; reflexivity.
    + destruct (remove_task_ok s i (HRM i eq_refl I)) as (l' & Er & _). rewrite Er in Eg. injection Eg as <-. destruct (Nat.eq_dec j i) as [->|Hne].
      * specialize (HH i eq_refl). unfold phase_of in *. rewrite HH in Hj. cbn [option_map] in Hj. rewrite E in Hj. cbn [phase] in Hj.
        expose; rewrite HH; cbn [option_map]; rewrite upd_same; cbn [phase]; rewrite ?count_app, ?count_one; cbn [is_started is_ended is_removed]; rewrite ?Nat.eqb_refl; intuition (try congruence; try lia).
      * apply HO; try reflexivity; try congruence. right; eexists; split; [reflexivity|].
        unfold about. cbn [is_started is_ended is_removed]. rewrite eqb_neq by exact Hne. reflexivity.
    + injection Eg as <-. destruct (Nat.eq_dec j i) as [->|Hne].
      * specialize (HH i eq_refl). unfold phase_of in *. rewrite HH in Hj. cbn [option_map] in Hj. rewrite E in Hj. cbn [phase] in Hj.
        expose; rewrite !upd_same; cbn [option_map phase]; intuition (try congruence; try lia).
      * apply HO; try congruence; expose; rewrite ?upd_other by exact Hne; try reflexivity. left. reflexivity.
    + injection Eg as <-. apply HO; try reflexivity; [discriminate|left; reflexivity].
    + injection Eg as <-. apply HO; try reflexivity; [discriminate|left; reflexivity].
    + assert (Eg' : Some (add_log (CloseRet t) (at_pc t Idle s)) = Some s') by (destruct (p_threads s), (p_unfinished s); try discriminate Eg; exact Eg).
      injection Eg' as <-. apply HO; try reflexivity; [discriminate|right; eexists; split; reflexivity].
Qed.

(** a step of a thread changes the list of tasks only by removing one, and only clears functions of queued tasks *)
Lemma go_tasks t s s' : base s -> go t s = Some s' ->
  (exists i, i < p_next s /\ remove_first i (p_tasks s) = Some (p_tasks s') /\ p_log s' = p_log s ++ [Removed i] /\ p_fn s' = p_fn s) \/
  (p_tasks s' = p_tasks s /\ (p_log s' = p_log s \/ exists e, p_log s' = p_log s ++ [e] /\ (forall i, is_removed i e = false) /\ (forall i, e <> RemoveFailed i)) /\
   (p_fn s' = p_fn s \/ exists i, i < p_next s /\ p_fn s' = upd (p_fn s) i false)).
Proof.
  intros HB Eg. assert (HRM := fin_removes s t). destruct HB as (HL & HK & HB). assert (HK' := HK t). unfold go in Eg.
  destruct (p_pc s t) as [| |m|m|m x|m i|m i|m i|m i|m i|m i|m x|l|i l|i l|i l|i l|[|n]|] eqn:E; try discriminate Eg; cbn [held refs] in *.
  all: try (injection Eg as <-; right; split; [reflexivity|split; [left; reflexivity|left; reflexivity]]).
  - destruct (p_queue s) as [|[i|] q]; [discriminate| |]; injection Eg as <-; right; (split; [reflexivity|split; [|left; reflexivity]]).
    + right. eexists. split; [reflexivity|]. split; [reflexivity|discriminate].
    + left. reflexivity.
  - destruct (lock_free i s); [|discriminate]. injection Eg as <-. right. split; [reflexivity|split; left; reflexivity].
  - destruct (p_fn s i); injection Eg as <-; right; (split; [reflexivity|split; [|left; reflexivity]]).
    + right. eexists. split; [reflexivity|]. split; [reflexivity|discriminate].
    + left. reflexivity.
  - injection Eg as <-; right; (split; [reflexivity|split; [|left; reflexivity]]). right. eexists. split; [reflexivity|]. split; [reflexivity|discriminate].
  - injection Eg as <-; right; (split; [reflexivity|split; [left; reflexivity|]]). right. exists i. split; [apply HK'; left; reflexivity|reflexivity].
  - destruct (HRM i (conj HL (conj HK HB)) eq_refl I) as [Hin Hi]. destruct (remove_task_ok s i Hin) as (l & Er & Ef). rewrite Er in Eg. injection Eg as <-.
    left. exists i. auto.
  - destruct (lock_free i s); [|discriminate]. injection Eg as <-. right. split; [reflexivity|split; left; reflexivity].
  - destruct (p_fn s i); injection Eg as <-; right; (split; [reflexivity|split; [left; reflexivity|]]); [right|left; reflexivity].
    exists i. split; [apply HK'; left; reflexivity|reflexivity].
  - destruct (HRM i (conj HL (conj HK HB)) eq_refl I) as [Hin Hi]. destruct (remove_task_ok s i Hin) as (l' & Er & Ef). rewrite Er in Eg. injection Eg as <-.
    left. exists i. auto.
  - assert (Eg' : Some (add_log (CloseRet t) (at_pc t Idle s)) = Some s') by (destruct (p_threads s), (p_unfinished s); try discriminate Eg; exact Eg).
    injection Eg' as <-. right; (split; [reflexivity|split; [|left; reflexivity]]). right. eexists. split; [reflexivity|]. split; [reflexivity|discriminate].
Qed.
Lemma step_listed s a : base s -> listed (step s a).
Proof.
  intros HB. assert (HB' := HB). destruct HB' as (HL & HK & [H1 H2] & HP & HN & HF).
  assert (HS : listed s) by (split; assumption).
  destruct a as [|t|t|t|t|t]; cbn [step]; unfold if_idle.
  - unfold queue_fn. destruct (p_closed s) eqn:Ec.
    + split; expose; intros i Hi; [rewrite count_app, count_one; cbn [is_removed]; rewrite Nat.add_0_r; auto|auto].
    + split; expose; intros i Hi; rewrite ?count_app, ?count_one, ?count_occ_app; cbn [is_removed count_occ]; rewrite ?Nat.add_0_r.
      * assert (Hi' := H1 i). assert (Hi2 := H2 i). assert (Hi3 := HP i). destruct (Nat.eq_dec (p_next s) i) as [Hn|Hn]; [|rewrite Nat.add_0_r; apply H1; lia].
        destruct Hi2 as [Hf Ho]; [lia|]. rewrite Ho. unfold phase_of in Hi3.
        destruct (p_lock s i) as [u|] eqn:El.
        { exfalso. apply HL in El. assert (i < p_next s); [|lia]. apply (HK u). destruct (p_pc s u); simpl in *; try discriminate; injection El as <-; left; reflexivity. }
        cbn [option_map phase] in Hi3. destruct Hi3 as (_ & _ & Hx & _). destruct (Hx Hf). lia.
      * destruct (H2 i) as [Hf Ho]; [lia|]. split; [exact Hf|]. destruct (Nat.eq_dec (p_next s) i); lia.
  - destruct (p_pc s t); auto.
  - destruct (p_pc s t); auto.
  - destruct (p_pc s t); auto.
  - destruct (p_pc s t); auto. split; expose; intros i Hi; [rewrite count_app, count_one; cbn [is_removed]; rewrite Nat.add_0_r; auto|auto].
  - destruct (go t s) as [s'|] eqn:Eg; [|split; assumption].
    destruct (go_frame _ _ _ Eg) as (c & _ & En & _). destruct (go_tasks _ _ _ HB Eg) as [(i & Hi & Er & El & Ef)|(Et & El & Ef)]; unfold listed; rewrite En.
    + rewrite El, Ef. assert (Hc := fun j => remove_first_count i _ _ j Er). split; intros j Hj.
      * rewrite count_app, count_one. cbn [is_removed]. specialize (H1 j Hj). rewrite Hc in H1. destruct (Nat.eqb j i); lia.
      * destruct (H2 j Hj) as [Hf Ho]. split; [exact Hf|]. rewrite Hc in Ho. lia.
    + rewrite Et. assert (Ec : forall j, count (is_removed j) (p_log s') = count (is_removed j) (p_log s)).
      { intros j. destruct El as [->|(e & -> & He & _)]; [reflexivity|]. rewrite count_app, count_one, He. lia. }
      split; intros j Hj; [rewrite Ec; auto|]. destruct (H2 j Hj) as [Hf Ho]. split; [|exact Ho].
      destruct Ef as [->|(i & Hi & ->)]; [exact Hf|]. rewrite upd_other by lia. exact Hf.
Qed.
Lemma step_no_fail s a : base s -> no_fail (step s a).
Proof.
  intros HB. assert (HB' := HB). destruct HB' as (HL & HK & HT & HP & HN & HF).
  assert (HA : forall e s', (forall i, e <> RemoveFailed i) -> p_log s' = p_log s ++ [e] -> no_fail s').
  { intros e s' He El i Hin. rewrite El in Hin. apply in_app_or in Hin. destruct Hin as [Hin|[Hin|[]]]; [exact (HN i Hin)|exact (He i Hin)]. }
  destruct a as [|t|t|t|t|t]; cbn [step]; unfold if_idle.
  - unfold queue_fn. destruct (p_closed s); (eapply HA; [|reflexivity]; discriminate).
  - destruct (p_pc s t); auto.
  - destruct (p_pc s t); auto.
  - destruct (p_pc s t); auto.
  - destruct (p_pc s t); auto. eapply HA; [|reflexivity]. discriminate.
  - destruct (go t s) as [s'|] eqn:Eg; [|exact HN].
    destruct (go_tasks _ _ _ HB Eg) as [(i & Hi & Er & El & Ef)|(Et & [El|(e & El & _ & He)] & Ef)].
    + eapply HA; [|exact El]. discriminate.
    + intros i. rewrite El. apply HN.
    + eapply HA; [exact He|exact El].
Qed.
Lemma step_base s a : base s -> base (step s a).
Proof.
  intros HB. assert (HB' := HB). destruct HB' as (HL & HK & HT & HP & HN & HF). repeat split.
  - apply step_locked. exact HL.
  - apply (step_locked s a HL).
  - apply step_known; assumption.
  - apply step_listed. exact HB.
  - apply (step_listed s a HB). assumption.
  - apply (step_listed s a HB). assumption.
  - apply step_phase. exact HB.
  - apply step_no_fail. exact HB.
  - apply step_fifo. exact HF.
Qed.
Lemma base_make : base pool_make.
Proof.
  repeat split; try discriminate; simpl; auto; try lia.
  - intros t i [].
  - intros i [].
Qed.
Lemma run_inv (P : pool -> Prop) : (forall s a, P s -> P (step s a)) -> forall l s, P s -> P (run l s).
Proof. intros H l. induction l as [|a l IH]; intros s Hs; [exact Hs|]. change (run (a :: l) s) with (run l (step s a)). apply IH. apply H. exact Hs. Qed.
Lemma run_base l : base (run l pool_make).
Proof. apply run_inv; [exact step_base|exact base_make]. Qed.
Lemma base_once s i : base s -> count (is_started i) (p_log s) <= 1 /\ count (is_removed i) (p_log s) <= 1.
Proof.
  intros (_ & _ & _ & HP & _). specialize (HP i). unfold phase_of, phase in HP.
  destruct (option_map (p_pc s) (p_lock s i)) as [[]|]; destruct (p_fn s i); intuition (try congruence; try lia).
Qed.
