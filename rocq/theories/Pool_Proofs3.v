(** Proofs for Pool_Props: close comes to an end if it is called once, and not if it is called twice. *)
From Coq Require Import Arith Bool List Lia Setoid.
From Verif Require Import Pool_Model Pool_Spec Pool_Proofs Pool_Proofs2.
Import ListNotations.

(** ** a second call of close does not return *)
Definition hung (s : pool) : Prop :=
  p_threads s <> [] /\
  forall t, match p_pc s t with
            | Puts n => 0 < n + p_unfinished s
            | Join => 0 < p_unfinished s
            | c => c = Idle \/ c = Dead \/ in_close c = true
            end.
Definition rets (s : pool) : nat := count (fun e => match e with CloseRet _ => true | _ => false end) (p_log s).
Lemma remove_task_rets i s : rets (remove_task i s) = rets s /\ p_threads (remove_task i s) = p_threads s /\ p_unfinished (remove_task i s) = p_unfinished s /\ p_pc (remove_task i s) = p_pc s.
Proof.
  unfold remove_task, rets. destruct (remove_first i (p_tasks s)); expose; rewrite count_app, count_one; simpl; repeat split; lia.
Qed.
Ltac hung_tac t H1 H2 :=
  split; [split; [exact H1|]; let u := fresh "u" in intros u; unfold upd; destruct (Nat.eqb_spec u t) as [->|]; [simpl; auto|apply H2]
         |try reflexivity].
Lemma hung_step s a : (match a with Queue | CallClose _ | Go _ => True | _ => False end) -> hung s -> hung (step s a) /\ rets (step s a) = rets s.
Proof.
  intros Ha [H1 H2]. destruct a as [|t|t|t|t|t]; try destruct Ha; cbn [step].
  - unfold queue_fn. destruct (p_closed s); unfold hung, rets; expose; rewrite count_app, count_one, Nat.add_0_r; (split; [split; [exact H1|]|reflexivity]).
    + exact H2.
    + intros u. specialize (H2 u). destruct (p_pc s u); auto; lia.
  - unfold if_idle. destruct (p_pc s t) eqn:E; try (split; [split; assumption|reflexivity]).
    unfold hung, rets; expose; rewrite count_app, count_one, Nat.add_0_r. hung_tac t H1 H2.
  - destruct (go t s) as [s'|] eqn:Eg; [|split; [split; assumption|reflexivity]]. unfold go in Eg. assert (H2t := H2 t).
    destruct (p_pc s t) as [| |m|m|m x|m i|m i|m i|m i|m i|m i|m x|l|i l|i l|i l|i l|[|n]|] eqn:E; try discriminate Eg;
      try (exfalso; simpl in H2t; intuition discriminate).
    + injection Eg as <-. unfold hung, rets; expose. destruct l as [|i l]; hung_tac t H1 H2. destruct (p_threads s); [contradiction|simpl; lia].
    + destruct (lock_free i s); [|discriminate]. injection Eg as <-. unfold hung, rets; expose. hung_tac t H1 H2.
    + destruct (p_fn s i); injection Eg as <-; unfold hung, rets; expose; hung_tac t H1 H2.
    + injection Eg as <-. destruct (remove_task_rets i s) as (R1 & R2 & R3 & R4). split; [|exact R1]. unfold hung; expose. rewrite R2, R3, R4. split; [exact H1|].
      intros u; unfold upd; destruct (Nat.eqb_spec u t) as [->|]; [simpl; auto|apply H2].
    + injection Eg as <-. unfold hung, rets; expose. hung_tac t H1 H2.
    + injection Eg as <-. unfold hung, rets; expose. hung_tac t H1 H2.
    + injection Eg as <-. unfold hung, rets; expose. split; [|reflexivity]. split; [exact H1|]. intros u. unfold upd.
      destruct (Nat.eqb_spec u t) as [->|]; [simpl; lia|]. specialize (H2 u). destruct (p_pc s u); auto; lia.
    + destruct (p_threads s); [contradiction|]. destruct (p_unfinished s); [simpl in H2t; lia|discriminate Eg].
Qed.
Lemma hung_run l : (forall a, In a l -> match a with Queue | CallClose _ | Go _ => True | _ => False end) ->
  forall s, hung s -> hung (run l s) /\ rets (run l s) = rets s.
Proof.
  induction l as [|a l IH]; intros Ha s H; [split; [exact H|reflexivity]|]. unfold run. cbn [fold_left]. fold (run l (step s a)).
  destruct (hung_step s a) as [H1 H2]; [apply Ha; left; reflexivity|exact H|]. destruct (IH (fun b Hb => Ha b (or_intror Hb)) _ H1) as [H3 H4]. split; [exact H3|congruence].
Qed.

(** ** one call of close *)
Definition busy (c : pc) : bool :=
  match c with Got _ _ | EWait _ _ | EIn _ _ | Running _ _ | Clearing _ _ | EFin _ _ | EOut _ _ | Done _ _ => true | _ => false end.
(** a thread of the pool *)
Definition worker (c : pc) : bool :=
  match c with
  | Dead | AtGet Worker | Got Worker _ | EWait Worker _ | EIn Worker _ | Running Worker _ | Clearing Worker _ | EFin Worker _ | EOut Worker _ | Done Worker _ => true
  | _ => false
  end.
(** it has taken a None *)
Definition ending (c : pc) : bool := match c with Dead | Got Worker None | Done Worker None => true | _ => false end.
Definition putting (c : pc) : bool := match c with Puts _ | Join => true | _ => false end.
Definition nones (q : list (option nat)) : nat := length (filter (fun x => match x with None => true | _ => false end) q).
Definition enders (s : pool) : nat := length (filter (fun u => ending (p_pc s u)) (p_threads s)).
Definition b2n (b : bool) : nat := if b then 1 else 0.

Inductive kind (s s' : pool) (t : nat) (c c' : pc) : Prop :=
  | KTake m x q : c = AtGet m -> c' = Got m x -> p_queue s = x :: q -> p_queue s' = q -> p_unfinished s' = p_unfinished s -> kind s s' t c c'
  | KDone m x : c = Done m x -> c' = after m x -> p_queue s' = p_queue s -> p_unfinished s' = p_unfinished s - 1 -> kind s s' t c c'
  | KPut n : c = Puts (S n) -> c' = Puts n -> p_queue s' = p_queue s ++ [None] -> p_unfinished s' = S (p_unfinished s) -> kind s s' t c c'
  | KSame : p_queue s' = p_queue s -> p_unfinished s' = p_unfinished s -> busy c' = busy c -> ending c' = ending c -> (worker c = true -> worker c' = true) ->
      (c = Closing [] /\ c' = Puts (length (p_threads s)) \/ c = Puts 0 /\ c' = Join \/ c = Join /\ c' = Idle \/ putting c = false /\ putting c' = false /\ in_close c' = in_close c) ->
      (c <> Join -> rets s' = rets s) -> kind s s' t c c'.
Lemma remove_task_queue i s : p_queue (remove_task i s) = p_queue s.
Proof. unfold remove_task. destruct (remove_first i (p_tasks s)); reflexivity. Qed.
Lemma rets_add e s : (match e with CloseRet _ => False | _ => True end) -> rets (add_log e s) = rets s.
Proof. intros H. unfold rets. expose. rewrite count_app, count_one. destruct e; simpl; try lia; destruct H. Qed.
Lemma pc_at t c s : p_pc (at_pc t c s) t = c.
Proof. apply upd_same. Qed.
Ltac same := apply KSame; try reflexivity; try discriminate; try (intros; reflexivity); try (intros; rewrite rets_add by exact I; reflexivity);
  try (right; right; right; repeat split; reflexivity); try (left; repeat split; reflexivity); try (right; left; repeat split; reflexivity);
  try (right; right; left; repeat split; reflexivity); try contradiction; try congruence.
Lemma go_kind t s s' : go t s = Some s' -> kind s s' t (p_pc s t) (p_pc s' t).
Proof.
  intros Eg. unfold go in Eg.
  destruct (p_pc s t) as [| |m|m|m x|m i|m i|m i|m i|m i|m i|m x|l|i l|i l|i l|i l|[|n]|] eqn:E; try discriminate Eg.
  - injection Eg as <-. rewrite pc_at. destruct (p_queue s) eqn:Eq; same.
  - destruct (p_queue s) as [|[i|] q] eqn:Eq; [discriminate| |]; injection Eg as <-.
    + apply (KTake _ _ _ _ _ m (Some i) q); try assumption; try reflexivity. apply upd_same.
    + apply (KTake _ _ _ _ _ m None q); try assumption; try reflexivity. apply upd_same.
  - injection Eg as <-. rewrite pc_at. destruct x as [i|]; [destruct (p_closed s)|]; destruct m; same.
  - destruct (lock_free i s); [|discriminate]. injection Eg as <-. rewrite pc_at. destruct m; same.
  - destruct (p_fn s i); injection Eg as <-; [change (p_pc (add_log (Started t i) (at_pc t (Running m i) s)) t) with (p_pc (at_pc t (Running m i) s) t)|]; rewrite pc_at;
      destruct m; same.
  - injection Eg as <-. change (p_pc (add_log (Ended t i) (at_pc t (Clearing m i) s)) t) with (p_pc (at_pc t (Clearing m i) s) t). rewrite pc_at.
    destruct m; same.
  - injection Eg as <-. rewrite pc_at. destruct m; same.
  - injection Eg as <-. rewrite pc_at. destruct (remove_task_rets i s) as (R1 & R2 & R3 & R4).
    destruct m; (same; [apply remove_task_queue|apply R3|intros _; apply R1]).
  - injection Eg as <-. rewrite pc_at. destruct m; same.
  - injection Eg as <-. rewrite pc_at. apply (KDone _ _ _ _ _ m x); reflexivity.
  - injection Eg as <-. rewrite pc_at. destruct l as [|i l]; same.
  - destruct (lock_free i s); [|discriminate]. injection Eg as <-. rewrite pc_at. same.
  - destruct (p_fn s i); injection Eg as <-; rewrite pc_at; same.
  - injection Eg as <-. rewrite pc_at. destruct (remove_task_rets i s) as (R1 & R2 & R3 & R4).
    same; [apply remove_task_queue|apply R3|intros _; apply R1].
  - injection Eg as <-. rewrite pc_at. same.
  - injection Eg as <-. rewrite pc_at. same.
  - injection Eg as <-. rewrite pc_at. apply (KPut _ _ _ _ _ n); reflexivity.
  - assert (Eg' : Some (add_log (CloseRet t) (at_pc t Idle s)) = Some s') by (destruct (p_threads s), (p_unfinished s); try discriminate Eg; exact Eg).
    injection Eg' as <-. change (p_pc (add_log (CloseRet t) (at_pc t Idle s)) t) with (p_pc (at_pc t Idle s) t). rewrite pc_at.
    same.
Qed.

(** *** the invariant *)
Definition calls (s : pool) : nat := count is_close_call (p_log s).
Definition members (s : pool) : Prop := NoDup (p_threads s) /\ forall u, In u (p_threads s) -> worker (p_pc s u) = true.
Definition counted (s : pool) : Prop :=
  exists B, NoDup B /\ (forall u, In u B <-> busy (p_pc s u) = true) /\ p_unfinished s = length (p_queue s) + length B.
Definition tail_ok (s : pool) : Prop := enders s + nones (p_queue s) = 0 \/ p_queue s = [] \/ last (p_queue s) (Some 0) = None.
Definition one_closer (s : pool) : Prop :=
  calls s <= 1 ->
  (forall t, in_close (p_pc s t) = true -> calls s = 1 /\ rets s = 0) /\
  (forall t u, in_close (p_pc s t) = true -> in_close (p_pc s u) = true -> t = u) /\
  (calls s = 0 -> rets s = 0) /\
  (rets s = 0 -> (forall t, putting (p_pc s t) = false) -> enders s + nones (p_queue s) = 0) /\
  (forall t n, p_pc s t = Puts n -> enders s + nones (p_queue s) + n <= length (p_threads s)) /\
  (forall t, p_pc s t = Join -> enders s + nones (p_queue s) <= length (p_threads s)) /\
  (forall t, putting (p_pc s t) = true -> tail_ok s).
Lemma enders_upd s t c : NoDup (p_threads s) ->
  let n := length (filter (fun u => ending (upd (p_pc s) t c u)) (p_threads s)) in
  (In t (p_threads s) -> n + b2n (ending (p_pc s t)) = enders s + b2n (ending c)) /\ (~ In t (p_threads s) -> n = enders s).
Proof.
  unfold enders. induction (p_threads s) as [|u l IH]; intros HN; simpl; [split; [intros []|reflexivity]|].
  inversion HN as [|? ? Hu HN']; subst. specialize (IH HN'). destruct IH as [IH1 IH2]. destruct (Nat.eq_dec u t) as [->|Hne].
  - rewrite upd_same. split; [|tauto]. intros _. specialize (IH2 Hu). destruct (ending c), (ending (p_pc s t)); simpl in *; lia.
  - rewrite upd_other by exact Hne. split.
    + intros [->|Hin]; [contradiction|]. specialize (IH1 Hin). destruct (ending (p_pc s u)); simpl; lia.
    + intros Hn. assert (Hn' : ~ In t l) by tauto. specialize (IH2 Hn'). destruct (ending (p_pc s u)); simpl; lia.
Qed.
Lemma go_log t s s' : base s -> go t s = Some s' ->
  calls s' = calls s /\ (p_pc s t <> Join -> rets s' = rets s) /\ (p_pc s t = Join -> rets s' = S (rets s)).
Proof.
  intros HB Eg. assert (Hj : p_pc s t = Join -> p_log s' = p_log s ++ [CloseRet t]).
  { intros Ej. unfold go in Eg. rewrite Ej in Eg.
    assert (Eg' : Some (add_log (CloseRet t) (at_pc t Idle s)) = Some s') by (destruct (p_threads s), (p_unfinished s); try discriminate Eg; exact Eg).
    injection Eg' as <-. reflexivity. }
  unfold calls, rets. split; [|split].
  - destruct (go_event _ _ _ HB Eg) as [->|(e & -> & He)]; [reflexivity|]. rewrite count_app, count_one. destruct e; simpl; try lia; destruct He.
  - intros Hn. destruct (go_event _ _ _ HB Eg) as [->|(e & -> & He)]; [reflexivity|]. rewrite count_app, count_one. destruct e; simpl; try lia. destruct He as (_ & He & _). contradiction.
  - intros Ej. rewrite (Hj Ej), count_app, count_one. simpl. lia.
Qed.
Lemma kind_worker s s' t c c' : kind s s' t c c' -> worker c = true -> worker c' = true.
Proof.
  intros [m x q -> -> _ _ _|m x -> -> _ _|n -> -> _ _|_ _ _ _ H _ _]; try (destruct m); simpl; try discriminate; auto. destruct x; reflexivity.
Qed.
Lemma step_members s a : base s -> members s -> members (step s a).
Proof.
  intros HB [HN HW]. assert (Hidle : forall t, p_pc s t = Idle -> ~ In t (p_threads s)).
  { intros t Et Hin. specialize (HW t Hin). rewrite Et in HW. discriminate. }
  assert (Hpc : forall t c, p_pc s t = Idle -> members (at_pc t c s)).
  { intros t c Et. split; [exact HN|]. intros u Hu. expose. rewrite upd_other; [exact (HW u Hu)|]. intros ->. exact (Hidle t Et Hu). }
  destruct a as [|t|t|t|t|t]; cbn [step]; unfold if_idle.
  - unfold queue_fn. destruct (p_closed s); split; assumption.
  - destruct (p_pc s t) eqn:E; try (split; assumption). split; expose.
    + constructor; [exact (Hidle t E)|exact HN].
    + intros u [<-|Hu]; [rewrite upd_same; reflexivity|]. rewrite upd_other; [exact (HW u Hu)|]. intros ->. exact (Hidle t E Hu).
  - destruct (p_pc s t) eqn:E; try (split; assumption). apply Hpc; exact E.
  - destruct (p_pc s t) eqn:E; try (split; assumption). apply Hpc; exact E.
  - destruct (p_pc s t) eqn:E; try (split; assumption). exact (Hpc t (Closing (p_tasks s)) E).
  - destruct (go t s) as [s'|] eqn:Eg; [|split; assumption]. assert (HKd := go_kind _ _ _ Eg). destruct (go_frame _ _ _ Eg) as (c & Ec & _ & Et & _).
    unfold members. rewrite Et. split; [exact HN|]. intros u Hu. destruct (Nat.eq_dec u t) as [->|Hne]; [apply (kind_worker _ _ _ _ _ HKd), HW, Hu|].
    rewrite Ec, upd_other by exact Hne. exact (HW u Hu).
Qed.
Lemma remove_len t (B : list nat) : NoDup B -> In t B -> S (length (remove Nat.eq_dec t B)) = length B.
Proof.
  induction B as [|u B IH]; intros HN Hin; [destruct Hin|]. inversion HN as [|? ? Hu HN']; subst. simpl. destruct (Nat.eq_dec t u) as [->|Hne].
  - rewrite notin_remove by exact Hu. reflexivity.
  - destruct Hin as [->|Hin]; [contradiction|]. simpl. rewrite (IH HN' Hin). reflexivity.
Qed.
Lemma remove_nodup t (B : list nat) : NoDup B -> NoDup (remove Nat.eq_dec t B).
Proof.
  induction B as [|u B IH]; intros HN; [constructor|]. inversion HN as [|? ? Hu HN']; subst. simpl. destruct (Nat.eq_dec t u); [auto|].
  constructor; [|auto]. intros H. apply in_remove in H. tauto.
Qed.
Lemma step_counted s a : base s -> counted s -> counted (step s a).
Proof.
  intros HB (B & HN & HI & HC).
  assert (Hpc : forall t c s', busy (p_pc s t) = false -> busy c = false -> p_pc s' = upd (p_pc s) t c -> p_unfinished s' = p_unfinished s -> p_queue s' = p_queue s -> counted s').
  { intros t c s' H1 H2 E1 E2 E3. exists B. rewrite E1, E2, E3. split; [exact HN|]. split; [|exact HC]. intros u. rewrite HI. unfold upd.
    destruct (Nat.eqb_spec u t) as [->|]; [rewrite H1, H2; tauto|tauto]. }
  destruct a as [|t|t|t|t|t]; cbn [step]; unfold if_idle.
  - unfold queue_fn. destruct (p_closed s); exists B; (split; [exact HN|]; split; [exact HI|]); expose; [exact HC|]. rewrite app_length. simpl. lia.
  - destruct (p_pc s t) eqn:E; try (exists B; auto; fail). eapply (Hpc t (AtGet Worker)); try reflexivity. rewrite E. reflexivity.
  - destruct (p_pc s t) eqn:E; try (exists B; auto; fail). eapply (Hpc t (AtEmpty RunAll)); try reflexivity. rewrite E. reflexivity.
  - destruct (p_pc s t) eqn:E; try (exists B; auto; fail). eapply (Hpc t (AtEmpty RunOne)); try reflexivity. rewrite E. reflexivity.
  - destruct (p_pc s t) eqn:E; try (exists B; auto; fail). eapply (Hpc t (Closing (p_tasks s))); try reflexivity. rewrite E. reflexivity.
  - destruct (go t s) as [s'|] eqn:Eg; [|exists B; auto]. assert (HKd := go_kind _ _ _ Eg). destruct (go_frame _ _ _ Eg) as (c & Ec & _ & Et & _).
    assert (Ect : p_pc s' t = c) by (rewrite Ec; apply upd_same). rewrite Ect in HKd.
    destruct HKd as [m x q E1 E2 Q1 Q2 U|m x E1 E2 Q U|n E1 E2 Q U|Q U Hb _ _ _ _].
    + exists (t :: B). split; [constructor; [|exact HN]; rewrite HI, E1; discriminate|]. split.
      * intros u. rewrite Ec. unfold upd. destruct (Nat.eqb_spec u t) as [->|Hne]; [rewrite E2; simpl; tauto|]. rewrite <- HI. simpl. split; [intros [->|]; [contradiction|assumption]|auto].
      * rewrite U, Q2, HC, Q1. simpl. lia.
    + exists (remove Nat.eq_dec t B). split; [apply remove_nodup; exact HN|]. split.
      * intros u. rewrite Ec. unfold upd. destruct (Nat.eqb_spec u t) as [->|Hne].
        -- rewrite E2. split; [intros H; apply in_remove in H; tauto|destruct m, x; discriminate].
        -- rewrite <- HI. split; [intros H; apply in_remove in H; tauto|intros H; apply in_in_remove; assumption].
      * assert (Hin : In t B) by (rewrite HI, E1; reflexivity). assert (H := remove_len t B HN Hin). rewrite U, Q, HC. lia.
    + exists B. split; [exact HN|]. split.
      * intros u. rewrite HI, Ec. unfold upd. destruct (Nat.eqb_spec u t) as [->|]; [rewrite E1, E2; reflexivity|tauto].
      * rewrite U, Q, app_length, HC. simpl. lia.
    + exists B. split; [exact HN|]. split; [|rewrite U, Q; exact HC].
      intros u. rewrite HI, Ec. unfold upd. destruct (Nat.eqb_spec u t) as [->|]; [rewrite Hb; tauto|tauto].
Qed.
Lemma nones_app q q' : nones (q ++ q') = nones q + nones q'.
Proof. unfold nones. rewrite filter_app, app_length. reflexivity. Qed.
Lemma last_snoc_none q : last (q ++ [None]) (Some 0) = (None : option nat).
Proof. induction q as [|x q IH]; [reflexivity|]. simpl. destruct (q ++ [None]) eqn:E; [destruct q; discriminate|exact IH]. Qed.
Lemma in_close_putting c : putting c = true -> in_close c = true.
Proof. destruct c; try discriminate; reflexivity. Qed.
Lemma step_one s a : base s -> closes s -> members s -> one_closer s -> one_closer (step s a).
Proof.
  intros HB HCl [HN HW] HO.
  assert (Hidle : forall t, p_pc s t = Idle -> ~ In t (p_threads s)).
  { intros t Et Hin. specialize (HW t Hin). rewrite Et in HW. discriminate. }
  assert (Hcall : forall t c s', p_pc s t = Idle -> in_close c = false -> ending c = false -> p_pc s' = upd (p_pc s) t c -> p_queue s' = p_queue s -> p_log s' = p_log s ->
    (p_threads s' = p_threads s \/ p_threads s' = t :: p_threads s) -> one_closer s').
  { intros t c s' Ei Hc He E1 E2 E3 E4 Hcalls. assert (Ecl : calls s' = calls s /\ rets s' = rets s) by (unfold calls, rets; rewrite E3; auto). destruct Ecl as [Ecl Ert]. rewrite Ecl in Hcalls. rewrite Ecl, Ert. destruct (HO Hcalls) as (P1 & P2 & P3 & P4 & P5 & P6 & P7).
    assert (Een : enders s' = enders s).
    { destruct (enders_upd s t c HN) as [_ H]. specialize (H (Hidle t Ei)). unfold enders at 1. rewrite E1. destruct E4 as [->| ->]; [exact H|]. simpl. rewrite upd_same, He. exact H. }
    assert (Hlen : length (p_threads s) <= length (p_threads s')) by (destruct E4 as [->| ->]; simpl; lia).
    assert (Hpu : putting c = false). { destruct (putting c) eqn:Ep; [apply in_close_putting in Ep; congruence|reflexivity]. }
    assert (Hold : forall u, in_close (p_pc s' u) = true -> u <> t /\ p_pc s' u = p_pc s u).
    { intros u. rewrite E1. unfold upd. destruct (Nat.eqb_spec u t) as [->|]; [congruence|auto]. }
    unfold tail_ok in *. rewrite Een, E2. split; [|split; [|split; [|split; [|split; [|split]]]]].
    - intros u Hu. destruct (Hold _ Hu) as [_ Eq]. rewrite Eq in Hu. apply (P1 _ Hu).
    - intros u v Hu Hv. destruct (Hold _ Hu) as [_ Eq]. rewrite Eq in Hu. destruct (Hold _ Hv) as [_ Eq']. rewrite Eq' in Hv. exact (P2 u v Hu Hv).
    - exact P3.
    - intros Hr Hp. apply P4; [exact Hr|]. intros u. specialize (Hp u). rewrite E1 in Hp. destruct (Nat.eq_dec u t) as [Heq|Hne]; [subst u; rewrite Ei; reflexivity|rewrite upd_other in Hp by exact Hne; exact Hp].
    - intros u n Hu. destruct (Hold u) as [_ Eq]; [rewrite Hu; reflexivity|]. rewrite Eq in Hu. specialize (P5 u n Hu). lia.
    - intros u Hu. destruct (Hold u) as [_ Eq]; [rewrite Hu; reflexivity|]. rewrite Eq in Hu. specialize (P6 u Hu). lia.
    - intros u Hu. destruct (Hold u) as [_ Eq]; [apply in_close_putting; exact Hu|]. rewrite Eq in Hu. exact (P7 u Hu). }
  destruct a as [|t|t|t|t|t]; cbn [step]; unfold if_idle.
  - intros Hcalls. assert (Ec : calls (queue_fn s) = calls s /\ rets (queue_fn s) = rets s).
    { unfold calls, rets, queue_fn. destruct (p_closed s); expose; rewrite !count_app, !count_one; simpl; lia. }
    destruct Ec as [Ec Er]. rewrite Ec in *. rewrite Er. destruct (HO Hcalls) as (P1 & P2 & P3 & P4 & P5 & P6 & P7).
    assert (Ep : p_pc (queue_fn s) = p_pc s) by (unfold queue_fn; destruct (p_closed s); reflexivity).
    assert (Eth : p_threads (queue_fn s) = p_threads s) by (unfold queue_fn; destruct (p_closed s); reflexivity).
    assert (En : nones (p_queue (queue_fn s)) = nones (p_queue s)) by (unfold queue_fn; destruct (p_closed s); expose; [reflexivity|rewrite nones_app; simpl; unfold nones; simpl; lia]).
    assert (Ee : enders (queue_fn s) = enders s) by (unfold enders; rewrite Ep, Eth; reflexivity).
    rewrite Ep, Eth, En, Ee. repeat (split; [assumption|]). intros t Ht. specialize (P7 t Ht). unfold tail_ok in *. rewrite Ee, En.
    unfold queue_fn. destruct (p_closed s) eqn:Ecl; [exact P7|]. destruct (proj1 HCl t (in_close_putting _ Ht)). congruence.
  - destruct (p_pc s t) eqn:E; try exact HO. eapply (Hcall t (AtGet Worker)); try reflexivity; [exact E|right; reflexivity].
  - destruct (p_pc s t) eqn:E; try exact HO. eapply (Hcall t (AtEmpty RunAll)); try reflexivity; [exact E|left; reflexivity].
  - destruct (p_pc s t) eqn:E; try exact HO. eapply (Hcall t (AtEmpty RunOne)); try reflexivity; [exact E|left; reflexivity].
  - destruct (p_pc s t) eqn:E; try exact HO. intros Hcalls. unfold calls in Hcalls. expose. rewrite count_app, count_one in Hcalls. simpl in Hcalls.
    assert (Hc0 : calls s = 0) by (unfold calls; lia). destruct (HO ltac:(lia)) as (P1 & P2 & P3 & P4 & P5 & P6 & P7).
    assert (Hno : forall u, in_close (p_pc s u) = false). { intros u. destruct (in_close (p_pc s u)) eqn:Eu; [destruct (P1 u Eu); lia|reflexivity]. }
    assert (Hput : forall u, putting (p_pc s u) = false).
    { intros u. destruct (putting (p_pc s u)) eqn:Eu; [apply in_close_putting in Eu; rewrite Hno in Eu; discriminate|reflexivity]. }
    assert (Hnew : forall u, in_close (upd (p_pc s) t (Closing (p_tasks s)) u) = true -> u = t).
    { intros u. unfold upd. destruct (Nat.eqb_spec u t); [auto|]. rewrite Hno. discriminate. }
    assert (Hr : rets s = 0) by auto. specialize (P4 Hr Hput).
    unfold calls, rets, enders, tail_ok in *. expose. rewrite !count_app, !count_one. simpl.
    destruct (enders_upd s t (Closing (p_tasks s)) HN) as [_ He]. specialize (He (Hidle t E)). unfold enders in *. cbv zeta in He. unfold tail_ok. unfold enders. expose. rewrite He.
    split; [lia|split; [|split; [lia|split; [lia|split; [|split; [|intros; left; lia]]]]]].
    + intros u v Hu Hv. rewrite (Hnew u Hu), (Hnew v Hv). reflexivity.
    + intros u n Hu. assert (u = t) by (apply Hnew; rewrite Hu; reflexivity). subst u. rewrite upd_same in Hu. discriminate.
    + intros u Hu. assert (u = t) by (apply Hnew; rewrite Hu; reflexivity). subst u. rewrite upd_same in Hu. discriminate.
  - destruct (go t s) as [s'|] eqn:Eg; [|exact HO]. assert (HKd := go_kind _ _ _ Eg). destruct (go_frame _ _ _ Eg) as (c & Ec & _ & Et & _ & _ & Hcl).
    assert (Ect : p_pc s' t = c) by (rewrite Ec; apply upd_same). rewrite Ect in HKd.
    destruct (go_log _ _ _ HB Eg) as (Lc & Lr & Lj). intros Hcalls. rewrite Lc in *. destruct (HO Hcalls) as (P1 & P2 & P3 & P4 & P5 & P6 & P7).
    assert (Hoth : forall u, u <> t -> p_pc s' u = p_pc s u) by (intros u Hu; rewrite Ec; apply upd_other; exact Hu).
    assert (Hic : forall u, in_close (p_pc s' u) = true -> in_close (p_pc s u) = true).
    { intros u. destruct (Nat.eq_dec u t) as [->|Hne]; [rewrite Ect; exact Hcl|rewrite Hoth by exact Hne; auto]. }
    assert (Hen : (In t (p_threads s) -> enders s' + b2n (ending (p_pc s t)) = enders s + b2n (ending c)) /\ (~ In t (p_threads s) -> enders s' = enders s)).
    { unfold enders at 1 3. rewrite Ec, Et. apply enders_upd. exact HN. }
    assert (Hen' : ending c = ending (p_pc s t) -> enders s' = enders s).
    { intros He. destruct (in_dec Nat.eq_dec t (p_threads s)) as [Hin|Hin]; [apply (proj1 Hen) in Hin; rewrite He in Hin; lia|apply (proj2 Hen Hin)]. }
    assert (Hbase : p_pc s t <> Join -> forall u, in_close (p_pc s' u) = true -> calls s = 1 /\ rets s' = 0).
    { intros Hj u Hu. rewrite (Lr Hj). apply (P1 u). apply Hic. exact Hu. }
    assert (Huniq : forall u v, in_close (p_pc s' u) = true -> in_close (p_pc s' v) = true -> u = v) by (intros u v Hu Hv; apply P2; auto).
    destruct HKd as [m x q E1 E2 Q1 Q2 U|m x E1 E2 Q U|n E1 E2 Q U|Q U _ He _ HS _].
    + (* taken *)
      assert (Hle : enders s' + nones (p_queue s') <= enders s + nones (p_queue s)).
      { rewrite Q1, Q2. unfold nones. rewrite E1, E2 in Hen. simpl in Hen. cbn [filter]. destruct (in_dec Nat.eq_dec t (p_threads s)) as [Hin|Hin].
        - apply (proj1 Hen) in Hin. destruct m, x; simpl in *; lia.
        - apply (proj2 Hen) in Hin. destruct x; simpl in *; lia. }
      assert (Hj : p_pc s t <> Join) by (rewrite E1; discriminate).
      assert (Hsame : forall u, putting (p_pc s' u) = true -> p_pc s' u = p_pc s u).
      { intros u Hu. destruct (Nat.eq_dec u t) as [->|Hne]; [rewrite Ect, E2 in Hu; discriminate|auto]. }
      rewrite (Lr Hj), Et. split; [intros u Hu; rewrite <- (Lr Hj); exact (Hbase Hj u Hu)|]. split; [exact Huniq|]. split; [exact P3|]. split; [|split; [|split]].
      * intros Hr Hp. assert (enders s + nones (p_queue s) = 0); [|lia]. apply P4; [exact Hr|]. intros u. destruct (Nat.eq_dec u t) as [->|Hne]; [rewrite E1; reflexivity|rewrite <- Hoth by exact Hne; auto].
      * intros u n Hu. rewrite Hsame in Hu by (rewrite Hu; reflexivity). specialize (P5 u n Hu). lia.
      * intros u Hu. rewrite Hsame in Hu by (rewrite Hu; reflexivity). specialize (P6 u Hu). lia.
      * intros u Hu. rewrite Hsame in Hu by exact Hu. destruct (P7 u Hu) as [Hz|[Hz|Hz]]; [left; lia|congruence|]. right. rewrite Q1 in Hz. rewrite Q2.
        destruct q as [|y q]; [left; reflexivity|right; exact Hz].
    + (* done *)
      assert (Hj : p_pc s t <> Join) by (rewrite E1; discriminate).
      assert (Hee : enders s' = enders s) by (apply Hen'; rewrite E1, E2; destruct m, x; reflexivity).
      assert (Hsame : forall u, putting (p_pc s' u) = true -> p_pc s' u = p_pc s u).
      { intros u Hu. destruct (Nat.eq_dec u t) as [->|Hne]; [rewrite Ect, E2 in Hu; destruct m, x; discriminate|auto]. }
      unfold tail_ok. rewrite (Lr Hj), Et, Hee, Q. split; [intros u Hu; rewrite <- (Lr Hj); exact (Hbase Hj u Hu)|]. split; [exact Huniq|]. split; [exact P3|]. split; [|split; [|split]].
      * intros Hr Hp. apply P4; [exact Hr|]. intros u. destruct (Nat.eq_dec u t) as [->|Hne]; [rewrite E1; reflexivity|rewrite <- Hoth by exact Hne; auto].
      * intros u n Hu. rewrite Hsame in Hu by (rewrite Hu; reflexivity). apply (P5 u n Hu).
      * intros u Hu. rewrite Hsame in Hu by (rewrite Hu; reflexivity). apply (P6 u Hu).
      * intros u Hu. rewrite Hsame in Hu by exact Hu. apply (P7 u Hu).
    + (* put *)
      assert (Hj : p_pc s t <> Join) by (rewrite E1; discriminate).
      assert (Hee : enders s' = enders s) by (apply Hen'; rewrite E1, E2; reflexivity).
      assert (Hme : forall u, in_close (p_pc s' u) = true -> u = t).
      { intros u Hu. apply Huniq; [exact Hu|]. rewrite Ect, E2. reflexivity. }
      assert (Hn : nones (p_queue s') = S (nones (p_queue s))) by (rewrite Q, nones_app; unfold nones; simpl; lia).
      unfold tail_ok. rewrite (Lr Hj), Et, Hee, Hn. split; [intros u Hu; rewrite <- (Lr Hj); exact (Hbase Hj u Hu)|]. split; [exact Huniq|]. split; [exact P3|]. split; [|split; [|split]].
      * intros Hr Hp. specialize (Hp t). rewrite Ect, E2 in Hp. discriminate.
      * intros u n' Hu. assert (u = t) by (apply Hme; rewrite Hu; reflexivity). subst u. rewrite Ect, E2 in Hu. injection Hu as <-. specialize (P5 t (S n) E1). lia.
      * intros u Hu. assert (u = t) by (apply Hme; rewrite Hu; reflexivity). subst u. rewrite Ect, E2 in Hu. discriminate.
      * intros u Hu. right. right. rewrite Q. apply last_snoc_none.
    + assert (Hee : enders s' = enders s) by (apply Hen'; exact He).
      unfold tail_ok. rewrite Et, Hee, Q. destruct HS as [[E1 E2]|[[E1 E2]|[[E1 E2]|(E1 & E2 & E3)]]].
      * assert (Hj : p_pc s t <> Join) by (rewrite E1; discriminate).
        assert (Hme : forall u, in_close (p_pc s u) = true -> u = t).
        { intros u Hu. apply P2; [exact Hu|]. rewrite E1. reflexivity. }
        assert (Hz : enders s + nones (p_queue s) = 0).
        { apply P4; [apply (P1 t); rewrite E1; reflexivity|]. intros u. destruct (putting (p_pc s u)) eqn:Eu; [|reflexivity].
          assert (u = t) by (apply Hme, in_close_putting; exact Eu). subst u. rewrite E1 in Eu. discriminate. }
        rewrite (Lr Hj). split; [intros u Hu; rewrite <- (Lr Hj); exact (Hbase Hj u Hu)|]. split; [exact Huniq|]. split; [exact P3|]. split; [|split; [|split]].
        -- auto.
        -- intros u n Hu. assert (u = t) by (apply Hme, Hic; rewrite Hu; reflexivity). subst u. rewrite Ect, E2 in Hu. injection Hu as <-. lia.
        -- intros u Hu. lia.
        -- auto.
      * assert (Hj : p_pc s t <> Join) by (rewrite E1; discriminate).
        assert (Hme : forall u, in_close (p_pc s u) = true -> u = t).
        { intros u Hu. apply P2; [exact Hu|]. rewrite E1. reflexivity. }
        rewrite (Lr Hj). split; [intros u Hu; rewrite <- (Lr Hj); exact (Hbase Hj u Hu)|]. split; [exact Huniq|]. split; [exact P3|]. split; [|split; [|split]].
        -- intros Hr Hp. specialize (Hp t). rewrite Ect, E2 in Hp. discriminate.
        -- intros u n Hu. assert (u = t) by (apply Hme, Hic; rewrite Hu; reflexivity). subst u. rewrite Ect, E2 in Hu. discriminate.
        -- intros u Hu. specialize (P5 t 0 E1). lia.
        -- intros u Hu. apply (P7 t). rewrite E1. reflexivity.
      * assert (Hme : forall u, in_close (p_pc s' u) = true -> False).
        { intros u Hu. assert (Hut : u = t) by (apply P2; [apply Hic; exact Hu|rewrite E1; reflexivity]). subst u. rewrite Ect, E2 in Hu. discriminate. }
        rewrite (Lj E1). destruct (P1 t) as [Hc1 Hr0]; [rewrite E1; reflexivity|]. split; [intros u Hu; destruct (Hme u Hu)|]. split; [exact Huniq|]. split; [lia|]. split; [lia|]. split; [|split].
        -- intros u n Hu. destruct (Hme u). rewrite Hu. reflexivity.
        -- intros u Hu. destruct (Hme u). rewrite Hu. reflexivity.
        -- intros u Hu. destruct (Hme u). apply in_close_putting, Hu.
      * assert (Hj : p_pc s t <> Join) by (intros Hj; rewrite Hj in E1; discriminate).
        assert (Hsame : forall u, putting (p_pc s' u) = true -> p_pc s' u = p_pc s u).
        { intros u Hu. destruct (Nat.eq_dec u t) as [->|Hne]; [rewrite Ect, E2 in Hu; discriminate|auto]. }
        rewrite (Lr Hj). split; [intros u Hu; rewrite <- (Lr Hj); exact (Hbase Hj u Hu)|]. split; [exact Huniq|]. split; [exact P3|]. split; [|split; [|split]].
        -- intros Hr Hp. apply P4; [exact Hr|]. intros u. destruct (Nat.eq_dec u t) as [->|Hne]; [exact E1|rewrite <- Hoth by exact Hne; auto].
        -- intros u n Hu. rewrite Hsame in Hu by (rewrite Hu; reflexivity). apply (P5 u n Hu).
        -- intros u Hu. rewrite Hsame in Hu by (rewrite Hu; reflexivity). apply (P6 u Hu).
        -- intros u Hu. rewrite Hsame in Hu by exact Hu. apply (P7 u Hu).
Qed.
Definition sound (s : pool) : Prop := base s /\ closes s /\ members s /\ counted s /\ one_closer s.
Lemma step_sound s a : sound s -> sound (step s a).
Proof.
  intros (H1 & H2 & H3 & H4 & H5). split; [apply step_base; exact H1|]. split; [apply step_closes; assumption|]. split; [apply step_members; assumption|].
  split; [apply step_counted; assumption|apply step_one; assumption].
Qed.
Lemma sound_make : sound pool_make.
Proof.
  split; [exact base_make|]. split; [exact closes_make|]. split; [split; [constructor|intros u []]|]. split.
  - exists []. split; [constructor|]. split; [intros u; simpl; split; [tauto|discriminate]|reflexivity].
  - intros _. cbn. repeat split; try discriminate; try reflexivity.
Qed.
Lemma run_sound l : sound (run l pool_make).
Proof. apply run_inv; [intros; apply step_sound; assumption|exact sound_make]. Qed.
Lemma filter_len {X} (f : X -> bool) l : (forall x, In x l -> f x = true) -> length (filter f l) = length l.
Proof. induction l as [|x l IH]; intros H; [reflexivity|]. simpl. rewrite (H x) by (left; reflexivity). simpl. rewrite IH; [reflexivity|]. intros; apply H; right; assumption. Qed.
Lemma nones_last q : q <> [] -> last q (Some 0) = None -> 0 < nones q.
Proof.
  intros Hq Hl. destruct (exists_last Hq) as (q' & x & ->). rewrite last_last in Hl. subst x. rewrite nones_app. unfold nones. simpl. lia.
Qed.
(** while the one call of close goes on, some thread can go on *)
Lemma alive s t : sound s -> calls s <= 1 -> in_close (p_pc s t) = true -> ~ (forall u, go u s = None).
Proof.
  intros (HB & HCl & [HN HW] & (B & HNB & HI & HC) & HO) Hc Ht Hstuck.
  destruct (HO Hc) as (_ & _ & _ & _ & _ & P6 & P7). assert (HL := proj1 HB).
  assert (Hlock : forall i, p_lock s i = None).
  { intros i. destruct (p_lock s i) as [v|] eqn:E; [|reflexivity]. exfalso. apply HL in E. assert (Hv := Hstuck v). unfold go in Hv.
    destruct (p_pc s v); simpl in E; discriminate. }
  assert (Hpos : forall u, match p_pc s u with Idle | Dead | Join => True | AtGet _ => p_queue s = [] | _ => False end).
  { intros u. assert (Hu := Hstuck u). unfold go in Hu. unfold lock_free in Hu. destruct (p_pc s u) as [| |m|m|m x|m i|m i|m i|m i|m i|m i|m x|l|i l|i l|i l|i l|[|n]|]; try exact I; try discriminate Hu.
    - destruct (p_queue s) as [|[|] ?]; [reflexivity|discriminate|discriminate].
    - rewrite (Hlock i) in Hu. discriminate.
    - rewrite (Hlock i) in Hu. discriminate. }
  assert (Ej : p_pc s t = Join) by (specialize (Hpos t); destruct (p_pc s t); try discriminate; try destruct Hpos; reflexivity).
  assert (Hgo := Hstuck t). unfold go in Hgo. rewrite Ej in Hgo.
  assert (HB0 : B = []).
  { destruct B as [|u B']; [reflexivity|]. exfalso. assert (Hu : busy (p_pc s u) = true) by (apply HI; left; reflexivity). specialize (Hpos u). destruct (p_pc s u); try discriminate; destruct Hpos. }
  subst B. simpl in HC. destruct (p_threads s) as [|w ths] eqn:Eth; [discriminate|]. destruct (p_unfinished s) as [|n] eqn:Eu; [discriminate|].
  assert (Hq : p_queue s <> []) by (intros E; rewrite E in HC; simpl in HC; lia).
  assert (Hdead : enders s = length (p_threads s)).
  { unfold enders. apply filter_len. intros u Hu. rewrite Eth in Hu. specialize (HW u Hu). specialize (Hpos u). destruct (p_pc s u); try discriminate; try (destruct Hpos; fail); [reflexivity|contradiction]. }
  specialize (P6 t Ej). rewrite Hdead, Eth in P6. destruct (P7 t) as [Hz|[Hz|Hz]]; [rewrite Ej; reflexivity| | |].
  - rewrite Hdead, Eth in Hz. simpl in Hz. lia.
  - contradiction.
  - assert (H := nones_last _ Hq Hz). lia.
Qed.

(** *** only so many steps are left *)
Definition weight (k : nat) (c : pc) : nat :=
  match c with
  | Idle | Dead => 0
  | AtGet _ => 1 | AtEmpty _ => 2 | Done _ _ => 3 | EOut _ _ => 4 | EFin _ _ => 5 | Clearing _ _ => 6 | Running _ _ => 7 | EIn _ _ => 8 | EWait _ _ => 9 | Got _ _ => 10
  | Join => 1
  | Puts n => 2 + 11 * n
  | Closing l => 3 + 11 * k + 5 * length l
  | CWait _ l => 7 + 11 * k + 5 * length l
  | CIn _ l => 6 + 11 * k + 5 * length l
  | CFin _ l => 5 + 11 * k + 5 * length l
  | COut _ l => 4 + 11 * k + 5 * length l
  end.
Definition total (T : list nat) (s : pool) : nat := 10 * length (p_queue s) + list_sum (map (fun u => weight (length (p_threads s)) (p_pc s u)) T).
Lemma sum_upd T f g t : NoDup T -> In t T -> (forall u : nat, u <> t -> g u = f u) -> list_sum (map g T) + f t = list_sum (map f T) + g t.
Proof.
  induction T as [|u T IH]; intros HN Hin Hg; [destruct Hin|]. inversion HN as [|? ? Hu HN']; subst. simpl. destruct (Nat.eq_dec u t) as [->|Hne].
  - assert (E : list_sum (map g T) = list_sum (map f T)); [|lia]. f_equal. apply map_ext_in. intros v Hv. apply Hg. intros ->. contradiction.
  - destruct Hin as [->|Hin]; [contradiction|]. specialize (IH HN' Hin Hg). rewrite (Hg u Hne). lia.
Qed.
Lemma go_weight t s s' : go t s = Some s' ->
  10 * length (p_queue s') + weight (length (p_threads s)) (p_pc s' t) < 10 * length (p_queue s) + weight (length (p_threads s)) (p_pc s t).
Proof.
  intros Eg. unfold go in Eg.
  destruct (p_pc s t) as [| |m|m|m x|m i|m i|m i|m i|m i|m i|m x|l|i l|i l|i l|i l|[|n]|] eqn:E; try discriminate Eg.
  - injection Eg as <-. rewrite pc_at. expose. destruct (p_queue s); simpl; lia.
  - destruct (p_queue s) as [|[i|] q]; [discriminate| |]; injection Eg as <-; expose; rewrite upd_same; simpl; lia.
  - injection Eg as <-. rewrite pc_at. expose. destruct x; [destruct (p_closed s)|]; simpl; lia.
  - destruct (lock_free i s); [|discriminate]. injection Eg as <-. expose; rewrite upd_same; simpl; lia.
  - destruct (p_fn s i); injection Eg as <-; expose; rewrite upd_same; simpl; lia.
  - injection Eg as <-. expose; rewrite upd_same; simpl; lia.
  - injection Eg as <-. expose; rewrite upd_same; simpl; lia.
  - injection Eg as <-. rewrite pc_at. expose. rewrite remove_task_queue. simpl; lia.
  - injection Eg as <-. expose; rewrite upd_same; simpl; lia.
  - injection Eg as <-. rewrite pc_at. expose. destruct m, x; simpl; lia.
  - injection Eg as <-. rewrite pc_at. expose. destruct l; simpl; lia.
  - destruct (lock_free i s); [|discriminate]. injection Eg as <-. expose; rewrite upd_same; simpl; lia.
  - destruct (p_fn s i); injection Eg as <-; expose; rewrite upd_same; simpl; lia.
  - injection Eg as <-. rewrite pc_at. expose. rewrite remove_task_queue. simpl; lia.
  - injection Eg as <-. expose; rewrite upd_same; simpl; lia.
  - injection Eg as <-. expose; rewrite upd_same; simpl; lia.
  - injection Eg as <-. expose; rewrite upd_same, app_length; simpl; lia.
  - assert (Eg' : Some (add_log (CloseRet t) (at_pc t Idle s)) = Some s') by (destruct (p_threads s), (p_unfinished s); try discriminate Eg; exact Eg).
    injection Eg' as <-. expose; rewrite upd_same; simpl; lia.
Qed.
Definition within (T : list nat) (s : pool) : Prop := forall u, ~ In u T -> p_pc s u = Idle.
Lemma go_total T t s s' : NoDup T -> within T s -> go t s = Some s' -> total T s' < total T s /\ within T s'.
Proof.
  intros HN HT Eg. assert (Hin : In t T). { destruct (in_dec Nat.eq_dec t T) as [|Hn]; [assumption|]. specialize (HT t Hn). unfold go in Eg. rewrite HT in Eg. discriminate. }
  destruct (go_frame _ _ _ Eg) as (c & Ec & _ & Et & _). split.
  - unfold total. rewrite Et. assert (Hw := go_weight _ _ _ Eg). set (k := length (p_threads s)) in *.
    assert (H := sum_upd T (fun u => weight k (p_pc s u)) (fun u => weight k (p_pc s' u)) t HN Hin). simpl in H.
    specialize (H ltac:(intros u Hu; rewrite Ec, upd_other by exact Hu; reflexivity)). lia.
  - intros u Hu. rewrite Ec, upd_other; [exact (HT u Hu)|]. intros ->. contradiction.
Qed.
Lemma finite l : exists T, NoDup T /\ within T (run l pool_make).
Proof.
  rewrite <- (rev_involutive l). induction (rev l) as [|a l' (T & HN & HT)]; [exists []; split; [constructor|intros u _; reflexivity]|].
  cbn [rev]. unfold run. rewrite fold_left_app. cbn [fold_left]. fold (run (rev l') pool_make). set (s := run (rev l') pool_make) in *. clearbody s.
  assert (Hadd : forall t s', (forall u, u <> t -> p_pc s' u = p_pc s u) -> exists T, NoDup T /\ within T s').
  { intros t s' Hs. destruct (in_dec Nat.eq_dec t T) as [Hin|Hn].
    - exists T. split; [exact HN|]. intros u Hu. rewrite Hs; [exact (HT u Hu)|]. intros ->. contradiction.
    - exists (t :: T). split; [constructor; assumption|]. intros u Hu. rewrite Hs; [apply HT; intros H; apply Hu; right; exact H|]. intros ->. apply Hu. left. reflexivity. }
  destruct a as [|t|t|t|t|t]; cbn [step]; unfold if_idle.
  - exists T. split; [exact HN|]. intros u Hu. unfold queue_fn. destruct (p_closed s); apply (HT u Hu).
  - apply (Hadd t). intros u Hu. destruct (p_pc s t); try reflexivity. expose. apply upd_other. exact Hu.
  - apply (Hadd t). intros u Hu. destruct (p_pc s t); try reflexivity. expose. apply upd_other. exact Hu.
  - apply (Hadd t). intros u Hu. destruct (p_pc s t); try reflexivity. expose. apply upd_other. exact Hu.
  - apply (Hadd t). intros u Hu. destruct (p_pc s t); try reflexivity. expose. apply upd_other. exact Hu.
  - apply (Hadd t). intros u Hu. destruct (go t s) as [s'|] eqn:Eg; [|reflexivity]. destruct (go_frame _ _ _ Eg) as (c & Ec & _). rewrite Ec, upd_other by exact Hu. reflexivity.
Qed.
Lemma go_returns t s s' : base s -> go t s = Some s' -> forall u, in_close (p_pc s u) = true -> in_close (p_pc s' u) = true \/ In (CloseRet u) (p_log s').
Proof.
  intros HB Eg u Hu. assert (HK := go_kind _ _ _ Eg). destruct (go_frame _ _ _ Eg) as (c & Ec & _). destruct (Nat.eq_dec u t) as [->|Hne].
  2:{ left. rewrite Ec, upd_other by exact Hne. exact Hu. }
  destruct HK as [m x q E1 _ _ _ _|m x E1 _ _ _|n E1 E2 _ _|_ _ _ _ _ [[E1 E2]|[[E1 E2]|[[E1 E2]|(_ & _ & E3)]]] _].
  - rewrite E1 in Hu. discriminate.
  - rewrite E1 in Hu. discriminate.
  - left. rewrite E2. reflexivity.
  - left. rewrite E2. reflexivity.
  - left. rewrite E2. reflexivity.
  - right. unfold go in Eg. rewrite E1 in Eg.
    assert (Eg' : Some (add_log (CloseRet t) (at_pc t Idle s)) = Some s') by (destruct (p_threads s), (p_unfinished s); try discriminate Eg; exact Eg).
    injection Eg' as <-. expose. apply in_elt.
  - left. rewrite E3. exact Hu.
Qed.
Lemma go_keeps_ret t s s' u : base s -> go t s = Some s' -> In (CloseRet u) (p_log s) -> In (CloseRet u) (p_log s').
Proof. intros HB Eg Hin. destruct (go_event _ _ _ HB Eg) as [->|(e & -> & _)]; [exact Hin|apply in_or_app; auto]. Qed.
Lemma runs_sound ts : forall s s', runs ts s s' -> sound s -> forall T t, NoDup T -> within T s ->
  in_close (p_pc s t) = true \/ In (CloseRet t) (p_log s) ->
  sound s' /\ within T s' /\ length ts + total T s' <= total T s /\ calls s' = calls s /\ (in_close (p_pc s' t) = true \/ In (CloseRet t) (p_log s')).
Proof.
  induction ts as [|u ts IH]; intros s s' H HS T t HN HT Ht.
  - simpl in H. subst s'. simpl. split; [exact HS|]. split; [exact HT|]. split; [lia|]. split; [reflexivity|exact Ht].
  - simpl in H. destruct (go u s) as [s1|] eqn:Eg; [|destruct H]. assert (HB : base s) by apply HS.
    destruct (go_total T u s s1 HN HT Eg) as [Hlt HT1]. assert (HS1 : sound s1).
    { assert (E : s1 = step s (Go u)) by (cbn [step]; rewrite Eg; reflexivity). rewrite E. apply step_sound. exact HS. }
    assert (Ht1 : in_close (p_pc s1 t) = true \/ In (CloseRet t) (p_log s1)).
    { destruct Ht as [Ht|Ht]; [exact (go_returns _ _ _ HB Eg t Ht)|right; exact (go_keeps_ret _ _ _ _ HB Eg Ht)]. }
    destruct (IH s1 s' H HS1 T t HN HT1 Ht1) as (G1 & G2 & G3 & G4 & G5). destruct (go_log _ _ _ HB Eg) as (Lc & _).
    split; [exact G1|]. split; [exact G2|]. split; [simpl; lia|]. split; [congruence|exact G5].
Qed.
Lemma close_comes_back l t : calls (run l pool_make) <= 1 -> in_close (p_pc (run l pool_make) t) = true ->
  exists N, forall ts s', runs ts (run l pool_make) s' -> length ts <= N /\ ((forall u, go u s' = None) -> In (CloseRet t) (p_log s')).
Proof.
  intros Hc Ht. destruct (finite l) as (T & HN & HT). exists (total T (run l pool_make)). intros ts s' H.
  destruct (runs_sound ts _ _ H (run_sound l) T t HN HT (or_introl Ht)) as (G1 & G2 & G3 & G4 & G5). split; [lia|].
  intros Hstuck. destruct G5 as [G5|G5]; [|exact G5]. exfalso. apply (alive s' t G1); [lia|exact G5|exact Hstuck].
Qed.
Lemma step_ret s a t : (match a with Queue | CallClose _ | Go _ => True | _ => False end) -> hung s -> In (CloseRet t) (p_log (step s a)) -> In (CloseRet t) (p_log s).
Proof.
  intros Ha H Hin. destruct (hung_step s a Ha H) as [_ Hr]. unfold rets in Hr.
  assert (Hpre : exists l, p_log (step s a) = p_log s ++ l).
  { destruct a as [|u|u|u|u|u]; cbn [step]; unfold if_idle; try (destruct (p_pc s u); exists []; rewrite app_nil_r; reflexivity).
    - unfold queue_fn. destruct (p_closed s); expose; eauto.
    - destruct (p_pc s u); try (exists []; rewrite app_nil_r; reflexivity). expose. eauto.
    - destruct (go u s) as [s'|] eqn:Eg; [|exists []; rewrite app_nil_r; reflexivity]. unfold go in Eg.
      destruct (p_pc s u) as [| |m|m|m x|m i|m i|m i|m i|m i|m i|m x|l|i l|i l|i l|i l|[|n]|]; try discriminate Eg;
        try (injection Eg as <-; expose; eauto; exists []; rewrite app_nil_r; reflexivity).
      + destruct (p_queue s) as [|[]]; [discriminate| |]; injection Eg as <-; expose; eauto; exists []; rewrite app_nil_r; reflexivity.
      + destruct (lock_free i s); [|discriminate]; injection Eg as <-; expose; eauto; exists []; rewrite app_nil_r; reflexivity.
      + destruct (p_fn s i); injection Eg as <-; expose; eauto; exists []; rewrite app_nil_r; reflexivity.
      + injection Eg as <-. unfold remove_task. destruct (remove_first i (p_tasks s)); expose; eauto.
      + destruct (lock_free i s); [|discriminate]; injection Eg as <-; expose; eauto; exists []; rewrite app_nil_r; reflexivity.
      + destruct (p_fn s i); injection Eg as <-; expose; eauto; exists []; rewrite app_nil_r; reflexivity.
      + injection Eg as <-. unfold remove_task. destruct (remove_first i (p_tasks s)); expose; eauto.
      + destruct (p_threads s), (p_unfinished s); try discriminate Eg; injection Eg as <-; expose; eauto. }
  destruct Hpre as [l El]. rewrite El in *. rewrite count_app in Hr. apply in_app_or in Hin. destruct Hin as [Hin|Hin]; [exact Hin|]. exfalso.
  assert (Hp := count_pos (fun e => match e with CloseRet _ => true | _ => false end) l _ Hin eq_refl). lia.
Qed.
Lemma second_close s l : p_threads s <> [] -> (forall t, p_pc s t = Idle \/ p_pc s t = Dead) ->
  (forall a, In a l -> match a with Queue | CallClose _ | Go _ => True | _ => False end) ->
  forall t, In (CloseRet t) (p_log (run l s)) -> In (CloseRet t) (p_log s).
Proof.
  intros H1 H2 Ha t. assert (HH : hung s). { split; [exact H1|]. intros u. destruct (H2 u) as [-> | ->]; auto. } clear H1 H2.
  revert s HH Ha. induction l as [|a l IH]; intros s HH Ha Hin; [exact Hin|]. unfold run in Hin. cbn [fold_left] in Hin. fold (run l (step s a)) in Hin.
  assert (Ha0 := Ha a (or_introl eq_refl)). apply (step_ret s a t Ha0 HH). apply IH; [apply (hung_step s a Ha0 HH)|intros b Hb; apply Ha; right; exact Hb|exact Hin].
Qed.
