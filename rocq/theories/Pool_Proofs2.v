(** Proofs for Pool_Props: closing, the order of the tasks. *)
From Coq Require Import Arith Bool List Lia Setoid Sorted.
From Verif Require Import Pool_Model Pool_Spec Pool_Proofs.
Import ListNotations.

(** the tasks that close has not finished with *)
Definition left_of (c : pc) : list nat :=
  match c with
  | Closing l | COut _ l => l
  | CWait i l | CIn i l | CFin i l => i :: l
  | _ => []
  end.
Definition closes (s : pool) : Prop :=
  (forall t, in_close (p_pc s t) = true -> p_closed s = true /\ incl (p_tasks s) (left_of (p_pc s t))) /\
  (forall t, In (CloseRet t) (p_log s) -> p_closed s = true /\ p_tasks s = []) /\
  (forall t, In (CloseCalled t) (p_log s) -> p_closed s = true).
Lemma remove_first_incl i l l' : remove_first i l = Some l' -> incl l' l.
Proof.
  revert l'. induction l as [|j l IH]; simpl; [discriminate|]. intros l'. destruct (Nat.eqb j i).
  - intros [= <-]. apply incl_tl, incl_refl.
  - destruct (remove_first i l) as [r|]; [|discriminate]. intros [= <-]. intros x [<-|Hx]; [left; reflexivity|right; apply (IH r); auto].
Qed.
Lemma not_listed s i : listed s -> i < p_next s -> count (is_removed i) (p_log s) = 1 -> ~ In i (p_tasks s).
Proof. intros [H1 _] Hi Hr Hin. specialize (H1 i Hi). apply (count_occ_In Nat.eq_dec) in Hin. lia. Qed.
Lemma closed_mono s a : p_closed s = true -> p_closed (step s a) = true.
Proof.
  intros H. destruct a as [|t|t|t|t|t]; cbn [step]; unfold if_idle; try (destruct (p_pc s t); assumption || reflexivity).
  - unfold queue_fn. rewrite H. exact H.
  - destruct (go t s) as [s'|] eqn:Eg; [|exact H]. destruct (go_frame _ _ _ Eg) as (c & _ & _ & _ & -> & _). exact H.
Qed.
Lemma tasks_mono s a : base s -> p_closed s = true -> incl (p_tasks (step s a)) (p_tasks s).
Proof.
  intros HB H. destruct a as [|t|t|t|t|t]; cbn [step]; unfold if_idle; try (destruct (p_pc s t); apply incl_refl).
  - unfold queue_fn. rewrite H. apply incl_refl.
  - destruct (go t s) as [s'|] eqn:Eg; [|apply incl_refl]. destruct (go_tasks _ _ _ HB Eg) as [(i & _ & Er & _)|(-> & _)]; [|apply incl_refl].
    eapply remove_first_incl. exact Er.
Qed.
Lemma go_left t s s' : base s -> go t s = Some s' -> in_close (p_pc s' t) = true ->
  incl (p_tasks s) (left_of (p_pc s t)) -> incl (p_tasks s') (left_of (p_pc s' t)).
Proof.
  intros HB Eg. destruct (go_tasks _ _ _ HB Eg) as [(i0 & Hi0 & Er & El & Ef)|(Et & _)].
  - (* something is removed: only by EFin, CFin *)
    assert (Hmono := remove_first_incl _ _ _ Er). unfold go in Eg.
    assert (HK := proj1 (proj2 HB) t). assert (HRM := fin_removes s t). assert (HT := proj1 (proj2 (proj2 HB))).
    destruct (p_pc s t) as [| |m|m|m x|m i|m i|m i|m i|m i|m i|m x|l|i l|i l|i l|i l|[|n]|] eqn:E; try discriminate Eg; cbn [left_of refs held] in *.
    all: try (injection Eg as <-; exfalso; assert (Hlog := f_equal (@length event) El); expose; rewrite app_length in Hlog; simpl in Hlog; lia).
    all: try (injection Eg as <-; expose; rewrite upd_same; discriminate).
    + destruct (p_queue s) as [|[i|] q]; [discriminate| |]; injection Eg as <-; expose; rewrite upd_same; discriminate.
    + destruct (lock_free i s); [|discriminate]. injection Eg as <-. expose; rewrite upd_same; discriminate.
    + destruct (p_fn s i); injection Eg as <-; expose; rewrite upd_same; discriminate.
    + destruct (lock_free i s); [|discriminate]. injection Eg as <-. exfalso. assert (Hlog := f_equal (@length event) El); expose; rewrite app_length in Hlog; simpl in Hlog; lia.
    + destruct (p_fn s i); injection Eg as <-; exfalso; assert (Hlog := f_equal (@length event) El); expose; rewrite app_length in Hlog; simpl in Hlog; lia.
    + destruct (HRM i HB eq_refl I) as [Hin Hi]. destruct (remove_task_ok s i Hin) as (l' & Er' & Ef'). rewrite Er' in Eg. injection Eg as <-.
      expose. rewrite upd_same. cbn [left_of]. intros _ Hincl x Hx. destruct (Hincl x (Hmono x Hx)) as [<-|]; [|assumption]. exfalso.
      apply app_inv_head in El. injection El as <-. destruct HT as [H1 _]. specialize (H1 i Hi). rewrite (remove_first_count i _ _ i Er), Nat.eqb_refl in H1.
      apply (count_occ_In Nat.eq_dec) in Hx. lia.
    + destruct (p_threads s), (p_unfinished s); try discriminate Eg; injection Eg as <-; expose; rewrite upd_same; discriminate.
  - rewrite Et. unfold go in Eg. assert (HL := proj1 HB). assert (HK := proj1 (proj2 HB) t). assert (HT := proj1 (proj2 (proj2 HB))). assert (HP := proj1 (proj2 (proj2 (proj2 HB)))).
    assert (HRM := fin_removes s t).
    destruct (p_pc s t) as [| |m|m|m x|m i|m i|m i|m i|m i|m i|m x|l|i l|i l|i l|i l|[|n]|] eqn:E; try discriminate Eg; cbn [left_of refs held] in *.
    + injection Eg as <-; expose; rewrite upd_same. destruct (p_queue s); discriminate.
    + destruct (p_queue s) as [|[i|] q]; [discriminate| |]; injection Eg as <-; expose; rewrite upd_same; discriminate.
    + injection Eg as <-; expose; rewrite upd_same. destruct x; [destruct (p_closed s)|]; discriminate.
    + destruct (lock_free i s); [|discriminate]. injection Eg as <-. expose; rewrite upd_same; discriminate.
    + destruct (p_fn s i); injection Eg as <-; expose; rewrite upd_same; discriminate.
    + injection Eg as <-; expose; rewrite upd_same; discriminate.
    + injection Eg as <-; expose; rewrite upd_same; discriminate.
    + injection Eg as <-; expose; rewrite upd_same; discriminate.
    + injection Eg as <-; expose; rewrite upd_same; discriminate.
    + injection Eg as <-; expose; rewrite upd_same. destruct m, x; discriminate.
    + injection Eg as <-; expose; rewrite upd_same. destruct l; auto.
    + destruct (lock_free i s); [|discriminate]. injection Eg as <-. expose; rewrite upd_same; auto.
    + destruct (p_fn s i) eqn:Ef; injection Eg as <-; expose; rewrite upd_same; [auto|]. cbn [left_of]. intros _ Hincl x Hx.
      destruct (Hincl x Hx) as [<-|]; [|assumption]. exfalso. revert Hx. apply not_listed; [exact HT|apply HK; left; reflexivity|].
      specialize (HP i). unfold phase_of in HP. assert (Hl : p_lock s i = Some t) by (apply HL; rewrite E; reflexivity).
      rewrite Hl in HP. cbn [option_map] in HP. rewrite E in HP. cbn [phase] in HP. tauto.
    + destruct (HRM i HB eq_refl I) as [Hin Hi]. destruct (remove_task_ok s i Hin) as (l' & Er' & Ef'). rewrite Er' in Eg. injection Eg as <-. expose.
      exfalso. subst l'. assert (Hc := remove_first_count i _ _ i Ef'). rewrite Nat.eqb_refl in Hc. lia.
    + injection Eg as <-; expose; rewrite upd_same; auto.
    + injection Eg as <-; expose; rewrite upd_same; auto.
    + injection Eg as <-; expose; rewrite upd_same; auto.
    + destruct (p_threads s), (p_unfinished s); try discriminate Eg; injection Eg as <-; expose; rewrite upd_same; discriminate.
Qed.
(** the log grows by at most one event; which ones *)
Lemma go_event t s s' : base s -> go t s = Some s' ->
  p_log s' = p_log s \/ exists e, p_log s' = p_log s ++ [e] /\
    match e with
    | Queued _ | Dropped | CloseCalled _ | RemoveFailed _ => False
    | CloseRet u => u = t /\ p_pc s t = Join /\ p_tasks s' = p_tasks s
    | Started u i => u = t /\ (exists m, p_pc s t = EIn m i) /\ In i (p_tasks s)
    | Ended _ i | Removed i => In i (p_tasks s)
    | Taken u i => u = t /\ (exists m, p_pc s t = AtGet m) /\ (exists q, p_queue s = Some i :: q)
    end.
Proof.
  intros HB Eg. assert (HRM := fin_removes s t). assert (HB' := HB). destruct HB' as (HL & HK & HT & HP & _).
  assert (Hin : forall i, held (p_pc s t) = Some i -> p_fn s i = true -> In i (p_tasks s)).
  { intros i Hh Hf. assert (Hl : p_lock s i = Some t) by (apply HL; exact Hh). specialize (HP i). unfold phase_of in HP. rewrite Hl, Hf in HP. cbn [option_map] in HP.
    assert (Hi : i < p_next s). { apply (HK t). destruct (p_pc s t); simpl in Hh |- *; try discriminate; injection Hh as <-; left; reflexivity. }
    assert (Hc := proj1 HT i Hi). apply (count_occ_In Nat.eq_dec).
    destruct (p_pc s t); simpl in Hh; try discriminate; cbn [phase] in HP; intuition (try congruence; lia). }
  unfold go in Eg.
  destruct (p_pc s t) as [| |m|m|m x|m i|m i|m i|m i|m i|m i|m x|l|i l|i l|i l|i l|[|n]|] eqn:E; try discriminate Eg; cbn [held] in *.
  all: try (injection Eg as <-; left; reflexivity).
  - destruct (p_queue s) as [|[i|] q]; [discriminate| |]; injection Eg as <-; [right|left; reflexivity]. eexists. split; [reflexivity|]. repeat split; eauto.
  - destruct (lock_free i s); [|discriminate]. injection Eg as <-. left; reflexivity.
  - destruct (p_fn s i) eqn:Ef; injection Eg as <-; [right|left; reflexivity]. eexists. split; [reflexivity|]. repeat split; eauto.
  - injection Eg as <-. right. eexists. split; [reflexivity|]. cbv beta iota. apply Hin; [reflexivity|].
    assert (Hl : p_lock s i = Some t) by (apply HL; rewrite E; reflexivity). specialize (HP i). unfold phase_of in HP. rewrite Hl in HP. cbn [option_map] in HP. rewrite E in HP. apply HP.
  - destruct (HRM i HB eq_refl I) as [Hi _]. destruct (remove_task_ok s i Hi) as (l' & Er' & Ef'). rewrite Er' in Eg. injection Eg as <-. right. eexists. split; [reflexivity|]. exact Hi.
  - destruct (lock_free i s); [|discriminate]. injection Eg as <-. left; reflexivity.
  - destruct (p_fn s i) eqn:Ef; injection Eg as <-; left; reflexivity.
  - destruct (HRM i HB eq_refl I) as [Hi _]. destruct (remove_task_ok s i Hi) as (l' & Er' & Ef'). rewrite Er' in Eg. injection Eg as <-. right. eexists. split; [reflexivity|]. exact Hi.
  - assert (Eg' : Some (add_log (CloseRet t) (at_pc t Idle s)) = Some s') by (destruct (p_threads s), (p_unfinished s); try discriminate Eg; exact Eg).
    injection Eg' as <-. right. eexists. split; [reflexivity|]. repeat split.
Qed.
Lemma incl_nil {X} (l : list X) : incl l [] -> l = [].
Proof. destruct l as [|x l]; [reflexivity|]. intros H. destruct (H x (or_introl eq_refl)). Qed.
Lemma step_closes s a : base s -> closes s -> closes (step s a).
Proof.
  intros HB (H1 & H2 & H3). assert (HM := closed_mono s a). assert (HT := tasks_mono s a HB).
  assert (Hold1 : forall u, in_close (p_pc s u) = true -> p_closed (step s a) = true /\ incl (p_tasks (step s a)) (left_of (p_pc s u))).
  { intros u Hu. destruct (H1 u Hu) as [Hc Hi]. split; [auto|]. intros x Hx. apply Hi, HT; assumption. }
  assert (Hold2 : forall u, In (CloseRet u) (p_log s) -> p_closed (step s a) = true /\ p_tasks (step s a) = []).
  { intros u Hu. destruct (H2 u Hu) as [Hc Hi]. split; [auto|]. apply incl_nil. rewrite <- Hi. auto. }
  assert (Hold3 : forall u, In (CloseCalled u) (p_log s) -> p_closed (step s a) = true) by (intros u Hu; apply HM, (H3 u Hu)).
  destruct a as [|t|t|t|t|t].
  - split; [|split].
    + intros u. assert (p_pc (step s Queue) = p_pc s) as -> by (cbn [step]; unfold queue_fn; destruct (p_closed s); reflexivity). apply Hold1.
    + intros u Hu. apply Hold2 with u. cbn [step] in Hu. unfold queue_fn in Hu. destruct (p_closed s); expose; apply in_app_or in Hu; destruct Hu as [|[|[]]]; try discriminate; assumption.
    + intros u Hu. apply Hold3 with u. cbn [step] in Hu. unfold queue_fn in Hu. destruct (p_closed s); expose; apply in_app_or in Hu; destruct Hu as [|[|[]]]; try discriminate; assumption.
  - cbn [step] in *. unfold if_idle in *. destruct (p_pc s t) eqn:E; try (unfold closes; auto; fail). split; [|split; [exact Hold2|exact Hold3]].
    intros u. expose. unfold upd. destruct (Nat.eqb u t); [discriminate|apply H1].
  - cbn [step] in *. unfold if_idle in *. destruct (p_pc s t) eqn:E; try (unfold closes; auto; fail). split; [|split; [exact Hold2|exact Hold3]].
    intros u. expose. unfold upd. destruct (Nat.eqb u t); [discriminate|apply H1].
  - cbn [step] in *. unfold if_idle in *. destruct (p_pc s t) eqn:E; try (unfold closes; auto; fail). split; [|split; [exact Hold2|exact Hold3]].
    intros u. expose. unfold upd. destruct (Nat.eqb u t); [discriminate|apply H1].
  - cbn [step] in *. unfold if_idle in *. destruct (p_pc s t) eqn:E; try (unfold closes; auto; fail). split; [|split].
    + intros u. expose. unfold upd. destruct (Nat.eqb u t); [intros _; split; [reflexivity|apply incl_refl]|]. intros Hu. split; [reflexivity|apply H1; exact Hu].
    + intros u Hu. expose. apply in_app_or in Hu. destruct Hu as [Hu|[|[]]]; [|discriminate]. split; [reflexivity|apply (H2 u Hu)].
    + intros u _. reflexivity.
  - cbn [step] in *. destruct (go t s) as [s'|] eqn:Eg; [|unfold closes; auto].
    destruct (go_frame _ _ _ Eg) as (c & Ec & _ & _ & Ecl & _ & Hcl). split; [|split].
    + intros u. destruct (Nat.eq_dec u t) as [->|Hne].
      * intros Hu. assert (Hu' : in_close (p_pc s t) = true) by (apply Hcl; rewrite Ec, upd_same in Hu; exact Hu).
        destruct (H1 t Hu') as [Hc Hi]. split; [rewrite Ecl; exact Hc|]. apply (go_left t s s'); assumption.
      * rewrite Ec, upd_other by exact Hne. apply Hold1.
    + intros u Hu. destruct (go_event _ _ _ HB Eg) as [El|(e & El & He)]; rewrite El in Hu; [exact (Hold2 u Hu)|].
      apply in_app_or in Hu. destruct Hu as [Hu|[->|[]]]; [exact (Hold2 u Hu)|]. destruct He as (-> & Ej & Et).
      destruct (H1 t) as [Hc Hi]; [rewrite Ej; reflexivity|]. split; [rewrite Ecl; exact Hc|]. rewrite Et. apply incl_nil. rewrite Ej in Hi. exact Hi.
    + intros u Hu. destruct (go_event _ _ _ HB Eg) as [El|(e & El & He)]; rewrite El in Hu; [exact (Hold3 u Hu)|].
      apply in_app_or in Hu. destruct Hu as [Hu|[->|[]]]; [exact (Hold3 u Hu)|destruct He].
Qed.
Lemma closes_make : closes pool_make.
Proof. repeat split; try discriminate; simpl in *; try tauto. Qed.
Definition fine (s : pool) : Prop := base s /\ closes s.
Lemma run_fine l : fine (run l pool_make).
Proof. apply run_inv; [|split; [exact base_make|exact closes_make]]. intros s a [H1 H2]. split; [apply step_base; exact H1|apply step_closes; assumption]. Qed.

(** what a step logs *)
Lemma step_event s a : base s ->
  p_log (step s a) = p_log s \/ exists e, p_log (step s a) = p_log s ++ [e] /\
    match e with
    | Queued i => p_closed s = false /\ i = p_next s
    | Started u i => (exists m, p_pc s u = EIn m i) /\ In i (p_tasks s)
    | Ended _ i | Removed i => In i (p_tasks s)
    | Taken u i => (exists m, p_pc s u = AtGet m) /\ (exists q, p_queue s = Some i :: q)
    | RemoveFailed _ => False
    | CloseCalled _ | CloseRet _ => True
    | Dropped => p_closed s = true
    end.
Proof.
  intros HB. destruct a as [|t|t|t|t|t]; cbn [step]; unfold if_idle; try (destruct (p_pc s t); left; reflexivity).
  - right. unfold queue_fn. destruct (p_closed s) eqn:E; eexists; (split; [reflexivity|]); cbv beta iota; auto.
  - destruct (p_pc s t); try (left; reflexivity). right. eexists. split; [reflexivity|exact I].
  - destruct (go t s) as [s'|] eqn:Eg; [|left; reflexivity]. destruct (go_event _ _ _ HB Eg) as [El|(e & El & He)]; [left; exact El|right].
    exists e. split; [exact El|]. destruct e; try tauto.
    + destruct He as (-> & ? & ?). auto.
    + destruct He as (-> & ? & ?). auto.
Qed.
Lemma snoc_split {X} (l : list X) x l1 e l2 :
  l ++ [x] = l1 ++ e :: l2 -> (exists l2', l = l1 ++ e :: l2' /\ l2 = l2' ++ [x]) \/ (l1 = l /\ e = x /\ l2 = []).
Proof.
  revert l1. induction l as [|y l IH]; intros l1 H.
  - destruct l1 as [|z l1]; [injection H as <- <-; right; auto|]. injection H as _ H. destruct l1; discriminate.
  - destruct l1 as [|z l1].
    + injection H as -> H. left. exists l. auto.
    + injection H as -> H. destruct (IH _ H) as [(l2' & -> & ->)|(-> & -> & ->)]; [left; exists l2'; auto|right; auto].
Qed.
(** if no event of one kind can be logged once there is one of another kind, none follows one *)
Lemma none_after (trig bad : event -> Prop) :
  (forall s a e, fine s -> (exists x, In x (p_log s) /\ trig x) -> p_log (step s a) = p_log s ++ [e] -> ~ bad e) ->
  forall l l1 x l2, p_log (run l pool_make) = l1 ++ x :: l2 -> trig x -> forall e, In e l2 -> ~ bad e.
Proof.
  intros H l. rewrite <- (rev_involutive l). induction (rev l) as [|a l' IH]; intros l1 x l2 El Hx e He.
  - destruct l1; discriminate.
  - cbn [rev] in El. unfold run in El. rewrite fold_left_app in El. cbn [fold_left] in El. fold (run (rev l') pool_make) in El.
    assert (HF := run_fine (rev l')).
    destruct (step_event (run (rev l') pool_make) a (proj1 HF)) as [E|(e0 & E & _)]; [rewrite E in El; exact (IH _ _ _ El Hx e He)|].
    assert (El' := El). rewrite E in El'. destruct (snoc_split _ _ _ _ _ El') as [(l2' & E1 & ->)|(-> & -> & ->)]; [|destruct He].
    apply in_app_or in He. destruct He as [He|[<-|[]]]; [exact (IH _ _ _ E1 Hx e He)|].
    apply (H _ a e0 HF); [|exact E]. exists x. split; [rewrite E1; apply in_elt|exact Hx].
Qed.

(** ** the tasks that a thread starts are in the order of the queue *)
Definition upcoming (c : pc) : option nat := match c with Got _ (Some i) | EWait _ i | EIn _ i => Some i | _ => None end.
Definition ordered (s : pool) : Prop :=
  forall t, StronglySorted lt (started_by t (p_log s)) /\
    (forall j, In j (started_by t (p_log s)) -> In j (taken (p_log s))) /\
    (forall i, upcoming (p_pc s t) = Some i -> In i (taken (p_log s)) /\ forall j, In j (started_by t (p_log s)) -> j < i).
Lemma started_by_app t l l' : started_by t (l ++ l') = started_by t l ++ started_by t l'.
Proof. apply flat_map_app. Qed.
Lemma sorted_snoc l x : StronglySorted lt l -> (forall y, In y l -> y < x) -> StronglySorted lt (l ++ [x]).
Proof.
  induction l as [|y l IH]; simpl; intros H Hx; [constructor; constructor|]. inversion H as [|? ? H1 H2]; subst. constructor; [apply IH; auto|].
  apply Forall_app. split; [exact H2|]. constructor; [apply Hx; auto|constructor].
Qed.
Lemma seq_split_lt a b n i j : a ++ b = seq 0 n -> In j a -> In i b -> j < i.
Proof.
  intros E Ha Hb. apply in_split in Ha. destruct Ha as (a1 & a2 & ->). apply in_split in Hb. destruct Hb as (b1 & b2 & ->).
  assert (Hs : forall k x y l1 l2 l3, l1 ++ x :: l2 ++ y :: l3 = seq k n -> x < y).
  { clear. induction n as [|n IH]; intros k x y l1 l2 l3 E; [destruct l1; discriminate|]. destruct l1 as [|z l1]; simpl in E.
    - injection E as -> E. assert (In y (seq (S k) n)) by (rewrite <- E; apply in_elt). apply in_seq in H. lia.
    - injection E as -> E. eapply IH. exact E. }
  eapply (Hs 0 j i a1 (a2 ++ b1) b2). rewrite <- E, <- !app_assoc. reflexivity.
Qed.
Lemma step_upcoming s a t i : upcoming (p_pc (step s a) t) = Some i ->
  upcoming (p_pc s t) = Some i \/ (exists q, p_queue s = Some i :: q) /\ p_log (step s a) = p_log s ++ [Taken t i].
Proof.
  destruct a as [|u|u|u|u|u]; cbn [step]; unfold if_idle.
  - unfold queue_fn. destruct (p_closed s); auto.
  - destruct (p_pc s u) eqn:E; auto. expose. unfold upd. destruct (Nat.eqb_spec t u); [discriminate|auto].
  - destruct (p_pc s u) eqn:E; auto. expose. unfold upd. destruct (Nat.eqb_spec t u); [discriminate|auto].
  - destruct (p_pc s u) eqn:E; auto. expose. unfold upd. destruct (Nat.eqb_spec t u); [discriminate|auto].
  - destruct (p_pc s u) eqn:E; auto. expose. unfold upd. destruct (Nat.eqb_spec t u); [discriminate|auto].
  - destruct (go u s) as [s'|] eqn:Eg; [|auto]. destruct (Nat.eq_dec t u) as [->|Hne].
    2:{ destruct (go_frame _ _ _ Eg) as (c & Ec & _). rewrite Ec, upd_other by exact Hne. auto. }
    unfold go in Eg.
    destruct (p_pc s u) as [| |m|m|m x|m k|m k|m k|m k|m k|m k|m x|l|k l|k l|k l|k l|[|n]|] eqn:E; try discriminate Eg.
    all: try (injection Eg as <-; expose; rewrite upd_same; discriminate).
    + injection Eg as <-; expose; rewrite upd_same. destruct (p_queue s); discriminate.
    + destruct (p_queue s) as [|[k|] q]; [discriminate| |]; injection Eg as <-; expose; rewrite upd_same; [|discriminate].
      intros [= <-]. right. eauto.
    + injection Eg as <-; expose; rewrite upd_same. destruct x as [k|]; [destruct (p_closed s)|]; auto; discriminate.
    + destruct (lock_free k s); [|discriminate]. injection Eg as <-; expose; rewrite upd_same. auto.
    + destruct (p_fn s k); injection Eg as <-; expose; rewrite upd_same; discriminate.
    + injection Eg as <-; expose; rewrite upd_same. destruct m, x; discriminate.
    + injection Eg as <-; expose; rewrite upd_same. destruct l; discriminate.
    + destruct (lock_free k s); [|discriminate]. injection Eg as <-; expose; rewrite upd_same. discriminate.
    + destruct (p_fn s k); injection Eg as <-; expose; rewrite upd_same; discriminate.
    + destruct (p_threads s), (p_unfinished s); try discriminate Eg; injection Eg as <-; expose; rewrite upd_same; discriminate.
Qed.
Lemma started_upcoming s a t i : base s -> p_log (step s a) = p_log s ++ [Started t i] -> upcoming (p_pc (step s a) t) = None.
Proof.
  intros HB E. destruct (step_event s a HB) as [E'|(e & E' & He)]; [rewrite E' in E; apply (f_equal (@length event)) in E; rewrite app_length in E; simpl in E; lia|].
  rewrite E' in E. apply app_inv_head in E. injection E as ->. destruct He as [[m Hm] _].
  destruct a as [|u|u|u|u|u]; cbn [step] in *; unfold if_idle in *.
  - unfold queue_fn in E'. destruct (p_closed s); expose; apply app_inv_head in E'; discriminate.
  - destruct (p_pc s u); expose; apply (f_equal (@length event)) in E'; rewrite app_length in E'; simpl in E'; lia.
  - destruct (p_pc s u); expose; apply (f_equal (@length event)) in E'; rewrite app_length in E'; simpl in E'; lia.
  - destruct (p_pc s u); expose; apply (f_equal (@length event)) in E'; rewrite app_length in E'; simpl in E'; lia.
  - destruct (p_pc s u); expose; try (apply app_inv_head in E'; discriminate); apply (f_equal (@length event)) in E'; rewrite app_length in E'; simpl in E'; lia.
  - destruct (go u s) as [s'|] eqn:Eg; [|apply (f_equal (@length event)) in E'; rewrite app_length in E'; simpl in E'; lia].
    destruct (go_event _ _ _ HB Eg) as [El|(e & El & He)]; rewrite El in E'; [apply (f_equal (@length event)) in E'; rewrite app_length in E'; simpl in E'; lia|].
    apply app_inv_head in E'. injection E' as ->. destruct He as (-> & _). unfold go in Eg. rewrite Hm in Eg.
    destruct (p_fn s i); injection Eg as <-; expose; rewrite upd_same; reflexivity.
Qed.
Lemma step_ordered s a : base s -> ordered s -> ordered (step s a).
Proof.
  intros HB H t. destruct (H t) as (H1 & H2 & H3). assert (HF : fifo s) by apply HB.
  assert (HU := step_upcoming s a t). destruct (step_event s a HB) as [E|(e & E & He)].
  - rewrite E. split; [exact H1|]. split; [exact H2|]. intros i Hi. destruct (HU i Hi) as [Hold|[_ C]]; [exact (H3 i Hold)|].
    rewrite E in C. apply (f_equal (@length event)) in C. rewrite app_length in C. simpl in C. lia.
  - assert (Hsu := fun i => started_upcoming s a t i HB).
    rewrite E. rewrite started_by_app, taken_app.
    assert (Hdef : (forall i, e <> Started t i) -> started_by t [e] = []).
    { intros Hn. destruct e; try reflexivity. cbn. destruct (Nat.eqb_spec t0 t) as [->|]; [congruence|reflexivity]. }
    assert (Hcase : (exists i, e = Started t i) \/ forall i, e <> Started t i).
    { destruct e; try (right; discriminate). destruct (Nat.eq_dec t0 t) as [->|]; [left; eauto|right; congruence]. }
    destruct Hcase as [[i ->]|Hn].
    + destruct He as [[m Hm] _]. cbn [started_by flat_map]. rewrite Nat.eqb_refl. cbn [app].
      destruct (H3 i) as [Ht Hlt]; [rewrite Hm; reflexivity|]. split; [apply sorted_snoc; assumption|]. cbn [taken flat_map]. rewrite app_nil_r. split.
      * intros j Hj. apply in_app_or in Hj. destruct Hj as [Hj|[<-|[]]]; auto.
      * intros k Hk. rewrite (Hsu i E) in Hk. discriminate.
    + rewrite (Hdef Hn), app_nil_r. split; [exact H1|]. split; [intros j Hj; apply in_or_app; auto|].
      intros i Hi. destruct (HU i Hi) as [Hold|[[q Hq] C]].
      * destruct (H3 i Hold) as [Ha Hb]. split; [apply in_or_app; auto|exact Hb].
      * rewrite E in C. apply app_inv_head in C. injection C as ->. split; [apply in_or_app; right; left; reflexivity|].
        intros j Hj. unfold fifo in HF. eapply seq_split_lt; [exact HF|apply H2; exact Hj|]. rewrite Hq. left. reflexivity.
Qed.
Lemma ordered_make : ordered pool_make.
Proof. intros t. simpl. repeat split; try discriminate; [constructor|intros j []]. Qed.
Lemma run_ordered l : ordered (run l pool_make).
Proof.
  apply (run_inv (fun s => base s /\ ordered s)); [|split; [exact base_make|exact ordered_make]].
  intros s a [H1 H2]. split; [apply step_base; exact H1|apply step_ordered; assumption].
Qed.
Lemma run_queued l : queued (p_log (run l pool_make)) = seq 0 (p_next (run l pool_make)).
Proof.
  apply (run_inv (fun s => base s /\ queued (p_log s) = seq 0 (p_next s))); [|split; [exact base_make|reflexivity]].
  intros s a [HB H]. split; [apply step_base; exact HB|].
  assert (HG : forall u s', go u s = Some s' -> queued (p_log s') = seq 0 (p_next s')).
  { intros u s' Eg. destruct (go_frame _ _ _ Eg) as (c & _ & -> & _). destruct (go_event _ _ _ HB Eg) as [->|(e & -> & He)]; [exact H|].
    unfold queued in *. rewrite flat_map_app, H. destruct e; try (simpl; apply app_nil_r). destruct He. }
  destruct a as [|t|t|t|t|t]; cbn [step]; unfold if_idle; try (destruct (p_pc s t); exact H).
  - unfold queue_fn. destruct (p_closed s); expose; unfold queued in *; rewrite flat_map_app, H; [simpl; apply app_nil_r|]. rewrite seq_S. reflexivity.
  - destruct (p_pc s t); try exact H. expose. unfold queued in *. rewrite flat_map_app, H. simpl. apply app_nil_r.
  - destruct (go t s) as [s'|] eqn:Eg; [exact (HG t s' Eg)|exact H].
Qed.
