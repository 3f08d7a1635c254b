From Coq Require Import List Arith Lia Bool.
From Verif Require Import PyBase Event_Model Event_Spec.
Import ListNotations.

Lemma mem_spec i l : mem i l = true <-> In i l.
Proof. unfold mem. destruct (in_dec Nat.eq_dec i l); split; intros; congruence || tauto. Qed.
Lemma mem_false i l : mem i l = false <-> ~ In i l.
Proof. unfold mem. destruct (in_dec Nat.eq_dec i l); split; intros; congruence || tauto. Qed.

Lemma acts_of_app a b : acts_of (a ++ b) = acts_of a ++ acts_of b.
Proof. induction a as [|[] a IH]; simpl; rewrite ?IH; reflexivity. Qed.
Lemma turns_of_app a b : turns_of (a ++ b) = turns_of a ++ turns_of b.
Proof. induction a as [|[] a IH]; simpl; rewrite ?IH; reflexivity. Qed.
Lemma results_of_app a b : results_of (a ++ b) = results_of a ++ results_of b.
Proof. induction a as [|[] a IH]; simpl; rewrite ?IH; reflexivity. Qed.
Lemma acts_of_map l : acts_of (map TAct l) = l.
Proof. induction l; simpl; congruence. Qed.
Lemma turns_of_map l : turns_of (map TAct l) = [].
Proof. induction l; simpl; congruence. Qed.
Lemma results_of_map l : results_of (map TAct l) = [].
Proof. induction l; simpl; congruence. Qed.

Lemma listens_app a b : listens (a ++ b) = listens a + listens b.
Proof. induction a as [|[] a IH]; simpl; rewrite ?IH; reflexivity. Qed.

(** * The history characterisation *)
Lemma since_snoc acts a i P :
  since (acts ++ [a]) i P <->
  since acts i (fun ow after => P ow (after ++ [a])) \/ (exists ow, a = AListen ow /\ listens acts = i /\ P ow []).
Proof.
  split.
  - intros (a1 & ow & a2 & E & Hl & HP). destruct a2 as [|x a2 _] using rev_ind.
    + apply app_inj_tail in E as [-> ->]. right. eauto.
    + rewrite app_comm_cons, app_assoc in E. apply app_inj_tail in E as [-> ->].
      left. exists a1, ow, a2. auto.
  - intros [(a1 & ow & a2 & -> & Hl & HP)|(ow & -> & Hl & HP)].
    + exists a1, ow, (a2 ++ [a]). rewrite <- app_assoc. auto.
    + exists acts, ow, []. auto.
Qed.

Lemma since_ext acts i P Q : (forall ow l, P ow l <-> Q ow l) -> since acts i P <-> since acts i Q.
Proof.
  intros H. split; intros (a1 & ow & a2 & E & Hl & HP); exists a1, ow, a2; (split; [exact E|]); (split; [exact Hl|]); apply H; exact HP.
Qed.

Lemma since_and acts i P (R : Prop) : since acts i (fun ow l => P ow l /\ R) <-> since acts i P /\ R.
Proof.
  split.
  - intros (a1 & ow & a2 & E & Hl & HP & HR). split; [exists a1, ow, a2; auto|exact HR].
  - intros [(a1 & ow & a2 & E & Hl & HP) HR]. exists a1, ow, a2; auto.
Qed.

Lemma since_lt acts i P : since acts i P -> i < listens acts.
Proof. intros (a1 & ow & a2 & -> & <- & _). rewrite listens_app. simpl. lia. Qed.

Lemma since_exists acts i : i < listens acts -> since acts i (fun _ _ => True).
Proof.
  induction acts as [|a acts IH] using rev_ind; simpl; [lia|]. rewrite listens_app. intros Hi.
  apply since_snoc. destruct (Nat.lt_ge_cases i (listens acts)) as [H|H]; [left; apply IH; exact H|].
  right. destruct a; simpl in Hi; try lia. exists owner. repeat split. lia.
Qed.

Lemma since_unique acts i P Q :
  since acts i P -> since acts i Q -> since acts i (fun ow l => P ow l /\ Q ow l).
Proof.
  induction acts as [|a acts IH] using rev_ind in P, Q |- *.
  - intros (a1 & ? & ? & E & _). destruct a1; discriminate.
  - rewrite !since_snoc. intros [H1|(ow1 & -> & Hl1 & HP)] [H2|(ow2 & E2 & Hl2 & HQ)].
    + left. apply IH; assumption.
    + apply since_lt in H1. lia.
    + apply since_lt in H2. lia.
    + injection E2 as <-. right. eauto.
Qed.

Record hist (acts : list act) (s : est) : Prop := {
  h_next : e_next s = listens acts;
  h_held : forall i, In i (e_held s) -> i < e_next s;
  h_held_spec : forall i, i < e_next s -> (In i (e_held s) <-> token_held acts i);
  h_owned : forall o i, In (o, i) (e_owned s) <-> since acts i (fun ow l => ow = Some o /\ ~ In (AOwnerGone o) l);
  h_closed : forall i, In i (e_closed s) <-> was_closed acts i;
  h_pinned : e_pinned s = [];
  h_reg : e_reg s = filter (alive s) (seq 0 (e_next s)) }.

Lemma filter_filter {A} (f g : A -> bool) l : filter f (filter g l) = filter (fun x => g x && f x) l.
Proof. induction l as [|x l IH]; simpl; [reflexivity|]. destruct (g x); simpl; rewrite IH; reflexivity. Qed.

Lemma alive_spec s i :
  alive s i = true <-> In i (e_held s) \/ (exists o, In (o, i) (e_owned s)) \/ In i (e_pinned s).
Proof.
  unfold alive. rewrite !orb_true_iff, !mem_spec, in_map_iff. split.
  - intros [[H|((o, j) & <- & H)]|H]; eauto.
  - intros [H|[(o & H)|H]]; [auto| |auto]. left. right. exists (o, i). auto.
Qed.

Lemma token_held_snoc acts a i :
  token_held (acts ++ [a]) i <-> (token_held acts i /\ a <> ADrop i) \/ (exists ow, a = AListen ow /\ listens acts = i).
Proof.
  unfold token_held. rewrite since_snoc. rewrite <- since_and.
  rewrite (since_ext acts i _ (fun _ after => ~ In (ADrop i) after /\ a <> ADrop i)).
  2:{ intros ow l. rewrite in_app_iff. simpl. intuition congruence. }
  split; (intros [H|H]; [left; exact H|right]).
  - destruct H as (ow & -> & Hl & _). eauto.
  - destruct H as (ow & -> & Hl). exists ow. auto.
Qed.

Lemma owned_snoc acts a i o :
  since (acts ++ [a]) i (fun ow l => ow = Some o /\ ~ In (AOwnerGone o) l) <->
  (since acts i (fun ow l => ow = Some o /\ ~ In (AOwnerGone o) l) /\ a <> AOwnerGone o) \/
  (a = AListen (Some o) /\ listens acts = i).
Proof.
  rewrite since_snoc, <- since_and.
  rewrite (since_ext acts i _ (fun ow l => (ow = Some o /\ ~ In (AOwnerGone o) l) /\ a <> AOwnerGone o)).
  2:{ intros ow l. rewrite in_app_iff. simpl. intuition congruence. }
  split; (intros [H|H]; [left; exact H|right]).
  - destruct H as (ow & -> & Hl & -> & _). auto.
  - destruct H as (-> & Hl). exists (Some o). auto.
Qed.

Lemma was_closed_snoc acts a i :
  was_closed (acts ++ [a]) i <->
  was_closed acts i \/ (a = AClose i /\ i < listens acts) \/
  (exists o, a = AOwnerGone o /\ since acts i (fun ow _ => ow = Some o)).
Proof.
  unfold was_closed. rewrite since_snoc. split.
  - intros [(a1 & ow & a2 & E & Hl & HP)|(ow & -> & Hl & [[]|(o & _ & [])])].
    destruct HP as [HP|(o & -> & HP)]; apply in_app_iff in HP as [HP|[HP|[]]].
    + left. exists a1, ow, a2. auto.
    + right; left. split; [exact HP|]. subst. rewrite listens_app. simpl. lia.
    + left. exists a1, (Some o), a2. split; [exact E|]. split; [exact Hl|]. right. eauto.
    + right; right. exists o. split; [exact HP|]. exists a1, (Some o), a2. auto.
  - intros [(a1 & ow & a2 & E & Hl & HP)|[[-> Hlt]|(o & -> & (a1 & ow & a2 & E & Hl & ->))]]; left.
    + exists a1, ow, a2. split; [exact E|]. split; [exact Hl|].
      destruct HP as [HP|(o & -> & HP)]; [left; apply in_app_iff; auto|right; exists o; rewrite in_app_iff; auto].
    + destruct (since_exists _ _ Hlt) as (a1 & ow & a2 & E & Hl & _). exists a1, ow, a2.
      split; [exact E|]. split; [exact Hl|]. left. apply in_app_iff. simpl. auto.
    + exists a1, (Some o), a2. split; [exact E|]. split; [exact Hl|]. right. exists o. rewrite in_app_iff. simpl. auto.
Qed.

Lemma since_owner_gone acts o i :
  since acts i (fun ow _ => ow = Some o) ->
  since acts i (fun ow l => ow = Some o /\ ~ In (AOwnerGone o) l) \/ was_closed acts i.
Proof.
  intros (a1 & ow & a2 & E & Hl & ->).
  destruct (in_dec (fun a b : act => ltac:(decide equality; try apply Nat.eq_dec; decide equality; apply Nat.eq_dec) : {a = b} + {a <> b}) (AOwnerGone o) a2) as [H|H].
  - right. exists a1, (Some o), a2. split; [exact E|]. split; [exact Hl|]. right. eauto.
  - left. exists a1, (Some o), a2. auto.
Qed.

Lemma filter_ext_in' {A} (f g : A -> bool) l : (forall x, In x l -> f x = g x) -> filter f l = filter g l.
Proof.
  induction l as [|x l IH]; intros H; simpl; [reflexivity|].
  rewrite (H x) by (left; reflexivity). rewrite IH by (intros; apply H; right; assumption). reflexivity.
Qed.

(** regained life is impossible for existing listeners, so filtering step by step is filtering at the end *)
Lemma reg_filter s s' n :
  e_reg s = filter (alive s) (seq 0 n) -> (forall i, i < n -> alive s' i = true -> alive s i = true) ->
  filter (alive s') (e_reg s) = filter (alive s') (seq 0 n).
Proof.
  intros E H. rewrite E, filter_filter. apply filter_ext_in'. intros x Hx. apply in_seq in Hx.
  destruct (alive s' x) eqn:E1; [|destruct (alive s x); reflexivity]. rewrite H by (auto || lia). reflexivity.
Qed.

Lemma hist_new : hist [] est_new.
Proof.
  constructor; simpl; try reflexivity; try tauto; try lia.
  all: intros; (split; [tauto|]); intros (a1 & ? & ? & E & _); destruct a1; discriminate.
Qed.

Lemma bool_eq_iff (a b : bool) : (a = true <-> b = true) -> a = b.
Proof. destruct a, b; intuition congruence. Qed.

Lemma hist_step acts s a : hist acts s -> hist (acts ++ [a]) (act_step s a).
Proof.
  intros [Hn Hh Hhs Ho Hc Hp Hr].
  assert (Hown_lt : forall o i, In (o, i) (e_owned s) -> i < e_next s).
  { intros o i H. apply Ho in H. apply since_lt in H. lia. }
  destruct a as [ow|i|i|o].
  - (* listen *)
    set (s1 := Est (S (e_next s)) (e_reg s ++ [e_next s]) (e_closed s) (e_next s :: e_held s)
       (match ow with Some o => (o, e_next s) :: e_owned s | None => e_owned s end) (e_pinned s)).
    assert (Hal : forall i, i < e_next s -> alive s1 i = alive s i).
    { intros i Hi. apply bool_eq_iff. rewrite !alive_spec. unfold s1. simpl. destruct ow as [o|]; simpl.
      - split.
        + intros [[?|?]|[(o' & [[= ? ?]|?])|?]]; try lia; eauto.
        + intros [?|[(o' & ?)|?]]; eauto.
      - split.
        + intros [[?|?]|?]; try lia; auto.
        + intros [?|?]; auto. }
    constructor; simpl.
    + rewrite listens_app. simpl. lia.
    + intros i [<-|H]; [lia|]. apply Hh in H. lia.
    + intros i Hi. rewrite token_held_snoc. split.
      * intros [<-|H]; [right; eauto|]. left. split; [|discriminate]. apply Hhs; [apply Hh; exact H|exact H].
      * intros [[H _]|(ow' & _ & Hl)]; [|left; lia]. right. apply Hhs; [|exact H].
        apply since_lt in H. lia.
    + intros o i. rewrite owned_snoc, <- Ho. split.
      * destruct ow as [o'|]; simpl.
        -- intros [[= <- <-]|H]; [right; split; [reflexivity|lia]|left; split; [exact H|discriminate]].
        -- intros H; left; split; [exact H|discriminate].
      * intros [[H _]|([= ->] & Hl)]; [destruct ow; simpl; auto|]. left. f_equal. lia.
    + intros i. rewrite was_closed_snoc, <- Hc. split; [auto|]. intros [H|[[[=] _]|(o & [=] & _)]]. exact H.
    + exact Hp.
    + fold s1. change (filter (alive s1) (e_reg s ++ [e_next s]) = filter (alive s1) (seq 0 (S (e_next s)))).
      rewrite seq_S. simpl. rewrite !filter_app. f_equal.
      apply reg_filter; [exact Hr|]. intros i Hi. rewrite Hal by exact Hi. auto.
  - (* close *)
    simpl. destruct (Nat.ltb_spec i (e_next s)) as [Hlt|Hge].
    + constructor; simpl; auto.
      * rewrite listens_app. simpl. lia.
      * intros j Hj. rewrite token_held_snoc, (Hhs j Hj). split; [intros H; left; split; [exact H|discriminate]|].
        intros [[H _]|(? & [=] & _)]. exact H.
      * intros o j. rewrite owned_snoc, Ho. split; [intros H; left; split; [exact H|discriminate]|].
        intros [[H _]|([=] & _)]. exact H.
      * intros j. rewrite was_closed_snoc, <- Hc. split.
        -- intros [<-|H]; [right; left; split; [reflexivity|lia]|auto].
        -- intros [H|[[[= ->] _]|(o & [=] & _)]]; auto.
    + constructor; auto.
      * rewrite listens_app. simpl. lia.
      * intros j Hj. rewrite token_held_snoc, (Hhs j Hj). split; [intros H; left; split; [exact H|discriminate]|].
        intros [[H _]|(? & [=] & _)]. exact H.
      * intros o j. rewrite owned_snoc, Ho. split; [intros H; left; split; [exact H|discriminate]|].
        intros [[H _]|([=] & _)]. exact H.
      * intros j. rewrite was_closed_snoc, <- Hc. split; [auto|].
        intros [H|[[[= ->] ?]|(o & [=] & _)]]; [exact H|lia].
  - (* drop *)
    set (s1 := Est (e_next s) (e_reg s) (e_closed s) (remove Nat.eq_dec i (e_held s)) (e_owned s) (e_pinned s)).
    assert (Hin : forall j, In j (remove Nat.eq_dec i (e_held s)) <-> In j (e_held s) /\ j <> i).
    { intros j. split; [apply in_remove|intros [? ?]; apply in_in_remove; assumption]. }
    constructor; simpl.
    + rewrite listens_app. simpl. lia.
    + intros j Hj. apply Hin in Hj. apply Hh. tauto.
    + intros j Hj. rewrite Hin, token_held_snoc, (Hhs j Hj). split.
      * intros [H ?]. left. split; [exact H|congruence].
      * intros [[H ?]|(? & [=] & _)]. split; [exact H|congruence].
    + intros o j. rewrite owned_snoc, Ho. split; [intros H; left; split; [exact H|discriminate]|].
      intros [[H _]|([=] & _)]. exact H.
    + intros j. rewrite was_closed_snoc, <- Hc. split; [auto|]. intros [H|[[[=] _]|(o & [=] & _)]]. exact H.
    + exact Hp.
    + fold s1. change (filter (alive s1) (e_reg s) = filter (alive s1) (seq 0 (e_next s))).
      apply reg_filter; [exact Hr|]. intros j _. rewrite !alive_spec. unfold s1. simpl. rewrite Hin. tauto.
  - (* owner gone *)
    set (s1 := Est (e_next s) (e_reg s)
       (map snd (filter (fun p => Nat.eqb (fst p) o) (e_owned s)) ++ e_closed s) (e_held s)
       (filter (fun p => negb (Nat.eqb (fst p) o)) (e_owned s)) (e_pinned s)).
    assert (Hin : forall o' j, In (o', j) (e_owned s1) <-> In (o', j) (e_owned s) /\ o' <> o).
    { intros o' j. unfold s1. simpl. rewrite filter_In. simpl. rewrite negb_true_iff, Nat.eqb_neq. tauto. }
    constructor; simpl.
    + rewrite listens_app. simpl. lia.
    + exact Hh.
    + intros j Hj. rewrite token_held_snoc, (Hhs j Hj). split; [intros H; left; split; [exact H|discriminate]|].
      intros [[H _]|(? & [=] & _)]. exact H.
    + intros o' j. change (In (o', j) (e_owned s1) <-> since (acts ++ [AOwnerGone o]) j (fun ow l => ow = Some o' /\ ~ In (AOwnerGone o') l)).
      rewrite Hin, owned_snoc, Ho. split.
      * intros [H ?]. left. split; [exact H|congruence].
      * intros [[H ?]|([=] & _)]. split; [exact H|congruence].
    + intros j. rewrite in_app_iff, was_closed_snoc, <- Hc, in_map_iff. split.
      * intros [((o', j') & <- & H)|H]; [|auto]. right; right. apply filter_In in H as [H Hf]. simpl in Hf.
        apply Nat.eqb_eq in Hf as ->. exists o. split; [reflexivity|]. apply Ho in H.
        destruct H as (a1 & ow & a2 & E & Hl & Ha & _). exists a1, ow, a2. auto.
      * intros [H|[[[=] _]|(o' & [= <-] & H)]]; [auto|].
        destruct (since_owner_gone _ _ _ H) as [H1|H1].
        -- left. apply Ho in H1. exists (o, j). split; [reflexivity|]. apply filter_In. split; [exact H1|].
           simpl. apply Nat.eqb_refl.
        -- right. apply Hc. exact H1.
    + exact Hp.
    + fold s1. change (filter (alive s1) (e_reg s) = filter (alive s1) (seq 0 (e_next s))).
      apply reg_filter; [exact Hr|]. intros j _. rewrite !alive_spec.
      intros [H|[(o' & H)|H]]; [auto| |auto]. apply Hin in H as [H _]. eauto.
Qed.

Lemma hist_reaches acts s : reaches acts s -> hist acts s.
Proof.
  unfold reaches. intros ->.
  induction acts as [|a acts IH] using rev_ind; [apply hist_new|].
  rewrite fold_left_app. simpl. apply hist_step. exact IH.
Qed.

Lemma registered_iff_lemma acts s i :
  reaches acts s -> (In i (e_reg s) <-> token_held acts i \/ owner_alive acts i).
Proof.
  intros H. apply hist_reaches in H as [Hn Hh Hhs Ho Hc Hp Hr].
  rewrite Hr, filter_In, in_seq, alive_spec, Hp. simpl. split.
  - intros [[_ Hi] [H|[(o & H)|[]]]].
    + left. apply Hhs; [lia|exact H].
    + right. apply Ho in H as (a1 & ow & a2 & E & Hl & Ha & Hb). exists a1, ow, a2. eauto.
  - intros [H|H].
    + pose proof (since_lt _ _ _ H). split; [lia|]. left. apply Hhs; [lia|exact H].
    + pose proof (since_lt _ _ _ H). split; [lia|]. right; left.
      destruct H as (a1 & ow & a2 & E & Hl & o & Ha & Hb). exists o. apply Ho. exists a1, ow, a2. auto.
Qed.

Lemma registered_order_lemma acts s :
  reaches acts s -> exists keep, e_reg s = filter keep (seq 0 (listens acts)).
Proof. intros H. apply hist_reaches in H as [Hn _ _ _ _ _ Hr]. rewrite <- Hn. eauto. Qed.

Lemma closed_iff_lemma acts s i : reaches acts s -> (In i (e_closed s) <-> was_closed acts i).
Proof. intros H. apply hist_reaches in H as [_ _ _ _ Hc _ _]. apply Hc. Qed.

(** * Effects of a fire *)
(** [p] is [s] with some listeners pinned *)
Record pin_rel (snap : list nat) (s p : est) : Prop := {
  pr_next : e_next p = e_next s;
  pr_closed : e_closed p = e_closed s;
  pr_held : e_held p = e_held s;
  pr_owned : e_owned p = e_owned s;
  pr_pin : e_pinned p = snap;
  pr_reg : e_reg s = filter (alive s) (e_reg p);
  pr_lt : forall i, In i (e_reg p) -> i < e_next s }.

Lemma alive_pin snap s p i :
  pin_rel snap s p -> e_pinned s = [] -> alive s i = true -> alive p i = true.
Proof.
  intros [H1 H2 H3 H4 H5 H6 H7] Hp. rewrite !alive_spec, H3, H4, Hp. simpl. tauto.
Qed.

Lemma pin_step_collect s s1 p1 regp extra :
  (* the generic step: both sides collect after the same change *)
  e_reg s = filter (alive s) regp ->
  (forall i, In i regp -> i < e_next s) ->
  (forall i, i < e_next s -> alive s1 i = true -> alive s i = true) ->
  (forall i, alive s1 i = true -> alive p1 i = true) ->
  filter (alive s1) (e_reg s ++ extra) = filter (alive s1) (filter (alive p1) (regp ++ extra)).
Proof.
  intros E Hlt Hs Hp. rewrite E, !filter_app, !filter_filter. f_equal.
  - apply filter_ext_in'. intros x Hx. apply Hlt in Hx.
    destruct (alive s1 x) eqn:E1.
    + rewrite Hs by auto. rewrite Hp by auto. reflexivity.
    + rewrite !andb_false_r. reflexivity.
  - apply filter_ext_in'. intros x Hx.
    destruct (alive s1 x) eqn:E1; [rewrite Hp by auto; reflexivity|rewrite andb_false_r; reflexivity].
Qed.

Lemma pin_step acts snap s p a :
  hist acts s -> pin_rel snap s p -> pin_rel snap (act_step s a) (act_step p a).
Proof.
  intros Hi [H1 H2 H3 H4 H5 H6 H7].
  pose proof (h_pinned _ _ Hi) as Hpin.
  pose proof (h_pinned _ _ (hist_step _ _ a Hi)) as Hpin'.
  assert (Hown_lt : forall o i, In (o, i) (e_owned s) -> i < e_next s).
  { intros o i H. apply (h_owned _ _ Hi) in H. apply since_lt in H. rewrite (h_next _ _ Hi). exact H. }
  destruct a as [ow|i|i|o].
  - cbn [act_step]. rewrite H1, H2, H3, H4, H5.
    set (s1 := Est (S (e_next s)) (e_reg s ++ [e_next s]) (e_closed s) (e_next s :: e_held s)
       (match ow with Some o => (o, e_next s) :: e_owned s | None => e_owned s end) (e_pinned s)).
    set (p1 := Est (S (e_next s)) (e_reg p ++ [e_next s]) (e_closed s) (e_next s :: e_held s)
       (match ow with Some o => (o, e_next s) :: e_owned s | None => e_owned s end) snap).
    constructor; try reflexivity.
    + change (filter (alive s1) (e_reg s ++ [e_next s]) = filter (alive s1) (filter (alive p1) (e_reg p ++ [e_next s]))).
      apply (pin_step_collect s s1 p1 (e_reg p) [e_next s]); auto.
      * intros i Hlt. rewrite !alive_spec. unfold s1. simpl. destruct ow as [o|]; simpl.
        -- intros [[?|?]|[(o' & [[= ? ?]|?])|?]]; try lia; eauto.
        -- intros [[?|?]|?]; try lia; auto.
      * intros i. rewrite !alive_spec. unfold s1, p1. simpl. rewrite Hpin. simpl. tauto.
    + intros i Hin. simpl in Hin. apply filter_In in Hin as [Hin _]. apply in_app_iff in Hin as [Hin|[<-|[]]]; simpl.
      * apply H7 in Hin. lia.
      * lia.
  - cbn [act_step]. rewrite H1. destruct (i <? e_next s) eqn:El; [|constructor; auto].
    constructor; simpl; auto. congruence.
  - cbn [act_step]. rewrite H1, H2, H3, H4, H5.
    set (s1 := Est (e_next s) (e_reg s) (e_closed s) (remove Nat.eq_dec i (e_held s)) (e_owned s) (e_pinned s)).
    set (p1 := Est (e_next s) (e_reg p) (e_closed s) (remove Nat.eq_dec i (e_held s)) (e_owned s) snap).
    constructor; try reflexivity.
    + change (filter (alive s1) (e_reg s) = filter (alive s1) (filter (alive p1) (e_reg p))).
      rewrite <- (app_nil_r (e_reg s)), <- (app_nil_r (e_reg p)).
      apply (pin_step_collect s s1 p1 (e_reg p) []); auto.
      * intros j _. rewrite !alive_spec. unfold s1. simpl. intros [H|H]; [left|auto]. apply in_remove in H. tauto.
      * intros j. rewrite !alive_spec. unfold s1, p1. simpl. rewrite Hpin. simpl. tauto.
    + intros j Hin. simpl in Hin. apply filter_In in Hin as [Hin _]. simpl. auto.
  - cbn [act_step]. rewrite H1, H2, H3, H4, H5.
    set (s1 := Est (e_next s) (e_reg s)
       (map snd (filter (fun p => Nat.eqb (fst p) o) (e_owned s)) ++ e_closed s) (e_held s)
       (filter (fun p => negb (Nat.eqb (fst p) o)) (e_owned s)) (e_pinned s)).
    set (p1 := Est (e_next s) (e_reg p)
       (map snd (filter (fun p => Nat.eqb (fst p) o) (e_owned s)) ++ e_closed s) (e_held s)
       (filter (fun p => negb (Nat.eqb (fst p) o)) (e_owned s)) snap).
    constructor; try reflexivity.
    + change (filter (alive s1) (e_reg s) = filter (alive s1) (filter (alive p1) (e_reg p))).
      rewrite <- (app_nil_r (e_reg s)), <- (app_nil_r (e_reg p)).
      apply (pin_step_collect s s1 p1 (e_reg p) []); auto.
      * intros j _. rewrite !alive_spec. unfold s1. simpl. intros [H|[(o' & H)|H]]; [auto| |auto].
        apply filter_In in H as [H _]. eauto.
      * intros j. rewrite !alive_spec. unfold s1, p1. simpl. rewrite Hpin. simpl. tauto.
    + intros j Hin. simpl in Hin. apply filter_In in Hin as [Hin _]. simpl. auto.
Qed.

Lemma hist_steps acts s l : hist acts s -> hist (acts ++ l) (fold_left act_step l s).
Proof.
  revert acts s. induction l as [|a l IH]; intros acts s H; simpl; [rewrite app_nil_r; exact H|].
  replace (acts ++ a :: l) with ((acts ++ [a]) ++ l) by (rewrite <- app_assoc; reflexivity).
  apply IH, hist_step, H.
Qed.

Lemma pin_steps acts snap s p l :
  hist acts s -> pin_rel snap s p -> pin_rel snap (fold_left act_step l s) (fold_left act_step l p).
Proof.
  revert acts s p. induction l as [|a l IH]; intros acts s p Hh Hp; simpl; [exact Hp|].
  eapply IH; [apply hist_step; exact Hh|]. eapply pin_step; eassumption.
Qed.

Section Fire.
  Context {W : Type}.
  Variable handler : nat -> W -> est -> W * list act * hres.

  (** the state of the loop is the result of the actions in the trace *)
  Lemma fire_loop_state m l s w :
    f_state (fire_loop handler m l s w) = fold_left act_step (acts_of (f_trace (fire_loop handler m l s w))) s.
  Proof.
    revert s w. induction l as [|i l IH]; intros s w; simpl; [reflexivity|].
    destruct (mem i (e_closed s)).
    - destruct (early m false); simpl; [reflexivity|]. apply IH.
    - destruct (handler i w s) as [[w1 acts] r]. destruct r as [b|]; simpl.
      + destruct (early m b); simpl.
        * rewrite acts_of_app, acts_of_map. simpl. rewrite app_nil_r. reflexivity.
        * rewrite acts_of_app, acts_of_map. simpl. rewrite fold_left_app. apply IH.
      + rewrite acts_of_map. reflexivity.
  Qed.

  Lemma fire_effects_lemma acts m s w :
    reaches acts s ->
    f_state (fire handler m s w) = fold_left act_step (acts_of (f_trace (fire handler m s w))) s /\
    reaches (acts ++ acts_of (f_trace (fire handler m s w))) (f_state (fire handler m s w)).
  Proof.
    intros Hre.
    assert (E : f_state (fire handler m s w) = fold_left act_step (acts_of (f_trace (fire handler m s w))) s).
    { unfold fire. destruct (e_reg s) as [|i0 l0] eqn:Ereg; [reflexivity|]. rewrite <- Ereg. cbn [f_state f_trace].
      set (p0 := Est (e_next s) (e_reg s) (e_closed s) (e_held s) (e_owned s) (e_reg s)).
      pose proof (hist_reaches _ _ Hre) as Hh.
      assert (Hpr : pin_rel (e_reg s) s p0).
      { constructor; try reflexivity.
        - simpl. rewrite (h_reg _ _ Hh) at 2. rewrite filter_filter, (h_reg _ _ Hh) at 1.
          apply filter_ext_in'. intros x _. destruct (alive s x); reflexivity.
        - intros i Hi. simpl in Hi. rewrite (h_reg _ _ Hh) in Hi. apply filter_In in Hi as [Hi _].
          apply in_seq in Hi. lia. }
      rewrite fire_loop_state.
      set (l := acts_of _).
      pose proof (pin_steps _ _ _ _ l Hh Hpr) as [H1 H2 H3 H4 H5 H6 H7].
      pose proof (h_pinned _ _ (hist_steps _ _ l Hh)) as Hpin.
      set (s' := fold_left act_step l s) in *. set (p' := fold_left act_step l p0) in *.
      rewrite H1, H2, H3, H4. unfold collect. simpl.
      assert (Heq : forall x, alive (Est (e_next s') (e_reg p') (e_closed s') (e_held s') (e_owned s') []) x = alive s' x).
      { intros x. unfold alive. simpl. rewrite Hpin. reflexivity. }
      rewrite (filter_ext_in' _ (alive s') (e_reg p')) by (intros; apply Heq).
      rewrite <- H6. destruct s'; simpl in *. subst. reflexivity. }
    split; [exact E|]. unfold reaches in *. rewrite E, fold_left_app, <- Hre. reflexivity.
  Qed.

  (** * Turns *)
  Lemma closed_mono l s i : In i (e_closed s) -> In i (e_closed (fold_left act_step l s)).
  Proof.
    revert s. induction l as [|a l IH]; intros s H; simpl; [exact H|]. apply IH.
    destruct a as [ow|j|j|o]; simpl; auto.
    - destruct (j <? e_next s); simpl; auto.
    - apply in_app_iff. auto.
  Qed.

  Lemma fire_loop_turns m l s w :
    let o := fire_loop handler m l s w in
    (exists rest, l = turns_of (f_trace o) ++ rest /\
       (f_raised o = None -> (forall b, early m b = None) -> rest = [])) /\
    (forall t1 e t2, f_trace o = t1 ++ e :: t2 ->
       (forall i, e = TVoid i -> In i (e_closed (fold_left act_step (acts_of t1) s))) /\
       (forall i, e = TCall i -> ~ In i (e_closed (fold_left act_step (acts_of t1) s)))).
  Proof.
    revert s w. induction l as [|i l IH]; intros s w; simpl.
    - split; [exists []; auto|]. intros t1 e t2 E. destruct t1; discriminate.
    - destruct (mem i (e_closed s)) eqn:Hm.
      + apply mem_spec in Hm. destruct (early m false) as [r|] eqn:Ee; simpl.
        * split; [exists l; split; [reflexivity|intros _ H; congruence]|].
          intros t1 e t2 E. destruct t1 as [|x t1]; [|destruct t1; discriminate]. injection E as <- <-.
          split; intros j [= ->]; exact Hm.
        * destruct (IH s w) as [(rest & E1 & H1) H2]. split.
          -- exists rest. split; [simpl; f_equal; exact E1|exact H1].
          -- intros t1 e t2 E. destruct t1 as [|x t1].
             ++ injection E as <- <-. split; intros j [= ->]; exact Hm.
             ++ injection E as <- E. simpl. apply (H2 t1 e t2 E).
      + apply mem_false in Hm. destruct (handler i w s) as [[w1 acts] r].
        assert (Hhead : forall tail t1 e t2, TCall i :: map TAct acts ++ tail = t1 ++ e :: t2 ->
           ((forall j, e = TVoid j -> In j (e_closed (fold_left act_step (acts_of t1) s))) /\
            (forall j, e = TCall j -> ~ In j (e_closed (fold_left act_step (acts_of t1) s)))) \/
           exists t1', t1 = TCall i :: map TAct acts ++ t1' /\ tail = t1' ++ e :: t2).
        { intros tail t1 e t2 E. destruct t1 as [|x t1].
          - injection E as <- <-. left. split; intros j [= ->]; exact Hm.
          - injection E as <- E. simpl acts_of.
            assert (G : forall al u, map TAct al ++ tail = u ++ e :: t2 ->
                (exists a, e = TAct a) \/ exists u', u = map TAct al ++ u' /\ tail = u' ++ e :: t2).
            { induction al as [|a al IHal]; intros u Eu; simpl in *; [right; eauto|].
              destruct u as [|y u].
              - injection Eu as <- _. left. eauto.
              - injection Eu as <- Eu. destruct (IHal u Eu) as [?|(u' & -> & ->)]; [auto|right; eauto]. }
            destruct (G acts t1 E) as [(a & ->)|(u' & -> & ->)].
            + left. split; intros j [=].
            + right. eauto. }
        destruct r as [b|]; simpl.
        * destruct (early m b) as [r|] eqn:Ee; simpl.
          -- split.
             ++ exists l. rewrite turns_of_app, turns_of_map. simpl. split; [reflexivity|]. intros _ H; congruence.
             ++ intros t1 e t2 E. destruct (Hhead _ _ _ _ E) as [H|(t1' & -> & E')]; [exact H|].
                destruct t1' as [|x t1']; [|destruct t1'; discriminate]. injection E' as <- <-.
                split; intros j [=].
          -- destruct (IH (fold_left act_step acts s) w1) as [(rest & E1 & H1) H2]. split.
             ++ exists rest. rewrite turns_of_app, turns_of_map. simpl. split; [f_equal; exact E1|exact H1].
             ++ intros t1 e t2 E. destruct (Hhead _ _ _ _ E) as [H|(t1' & -> & E')]; [exact H|].
                destruct t1' as [|x t1']; injection E' as <- E'; [split; intros j [=]|].
                simpl. rewrite acts_of_app, acts_of_map. simpl. rewrite fold_left_app. apply (H2 t1' e t2 E').
        * split.
          -- exists l. rewrite turns_of_map. simpl. split; [reflexivity|discriminate].
          -- intros t1 e t2 E. rewrite <- (app_nil_r (map TAct acts)) in E.
             destruct (Hhead _ _ _ _ E) as [H|(t1' & -> & E')]; [exact H|]. destruct t1'; discriminate.
  Qed.

  Lemma pin_closed acts s l :
    hist acts s ->
    e_closed (fold_left act_step l (Est (e_next s) (e_reg s) (e_closed s) (e_held s) (e_owned s) (e_reg s)))
    = e_closed (fold_left act_step l s).
  Proof.
    intros Hh. eapply pr_closed. eapply pin_steps; [exact Hh|].
    constructor; try reflexivity.
    - simpl. rewrite (h_reg _ _ Hh) at 2. rewrite filter_filter, (h_reg _ _ Hh) at 1.
      apply filter_ext_in'. intros x _. destruct (alive s x); reflexivity.
    - intros i Hi. simpl in Hi. rewrite (h_reg _ _ Hh) in Hi. apply filter_In in Hi as [Hi _].
      apply in_seq in Hi. lia.
  Qed.

  Lemma fire_turns_lemma acts m s w :
    reaches acts s ->
    let o := fire handler m s w in
    (exists rest, e_reg s = turns_of (f_trace o) ++ rest /\
       (f_raised o = None -> (forall b, early m b = None) -> rest = [])) /\
    (forall t1 e t2, f_trace o = t1 ++ e :: t2 ->
       (forall i, e = TVoid i -> was_closed (acts ++ acts_of t1) i) /\
       (forall i, e = TCall i -> ~ was_closed (acts ++ acts_of t1) i)).
  Proof.
    intros Hre. pose proof (hist_reaches _ _ Hre) as Hh.
    assert (Hcl : forall l i, In i (e_closed (fold_left act_step l s)) <-> was_closed (acts ++ l) i).
    { intros l i. apply closed_iff_lemma. unfold reaches in *. rewrite fold_left_app, <- Hre. reflexivity. }
    unfold fire. destruct (e_reg s) as [|i0 l0] eqn:Ereg.
    - simpl. split; [exists []; auto|]. intros t1 e t2 E. destruct t1; discriminate.
    - rewrite <- Ereg. cbn [f_trace f_raised].
      destruct (fire_loop_turns m (e_reg s) (Est (e_next s) (e_reg s) (e_closed s) (e_held s) (e_owned s) (e_reg s)) w)
        as [H1 H2]. split; [exact H1|].
      intros t1 e t2 E. destruct (H2 t1 e t2 E) as [H3 H4]. rewrite (pin_closed acts) in H3, H4 by exact Hh.
      split; intros i Hi; rewrite <- Hcl; auto.
  Qed.

  Lemma in_app_inv_turn (i : nat) tr :
    In i (turns_of tr) -> exists t1 e t2, tr = t1 ++ e :: t2 /\ (e = TCall i \/ e = TVoid i).
  Proof.
    induction tr as [|e tr IH]; simpl; [tauto|]. intros H.
    assert (G : In i (turns_of tr) -> exists t1 e0 t2, e :: tr = t1 ++ e0 :: t2 /\ (e0 = TCall i \/ e0 = TVoid i)).
    { intros H'. destruct (IH H') as (t1 & e' & t2 & -> & He). exists (e :: t1), e', t2. auto. }
    destruct e as [a|j|j|j b]; auto; destruct H as [->|H]; auto; eexists [], _, tr; split; reflexivity || auto.
  Qed.

  (** * Raising *)
  Lemma fire_loop_raise m l s w j :
    f_raised (fire_loop handler m l s w) = Some j ->
    f_result (fire_loop handler m l s w) = RNone /\
    exists t1 al l1 l2, f_trace (fire_loop handler m l s w) = t1 ++ TCall j :: map TAct al /\
      l = l1 ++ j :: l2 /\ turns_of t1 = l1.
  Proof.
    revert s w. induction l as [|i l IH]; intros s w; simpl; [discriminate|].
    destruct (mem i (e_closed s)).
    - destruct (early m false); simpl; [discriminate|]. intros H. destruct (IH s w H) as (H0 & t1 & al & l1 & l2 & E & -> & Ht).
      split; [exact H0|]. exists (TVoid i :: t1), al, (i :: l1), l2. rewrite E. simpl. rewrite Ht. auto.
    - destruct (handler i w s) as [[w1 acts] r]. destruct r as [b|].
      + destruct (early m b); simpl; [discriminate|]. intros H.
        destruct (IH _ _ H) as (H0 & t1 & al & l1 & l2 & E & -> & Ht). split; [exact H0|].
        exists (TCall i :: map TAct acts ++ TRet i b :: t1), al, (i :: l1), l2.
        rewrite E. simpl. rewrite turns_of_app, turns_of_map. simpl. rewrite Ht. rewrite <- app_assoc. auto.
      + simpl. intros [= ->]. split; [reflexivity|]. exists [], acts, [], l. auto.
  Qed.

  Lemma fire_raise_lemma m s w j :
    f_raised (fire handler m s w) = Some j ->
    f_result (fire handler m s w) = RNone /\
    exists t1 al l1 l2, f_trace (fire handler m s w) = t1 ++ TCall j :: map TAct al /\
      e_reg s = l1 ++ j :: l2 /\ turns_of t1 = l1.
  Proof.
    unfold fire. destruct (e_reg s) eqn:E; [discriminate|]. rewrite <- E. cbn [f_raised f_result f_trace].
    apply fire_loop_raise.
  Qed.

  (** * Results *)
  Lemma fire_loop_any l s w :
    f_raised (fire_loop handler FireAny l s w) = None ->
    f_result (fire_loop handler FireAny l s w) = RBool (existsb id (results_of (f_trace (fire_loop handler FireAny l s w)))) /\
    (exists rest, l = turns_of (f_trace (fire_loop handler FireAny l s w)) ++ rest /\
       (f_result (fire_loop handler FireAny l s w) = RBool false -> rest = [])) /\
    (forall r1 r2, results_of (f_trace (fire_loop handler FireAny l s w)) = r1 ++ true :: r2 -> r2 = [] /\ existsb id r1 = false).
  Proof.
    revert s w. induction l as [|i l IH]; intros s w; simpl.
    - intros _. split; [reflexivity|]. split; [exists []; auto|]. intros [|? r1] r2 E; discriminate.
    - destruct (mem i (e_closed s)); simpl.
      + intros Hr. destruct (IH s w Hr) as (H1 & (rest & E & Hrest) & H2). split; [exact H1|].
        split; [exists rest; split; [simpl; f_equal; exact E|exact Hrest]|].
        intros [|x r1] r2 Er; [discriminate|]. injection Er as <- Er. destruct (H2 r1 r2 Er). simpl. auto.
      + destruct (handler i w s) as [[w1 acts] r]. destruct r as [[|]|]; simpl; [| |discriminate].
        * intros _. rewrite results_of_app, results_of_map, turns_of_app, turns_of_map. simpl. split; [reflexivity|].
          split; [exists l; split; [reflexivity|discriminate]|].
          intros r1 r2 Er. destruct r1 as [|x r1]; [injection Er as <-; auto|]. destruct r1; discriminate.
        * intros Hr. destruct (IH _ _ Hr) as (H1 & (rest & E & Hrest) & H2).
          rewrite results_of_app, results_of_map, turns_of_app, turns_of_map. simpl. split; [exact H1|].
          split; [exists rest; split; [simpl; f_equal; exact E|exact Hrest]|].
          intros [|x r1] r2 Er; [discriminate|]. injection Er as <- Er. destruct (H2 r1 r2 Er). simpl. auto.
  Qed.

  Lemma fire_loop_all l s w :
    f_raised (fire_loop handler FireAll l s w) = None ->
    f_result (fire_loop handler FireAll l s w) = RBool (forallb id (results_of (f_trace (fire_loop handler FireAll l s w)))) /\
    (exists rest, l = turns_of (f_trace (fire_loop handler FireAll l s w)) ++ rest /\
       (f_result (fire_loop handler FireAll l s w) = RBool true -> rest = [])) /\
    (forall r1 r2, results_of (f_trace (fire_loop handler FireAll l s w)) = r1 ++ false :: r2 -> r2 = [] /\ forallb id r1 = true).
  Proof.
    revert s w. induction l as [|i l IH]; intros s w; simpl.
    - intros _. split; [reflexivity|]. split; [exists []; auto|]. intros [|? r1] r2 E; discriminate.
    - destruct (mem i (e_closed s)); simpl.
      + intros _. split; [reflexivity|]. split; [exists l; split; [reflexivity|discriminate]|].
        intros r1 r2 Er. destruct r1 as [|x r1]; [injection Er as <-; auto|]. destruct r1; discriminate.
      + destruct (handler i w s) as [[w1 acts] r]. destruct r as [[|]|]; simpl; [| |discriminate].
        * intros Hr. destruct (IH _ _ Hr) as (H1 & (rest & E & Hrest) & H2).
          rewrite results_of_app, results_of_map, turns_of_app, turns_of_map. simpl. split; [exact H1|].
          split; [exists rest; split; [simpl; f_equal; exact E|exact Hrest]|].
          intros [|x r1] r2 Er; [discriminate|]. injection Er as <- Er. destruct (H2 r1 r2 Er). simpl. auto.
        * intros _. rewrite results_of_app, results_of_map, turns_of_app, turns_of_map. simpl. split; [reflexivity|].
          split; [exists l; split; [reflexivity|discriminate]|].
          intros r1 r2 Er. destruct r1 as [|x r1]; [injection Er as <-; auto|]. destruct r1; discriminate.
  Qed.

  Lemma fire_any_lemma s w :
    e_reg s <> [] -> let o := fire handler FireAny s w in
    f_raised o = None ->
    f_result o = RBool (existsb id (results_of (f_trace o))) /\
    (exists rest, e_reg s = turns_of (f_trace o) ++ rest /\ (f_result o = RBool false -> rest = [])) /\
    (forall r1 r2, results_of (f_trace o) = r1 ++ true :: r2 -> r2 = [] /\ existsb id r1 = false).
  Proof.
    unfold fire. destruct (e_reg s) eqn:E; [congruence|]. intros _. rewrite <- E. cbn [f_raised f_result f_trace].
    apply fire_loop_any.
  Qed.

  Lemma fire_all_lemma s w :
    e_reg s <> [] -> let o := fire handler FireAll s w in
    f_raised o = None ->
    f_result o = RBool (forallb id (results_of (f_trace o))) /\
    (exists rest, e_reg s = turns_of (f_trace o) ++ rest /\ (f_result o = RBool true -> rest = [])) /\
    (forall r1 r2, results_of (f_trace o) = r1 ++ false :: r2 -> r2 = [] /\ forallb id r1 = true).
  Proof.
    unfold fire. destruct (e_reg s) eqn:E; [congruence|]. intros _. rewrite <- E. cbn [f_raised f_result f_trace].
    apply fire_loop_all.
  Qed.

  Lemma fire_none_lemma m s w : e_reg s = [] -> fire handler m s w = Fo s w [] RNone None.
  Proof. intros E. unfold fire. rewrite E. reflexivity. Qed.

  (** * Histories *)
  Lemma ev_run_lemma h : forall acts s w s' w' tr,
    reaches acts s -> ev_run handler s w h = (s', w', tr) ->
    reaches (acts ++ acts_of tr) s' /\
    forall t1 i t2, tr = t1 ++ TCall i :: t2 -> ~ was_closed (acts ++ acts_of t1) i.
  Proof.
    induction h as [|[a|m] h IH]; intros acts s w s' w' tr Hre; simpl.
    - intros [= <- <- <-]. simpl. rewrite app_nil_r. split; [exact Hre|]. intros t1 i t2 E. destruct t1; discriminate.
    - destruct (ev_run handler (act_step s a) w h) as [[s2 w2] tr2] eqn:E. intros [= <- <- <-].
      destruct (IH (acts ++ [a]) (act_step s a) w s2 w2 tr2) as [H1 H2]; [|exact E|].
      { unfold reaches in *. rewrite fold_left_app, <- Hre. reflexivity. }
      rewrite <- app_assoc in H1. split; [exact H1|].
      intros t1 i t2 Et. destruct t1 as [|x t1]; [discriminate|]. injection Et as <- Et.
      specialize (H2 t1 i t2 Et). rewrite <- app_assoc in H2. exact H2.
    - destruct (ev_run handler (f_state (fire handler m s w)) (f_world (fire handler m s w)) h) as [[s2 w2] tr2] eqn:E.
      intros [= <- <- <-].
      destruct (fire_effects_lemma acts m s w Hre) as [_ Hre'].
      destruct (fire_turns_lemma acts m s w Hre) as [_ Ht].
      destruct (IH _ _ _ _ _ _ Hre' E) as [H1 H2].
      rewrite acts_of_app, app_assoc. split; [exact H1|].
      intros t1 i t2 Et.
      assert (G : (exists u, f_trace (fire handler m s w) = t1 ++ TCall i :: u) \/
                  exists u, t1 = f_trace (fire handler m s w) ++ u /\ tr2 = u ++ TCall i :: t2).
      { clear -Et. revert t1 Et. induction (f_trace (fire handler m s w)) as [|x l IHl]; intros t1 Et; simpl in *; [right; eauto|].
        destruct t1 as [|y t1].
        - injection Et as -> _. left. exists l. reflexivity.
        - injection Et as -> Et. destruct (IHl t1 Et) as [(u & E1)|(u & E1 & E2)]; [left; exists u; rewrite E1; reflexivity|right; exists u; rewrite E1, E2; auto]. }
      destruct G as [(u & Eu)|(u & -> & Eu)].
      + destruct (Ht _ _ _ Eu) as [_ H]. apply H. reflexivity.
      + rewrite acts_of_app, app_assoc. apply (H2 u i t2 Eu).
  Qed.
End Fire.

Lemma reg_nodup acts s : reaches acts s -> NoDup (e_reg s).
Proof.
  intros H. destruct (registered_order_lemma _ _ H) as (k & ->). apply NoDup_filter, seq_NoDup.
Qed.

Lemma NoDup_app_l {A} (a b : list A) : NoDup (a ++ b) -> NoDup a.
Proof.
  induction a as [|x a IH]; simpl; intros H; [constructor|]. inversion H; subst.
  constructor; [|apply IH; assumption]. intros Hin. apply H2, in_app_iff. auto.
Qed.

Lemma fire_turns_c22 {W} (handler : nat -> W -> est -> W * list act * hres) acts s w :
  reaches acts s ->
  let o := fire handler Fire s w in
  (exists rest, e_reg s = turns_of (f_trace o) ++ rest /\ (f_raised o = None -> rest = [])) /\
  NoDup (turns_of (f_trace o)) /\
  (forall t1 i t2, f_trace o = t1 ++ TVoid i :: t2 -> was_closed (acts ++ acts_of t1) i) /\
  (forall t1 i t2, f_trace o = t1 ++ TCall i :: t2 -> ~ was_closed (acts ++ acts_of t1) i).
Proof.
  intros Hre. cbn zeta. destruct (fire_turns_lemma handler acts Fire s w Hre) as [(rest & E & Hr) Ht].
  split; [exists rest; split; [exact E|intros H; apply Hr; [exact H|intros []; reflexivity]]|].
  split; [apply (NoDup_app_l _ rest); rewrite <- E; eapply reg_nodup; exact Hre|].
  split; intros t1 i t2 Et; destruct (Ht _ _ _ Et) as [H1 H2]; auto.
Qed.

Lemma fire_turns_any_all {W} (handler : nat -> W -> est -> W * list act * hres) acts m s w :
  reaches acts s ->
  let o := fire handler m s w in
  (exists rest, e_reg s = turns_of (f_trace o) ++ rest) /\
  (forall t1 i t2, f_trace o = t1 ++ TVoid i :: t2 -> was_closed (acts ++ acts_of t1) i) /\
  (forall t1 i t2, f_trace o = t1 ++ TCall i :: t2 -> ~ was_closed (acts ++ acts_of t1) i).
Proof.
  intros Hre. cbn zeta. destruct (fire_turns_lemma handler acts m s w Hre) as [(rest & E & Hr) Ht].
  split; [exists rest; exact E|].
  split; intros t1 i t2 Et; destruct (Ht _ _ _ Et) as [H1 H2]; auto.
Qed.

Lemma fire_raise_c23 {W} (handler : nat -> W -> est -> W * list act * hres) acts m s w j :
  reaches acts s ->
  let o := fire handler m s w in
  f_raised o = Some j ->
  f_result o = RNone /\
  (exists t1 al l1 l2, f_trace o = t1 ++ TCall j :: map TAct al /\ e_reg s = l1 ++ j :: l2 /\ turns_of t1 = l1) /\
  f_state o = fold_left act_step (acts_of (f_trace o)) s.
Proof.
  intros Hre o Hr. destruct (fire_raise_lemma handler m s w j Hr) as [H1 H2]. split; [exact H1|]. split; [exact H2|].
  exact (proj1 (fire_effects_lemma handler acts m s w Hre)).
Qed.

Lemma ev_history_c25 {W} (handler : nat -> W -> est -> W * list act * hres) h w s' w' tr :
  ev_run handler est_new w h = (s', w', tr) ->
  reaches (acts_of tr) s' /\
  forall t1 i t2, tr = t1 ++ TCall i :: t2 -> ~ was_closed (acts_of t1) i.
Proof. intros H. exact (ev_run_lemma handler h [] est_new w s' w' tr eq_refl H). Qed.

Lemma fire_all_true_refuted_lemma :
  exists (handler : nat -> unit -> est -> unit * list act * hres) s,
    (forall t1 i t2, f_trace (fire handler FireAll s tt) <> t1 ++ TRet i false :: t2) /\
    f_result (fire handler FireAll s tt) <> RBool true.
Proof.
  exists (fun _ w _ => (w, [], HRet true)), est_new. split; [|discriminate].
  intros t1 i t2 E. destruct t1; discriminate.
Qed.

Lemma all_called_refuted_lemma :
  exists (handler : nat -> unit -> est -> unit * list act * hres) acts s i,
    reaches acts s /\ In i (e_reg s) /\ ~ was_closed acts i /\ acts_of (f_trace (fire handler Fire s tt)) = [] /\
    ~ In (TCall i) (f_trace (fire handler Fire s tt)).
Proof.
  exists (fun i w _ => (w, [], if i =? 0 then HRaise else HRet true)), [AListen None; AListen None],
    (fold_left act_step [AListen None; AListen None] est_new), 1.
  split; [reflexivity|]. split; [vm_compute; auto|]. split.
  - intros H. apply (closed_iff_lemma [AListen None; AListen None] (fold_left act_step [AListen None; AListen None] est_new)) in H; [|reflexivity].
    vm_compute in H. exact H.
  - split; [reflexivity|]. vm_compute. intros [H|[]]; discriminate.
Qed.

Lemma fire_all_closed_refuted_lemma :
  exists (handler : nat -> unit -> est -> unit * list act * hres) acts s,
    reaches acts s /\ (forall i w s, snd (handler i w s) = HRet true) /\
    f_result (fire handler FireAll s tt) = RBool false.
Proof.
  exists (fun _ w _ => (w, [], HRet true)), [AListen None; AListen None; AClose 0],
    (fold_left act_step [AListen None; AListen None; AClose 0] est_new).
  split; [reflexivity|]. split; [reflexivity|]. vm_compute. reflexivity.
Qed.
