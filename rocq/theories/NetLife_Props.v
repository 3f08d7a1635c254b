(** Properties of networks of streams whose streams are given up. *)
From Coq Require Import List Arith Bool Lia.
From Verif Require Import PyBase Net_Model Net_Spec Net_Proofs NetLife_Model NetLife_Spec NetLife_Proofs NetLife_Proofs2 NetLife_Proofs3.
Import ListNotations.

Section NetLifeProps.
  Context {V : Type} (neq : V -> V -> bool) (none : V).
  Local Notation lst := (lst V).
  Local Notation l_step := (l_step neq none).
  Local Notation l_run := (l_run neq none).
  Local Notation reached st := (exists h t b, l_run l_new h = (st, t, b)).

  Lemma reached_inv (st : lst) : reached st -> linv [] None st.
  Proof.
    intros (h & t & b & H). destruct (run_ok neq none h l_new linv_new) as (st' & t' & E & I). rewrite H in E. now injection E as -> _ _.
  Qed.
  Lemma run_app (st : lst) h1 : forall h2 st1 t1 st2 t2, l_run st h1 = (st1, t1, true) -> l_run st1 h2 = (st2, t2, true) ->
    l_run st (h1 ++ h2) = (st2, t1 ++ t2, true).
  Proof.
    revert st. induction h1 as [|o h1 IH]; intros st h2 st1 t1 st2 t2 E1 E2; cbn in *.
    - injection E1 as <- <-. exact E2.
    - destruct (l_step st o) as [[s3 t3] b3]. destruct (l_run s3 h1) as [[s4 t4] b4] eqn:E3. injection E1 as <- <- B.
      apply andb_prop in B. destruct B as [-> ->]. rewrite (IH _ _ _ _ _ _ E3 E2). cbn. now rewrite app_assoc.
  Qed.
  Lemma reached_more (st : lst) h st' t b : reached st -> l_run st h = (st', t, b) -> reached st'.
  Proof.
    intros (h0 & t0 & b0 & H) H1. pose proof (run_ok neq none h0 l_new linv_new) as (sx & tx & Ex & Ix). rewrite H in Ex. injection Ex as <- <- ->.
    destruct (run_ok neq none h st Ix) as (sy & ty & Ey & _). rewrite H1 in Ey. injection Ey as <- <- ->.
    exists (h0 ++ h), (t0 ++ t), true. eapply run_app; eauto.
  Qed.

  (** No assertion fails, and a stream's count is that of the references the clients have and the references of streams not deleted. *)
  Theorem netlife_counts h st t b : l_run l_new h = (st, t, b) ->
    b = true /\ forall k lf, life_of st k = Some lf -> l_count lf = l_ext lf + uses st k.
  Proof.
    intros H. destruct (run_ok neq none h l_new linv_new) as (st' & t' & E & I). rewrite H in E. injection E as <- <- ->. split; [reflexivity|].
    intros k lf El. unfold life_of in El. destruct (both' st (i_len _ _ _ I) k lf El) as [nd En].
    rewrite (k_count _ _ _ _ _ _ (i_ok _ _ _ I k nd lf En El)), (uses_held k st I). cbn. lia.
  Qed.

  (** At any time exactly the streams not wanted any more are deleted. *)
  Theorem netlife_wanted st k : reached st -> (alive st k <-> wanted st k).
  Proof. intros R. apply alive_wanted, reached_inv, R. Qed.

  (** When every reference taken is given up and none was taken by a constructor that failed, everything is deleted. *)
  Theorem netlife_all_released st : reached st ->
    (forall k lf, life_of st k = Some lf -> l_ext lf = 0 /\ l_used lf = true) ->
    forall k lf, life_of st k = Some lf -> closed st k.
  Proof.
    intros R H k lf El. exists lf. split; [exact El|]. destruct (l_active lf) eqn:A; [|reflexivity]. exfalso.
    assert (W : wanted st k) by (apply (netlife_wanted st k R); exists lf; auto). clear El A.
    induction W as [k l0 E P|k l0 E U|j k W IH HK]; [|destruct (H k l0 E); congruence|exact IH]. destruct (H k l0 E). lia.
  Qed.

  (** Giving up a reference closes each stream that is not wanted any more once, users before their inputs; all that is seen is the
      last firing of each; the other streams are untouched. *)
  Theorem netlife_release st k lf : reached st -> life_of st k = Some lf -> 0 < l_ext lf ->
    exists st' ks, l_step st (LDrop k) = (st', flat_map (closing st) ks, true) /\ NoDup ks /\
      (forall j, In j ks <-> alive st j /\ closed st' j) /\
      (forall a x b, ks = a ++ x :: b -> forall j, In j b -> ~ In x (inputs (q_net st) j)) /\
      (forall j, alive st' j -> nth_error (q_net st') j = nth_error (q_net st) j) /\
      (forall j, In j ks -> derived st j -> value_of st' j = Some none).
  Proof.
    intros R El Ex. pose proof (reached_inv st R) as I. unfold life_of in El. destruct (drop_step neq none st k lf I El Ex) as (st' & ks & E & I' & F & B).
    pose proof (nth_lt _ _ _ El) as Lk. set (st0 := Ls (q_net st) (put k (drop_ext lf) (q_life st))) in *.
    assert (A0 : forall j, alive st0 j <-> alive st j).
    { intros j. unfold alive, life_of, st0. cbn [q_life]. destruct (Nat.eq_dec j k) as [->|N].
      - rewrite put_same by assumption. rewrite El. split; intros (l & H1 & H2); injection H1 as <-; eauto.
      - rewrite put_other by assumption. tauto. }
    exists st', ks. split; [exact E|]. split; [apply (f_nodup _ _ _ _ _ F)|]. split; [|split; [|split]].
    - intros j. split.
      + intros HI. destruct (f_in _ _ _ _ _ F j HI) as [H1 H2]. split; [now apply A0|exact H2].
      + intros [H1 (l1 & E1 & C1)]. apply A0 in H1. destruct H1 as (l0 & E0 & C0). destruct (in_dec Nat.eq_dec j ks) as [HI|N]; [exact HI|].
        destruct (f_life _ _ _ _ _ F j l0 E0) as (l1' & E1' & _ & _ & _ & _ & C & _). unfold life_of in E1. rewrite E1 in E1'. injection E1' as <-.
        rewrite (C N) in C1. congruence.
    - apply (f_order _ _ _ _ _ F).
    - intros j (l1 & E1 & C1). apply (f_node _ _ _ _ _ F); [|discriminate]. intros HI. destruct (f_in _ _ _ _ _ F j HI) as [_ (l2 & E2 & C2)]. congruence.
    - intros j HI (nd & En & N). destruct (f_shut _ _ _ _ _ F j HI) as [_ SH]. change (q_net st0) with (q_net st) in SH.
      unfold value_of, value. rewrite SH, En. cbn. unfold shut. destruct (n_def nd); [congruence|reflexivity|reflexivity].
  Qed.

  Lemma closings_app k (t1 t2 : list (lev V)) : closings k (t1 ++ t2) = closings k t1 + closings k t2.
  Proof. unfold closings. rewrite filter_app, app_length. reflexivity. Qed.
  Lemma closings_fires k (t : list (nat * V)) : closings k (fires t) = 0.
  Proof. unfold closings, fires. induction t; auto. Qed.
  Lemma closings_all k (st : lst) : forall ks, closings k (flat_map (closing st) ks) = count_occ Nat.eq_dec ks k.
  Proof.
    induction ks as [|j ks IH]; [reflexivity|]. cbn [flat_map]. rewrite closings_app, IH. cbn [count_occ].
    assert (E : closings k (closing st j) = if j =? k then 1 else 0).
    { unfold closing, closings. cbn [filter]. destruct (nth_error (q_net st) j) as [[[] ? ?]|]; cbn; destruct (j =? k); reflexivity. }
    rewrite E. destruct (Nat.eq_dec j k) as [->|N]; [rewrite Nat.eqb_refl|rewrite (proj2 (Nat.eqb_neq j k) N)]; reflexivity.
  Qed.
  Lemma heard_all k (st : lst) : forall ks, ~ In k ks -> heard k (flat_map (closing st) ks) = [].
  Proof.
    induction ks as [|j ks IH]; intros N; [reflexivity|]. cbn [flat_map]. rewrite heard_app, IH by (intros H; apply N; now right).
    assert (j <> k) by (intros ->; apply N; now left). unfold closing. rewrite app_nil_r. cbn [heard].
    destruct (nth_error (q_net st) j) as [[[] ? ?]|]; cbn; rewrite ?(proj2 (Nat.eqb_neq j k) H); reflexivity.
  Qed.

  (** what one operation does to a stream there is *)
  Definition effect (k : nat) (nd : node V) (lf : life) (st1 : lst) (t1 : list (lev V)) : Prop :=
    exists nd' lf', nth_error (q_net st1) k = Some nd' /\ nth_error (q_life st1) k = Some lf' /\
      n_def nd' = n_def nd /\ l_lost lf' = l_lost lf /\
      closings k t1 = (if l_active lf && negb (l_active lf') then 1 else 0) /\
      (l_active lf = false -> l_active lf' = false /\ (n_def nd <> DVal -> nd' = nd /\ heard k t1 = [])).
  Lemma effect_same k nd lf (st1 : lst) t1 : nth_error (q_net st1) k = Some nd -> nth_error (q_life st1) k = Some lf ->
    closings k t1 = 0 -> heard k t1 = [] -> effect k nd lf st1 t1.
  Proof.
    intros H1 H2 H3 H4. exists nd, lf. rewrite andb_negb_r. repeat split; auto.
  Qed.
  Lemma step_effect (st : lst) o st1 t1 b k nd lf : linv [] None st -> l_step st o = (st1, t1, b) ->
    nth_error (q_net st) k = Some nd -> nth_error (q_life st) k = Some lf -> effect k nd lf st1 t1.
  Proof.
    intros I E En El. destruct (allowed st o) eqn:Al.
    2:{ unfold NetLife_Model.l_step in E. rewrite Al in E. injection E as <- <- <-. now apply effect_same. }
    assert (G : forall n lost t, heard k t = [] -> closings k t = 0 -> effect k nd lf (grow n lost st) t).
    { intros n lost t H1 H2. rewrite grow_eq. destruct (adds_life (ins_of n) st k lf El) as (lf' & E' & _ & A & _ & _ & B & _).
      exists nd, lf'. cbn [q_net q_life]. rewrite !nth_error_app1 by (eapply nth_lt; eauto). rewrite A, andb_negb_r. repeat split; auto. }
    assert (NL : forall w : V, heard k [EFire (length (q_net st)) w] = [] /\ closings k [EFire (length (q_net st)) w] = 0).
    { intros w. apply nth_lt in En. cbn. rewrite (proj2 (Nat.eqb_neq _ k)) by lia. auto. }
    destruct o as [[v|i f|l f|i v]|i|i|i].
    - unfold NetLife_Model.l_step in E. rewrite Al in E. injection E as <- <- <-. now apply G.
    - unfold NetLife_Model.l_step in E. rewrite Al in E. destruct (nth_error (q_net st) i) as [n|]; [|injection E as <- <- <-; now apply effect_same].
      destruct (f (n_val n)) as [w|e]; [|injection E as <- <- <-; now apply G].
      destruct (neq w none); injection E as <- <- <-; apply G; auto; apply NL.
    - unfold NetLife_Model.l_step in E. rewrite Al in E. destruct (values_of (q_net st) l) as [vs|]; [|injection E as <- <- <-; now apply effect_same].
      destruct (f vs) as [w|e]; injection E as <- <- <-; apply G; auto; apply NL.
    - unfold NetLife_Model.l_step in E. rewrite Al in E. destruct (nth_error (q_net st) i) as [[[|p f|lp f] x ins]|] eqn:Ei;
        try (injection E as <- <- <-; now apply effect_same).
      destruct (neq x v); [|injection E as <- <- <-; now apply effect_same].
      set (s0 := put i (Node DVal v ins) (q_net st)) in *.
      assert (D0 : map n_def s0 = map n_def (q_net st)) by (eapply put_map; eauto).
      pose proof (fire_l_defs neq (q_life st) (length (q_net st) - i) s0 i v) as D1.
      pose proof (fire_l_quiet neq (q_life st) k (length (q_net st) - i) s0 i v) as Qt.
      destruct (fire_l neq (q_life st) (length (q_net st) - i) s0 i v) as [s1 u1]. injection E as <- <- <-. cbn [fst snd] in *.
      destruct (nth_defs (s := q_net st) (s' := s1) k nd (eq_trans (eq_sym D0) (eq_sym D1)) En) as (nd' & En' & Ed').
      exists nd', lf. cbn [q_net q_life]. rewrite closings_fires, andb_negb_r. repeat split; auto.
      + pose proof (closed_quiet neq none st k lf I El H) as Q0. destruct (Qt (quiet_defs (q_life st) (q_net st) s0 k D0 Q0)) as (_ & Q1 & _).
        assert (k <> i) by (intros ->; rewrite Ei in En; injection En as <-; cbn in H0; congruence).
        unfold s0 in Q1. rewrite put_other in Q1 by assumption. congruence.
      + pose proof (closed_quiet neq none st k lf I El H) as Q0. destruct (Qt (quiet_defs (q_life st) (q_net st) s0 k D0 Q0)) as (_ & _ & Q2).
        assert (k <> i) by (intros ->; rewrite Ei in En; injection En as <-; cbn in H0; congruence).
        rewrite heard_fires. clear - Q2 H1. induction u1 as [|[j w] u1 IH]; [reflexivity|]. unfold fired in *. cbn.
        destruct (Nat.eqb_spec j k) as [->|N]; [exfalso; apply H1; eapply Q2; now left|]. apply IH. intros w' HI. eapply Q2. right. exact HI.
    - unfold NetLife_Model.l_step in E. rewrite Al in E. unfold allowed, usable in Al. destruct (nth_error (q_life st) i) as [li|] eqn:Eli; [|discriminate].
      rewrite (set_life_eq i _ st li Eli) in E. injection E as <- <- <-. unfold effect. cbn [q_net q_life]. destruct (Nat.eq_dec k i) as [->|N].
      + rewrite put_same by (eapply nth_lt; eauto). rewrite El in Eli. injection Eli as <-. eexists _, _. split; [exact En|]. split; [reflexivity|].
        cbn. rewrite andb_negb_r. repeat split; auto.
      + rewrite put_other by assumption. exists nd, lf. rewrite andb_negb_r. repeat split; auto.
    - unfold allowed in Al. destruct (nth_error (q_life st) i) as [li|] eqn:Eli; [|discriminate]. apply Nat.ltb_lt in Al.
      destruct (drop_step neq none st i li I Eli Al) as (st' & ks & E' & I' & F & B). rewrite E in E'. injection E' as -> -> ->.
      set (st0 := Ls (q_net st) (put i (drop_ext li) (q_life st))) in *.
      assert (X : exists l0, nth_error (q_life st0) k = Some l0 /\ l_active l0 = l_active lf /\ l_lost l0 = l_lost lf).
      { unfold st0. cbn [q_life]. destruct (Nat.eq_dec k i) as [->|N].
        - rewrite put_same by (eapply nth_lt; eauto). rewrite El in Eli. injection Eli as <-. eexists. split; [reflexivity|]. auto.
        - rewrite put_other by assumption. eauto. }
      destruct X as (l0 & E0 & A0 & L0). destruct (f_life _ _ _ _ _ F k l0 E0) as (lf' & El' & _ & _ & Lo & _ & C & _).
      destruct (nth_defs (s := q_net st) (s' := q_net st') k nd (eq_sym (f_def _ _ _ _ _ F)) En) as (nd' & En' & Ed').
      exists nd', lf'. split; [exact En'|]. split; [exact El'|]. split; [exact Ed'|]. split; [congruence|].
      rewrite closings_all. destruct (in_dec Nat.eq_dec k ks) as [HI|NI].
      + destruct (f_in _ _ _ _ _ F k HI) as [(la & Ea & Aa) (lc & Ec & Ac)]. unfold life_of in Ea, Ec. rewrite E0 in Ea. injection Ea as <-.
        rewrite El' in Ec. injection Ec as <-. rewrite <- A0, Aa, Ac. cbn. split; [|discriminate].
        apply NoDup_count_occ' ; [apply (f_nodup _ _ _ _ _ F)|exact HI].
      + rewrite (C NI), A0, andb_negb_r. split; [now apply count_occ_not_In|]. intros A. split; [exact A|]. intros _. split.
        * rewrite (f_node _ _ _ _ _ F k NI) in En' by discriminate. change (q_net st0) with (q_net st) in En'. congruence.
        * now apply heard_all.
    - unfold NetLife_Model.l_step in E. rewrite Al in E. destruct (nth_error (q_net st) i) as [n|] eqn:Ei; [|injection E as <- <- <-; now apply effect_same].
      unfold set_life in E. destruct (nth_error (q_life st) i) as [li|] eqn:Eli; [|injection E as <- <- <-; now apply effect_same].
      injection E as <- <- <-. unfold effect. cbn [q_net q_life]. destruct (Nat.eq_dec k i) as [->|N].
      + rewrite put_same by (eapply nth_lt; eauto). rewrite El in Eli. injection Eli as <-. eexists _, _. split; [exact En|]. split; [reflexivity|].
        cbn. rewrite andb_negb_r. repeat split; auto.
      + rewrite put_other by assumption. exists nd, lf. rewrite andb_negb_r. repeat split; auto.
  Qed.

  (** a stream not there yet is not closed, and is active when made *)
  Lemma step_new (st : lst) o st1 t1 b k : linv [] None st -> l_step st o = (st1, t1, b) -> length (q_life st) <= k ->
    closings k t1 = 0 /\ forall lf, nth_error (q_life st1) k = Some lf -> l_active lf = true.
  Proof.
    intros I E Lk.
    assert (Same : closings k t1 = 0 -> length (q_life st1) <= k -> closings k t1 = 0 /\ forall lf, nth_error (q_life st1) k = Some lf -> l_active lf = true).
    { intros H1 H2. split; [exact H1|]. intros lf H. apply nth_lt in H. lia. }
    assert (G : forall n lost, closings k t1 = 0 -> st1 = grow n lost st -> closings k t1 = 0 /\ forall lf, nth_error (q_life st1) k = Some lf -> l_active lf = true).
    { intros n lost H1 ->. split; [exact H1|]. intros lf H. rewrite grow_eq in H. cbn [q_life] in H. apply nth_snoc in H.
      rewrite adds_len in H. destruct H as [[H _]|[_ ->]]; [lia|reflexivity]. }
    unfold NetLife_Model.l_step in E. destruct (allowed st o) eqn:Al; [|injection E as <- <- <-; apply Same; [reflexivity|exact Lk]].
    destruct o as [[v|i f|l f|i v]|i|i|i].
    - injection E as <- <- <-. eapply G; reflexivity.
    - destruct (nth_error (q_net st) i) as [n|]; [|injection E as <- <- <-; apply Same; [reflexivity|exact Lk]].
      destruct (f (n_val n)) as [w|e]; [|injection E as <- <- <-; eapply G; reflexivity].
      destruct (neq w none); injection E as <- <- <-; eapply G; reflexivity.
    - destruct (values_of (q_net st) l) as [vs|]; [|injection E as <- <- <-; apply Same; [reflexivity|exact Lk]].
      destruct (f vs) as [w|e]; injection E as <- <- <-; eapply G; reflexivity.
    - destruct (nth_error (q_net st) i) as [[[|p f|lp f] x ins]|] eqn:Ei; try (injection E as <- <- <-; apply Same; [reflexivity|exact Lk]).
      destruct (neq x v); [|injection E as <- <- <-; apply Same; [reflexivity|exact Lk]].
      destruct (fire_l neq _ _ _ i v) as [s1 u1]. injection E as <- <- <-. apply Same; [apply closings_fires|exact Lk].
    - unfold set_life in E. injection E as <- <- <-. apply Same; [reflexivity|].
      destruct (nth_error (q_life st) i); cbn [q_life]; rewrite ?put_length; exact Lk.
    - unfold allowed in Al. destruct (nth_error (q_life st) i) as [li|] eqn:Eli; [|discriminate]. pose proof Al as Al'. apply Nat.ltb_lt in Al.
      destruct (drop_step neq none st i li I Eli Al) as (st' & ks & E' & I' & F & B).
      unfold NetLife_Model.l_step, allowed in E'. rewrite Eli, Al' in E'. rewrite E in E'. injection E' as -> -> ->.
      apply Same.
      + rewrite closings_all. apply count_occ_not_In. intros HI. specialize (B k HI). apply nth_lt in Eli. lia.
      + rewrite (f_len _ _ _ _ _ F). cbn. rewrite put_length. exact Lk.
    - destruct (nth_error (q_net st) i); injection E as <- <- <-; (apply Same; [reflexivity|]); auto.
      unfold set_life. destruct (nth_error (q_life st) i); cbn [q_life]; rewrite ?put_length; exact Lk.
  Qed.

  Lemma run_closings : forall h (st : lst) st1 t1 b k, linv [] None st -> l_run st h = (st1, t1, b) ->
    closings k t1 + (match nth_error (q_life st) k with Some lf => if l_active lf then 0 else 1 | None => 0 end) =
    match nth_error (q_life st1) k with Some lf => if l_active lf then 0 else 1 | None => 0 end.
  Proof.
    induction h as [|o h IH]; intros st st1 t1 b k I E; cbn [NetLife_Model.l_run] in E; [injection E as <- <- <-; reflexivity|].
    destruct (step_ok neq none st o I) as (s2 & t2 & E2 & I2). rewrite E2 in E. destruct (l_run s2 h) as [[s3 t3] b3] eqn:E3.
    injection E as <- <- <-. rewrite closings_app, <- (IH s2 s3 t3 b3 k I2 E3).
    destruct (nth_error (q_life st) k) as [lf|] eqn:El.
    - destruct (both' st (i_len _ _ _ I) k lf El) as [nd En]. destruct (step_effect st o s2 t2 true k nd lf I E2 En El) as (nd' & lf' & En' & El' & _ & _ & C & Dd).
      rewrite El', C. destruct (l_active lf) eqn:A; cbn; [destruct (l_active lf'); cbn; lia|]. destruct (Dd eq_refl) as [-> _]. lia.
    - apply nth_error_None in El. destruct (step_new st o s2 t2 true k I E2 El) as [C A]. rewrite C.
      destruct (nth_error (q_life s2) k) as [lf'|] eqn:El'; [rewrite (A lf' eq_refl)|]; lia.
  Qed.

  (** A stream is closed once if it is deleted and never otherwise. *)
  Theorem netlife_once h st t b k lf : l_run l_new h = (st, t, b) -> life_of st k = Some lf ->
    closings k t = if l_active lf then 0 else 1.
  Proof.
    intros H El. pose proof (run_closings h l_new st t b k linv_new H) as C. unfold life_of in El. rewrite El in C.
    destruct k; cbn in C; lia.
  Qed.

  (** A closed MapStream or CombineLatestStream stays closed and silent and keeps its value, whatever is done later. *)
  Theorem netlife_after st k : reached st -> closed st k -> derived st k ->
    forall h st' t b, l_run st h = (st', t, b) -> closed st' k /\ heard k t = [] /\ value_of st' k = value_of st k.
  Proof.
    intros R (lf & El & A) (nd & En & N) h. pose proof (reached_inv st R) as I. clear R. unfold life_of in El. revert st lf I El A En.
    induction h as [|o h IH]; intros st lf I El A En st' t b E; cbn [NetLife_Model.l_run] in E.
    - injection E as <- <- <-. repeat split; auto. exists lf. auto.
    - destruct (step_ok neq none st o I) as (s2 & t2 & E2 & I2). rewrite E2 in E. destruct (l_run s2 h) as [[s3 t3] b3] eqn:E3. injection E as <- <- <-.
      destruct (step_effect st o s2 t2 true k nd lf I E2 En El) as (nd' & lf' & En' & El' & _ & _ & _ & Dd).
      destruct (Dd A) as [A' X]. destruct (X N) as [-> Hh]. destruct (IH s2 lf' I2 El' A' En' s3 t3 b3 E3) as (B1 & B2 & B3).
      split; [exact B1|]. split; [rewrite heard_app, Hh; exact B2|]. rewrite B3. unfold value_of, value. rewrite En', En. reflexivity.
  Qed.

  (** If no function raises, the streams not deleted (and all ValueStreams) hold and have fired exactly what they would if nothing were
      ever given up; a deleted one has fired what it would up to then, and once more the value it had. *)
  Theorem netlife_rest h st tr b s t : lawful neq none l_new h -> Forall quiet_op h ->
    l_run l_new h = (st, tr, b) -> n_run neq none [] (keeping h) = (s, t) ->
    (forall k, alive st k -> value_of st k = value s k /\ heard k tr = fired k t) /\
    (forall k, closed st k -> ~ derived st k -> value_of st k = value s k /\ heard k tr = fired k t) /\
    (forall k, closed st k -> derived st k -> exists l1 l2, fired k t = l1 ++ l2 /\ heard k tr = l1 ++ [last l1 none]).
  Proof.
    intros La Qu H1 H2. destruct (run_ok neq none h l_new linv_new) as (st' & t' & E & I). rewrite H1 in E. injection E as <- <- ->.
    pose proof (sim_run neq none h l_new [] [] [] st tr s t (qrel_new none) La Qu H1 H2) as Q. cbn [app] in Q.
    assert (K : forall k, keptS st k = true -> value_of st k = value s k /\ heard k tr = fired k t).
    { intros k Hk. split; [|now apply (q_heard _ _ _ _ _ Q)]. unfold value_of, value. now rewrite (q_node _ _ _ _ _ Q k Hk). }
    assert (KV : forall k lf, nth_error (q_life st) k = Some lf -> keptS st k = true \/ (l_active lf = false /\ derived st k /\ keptS st k = false)).
    { intros k lf El. unfold keptS, kept, act, isval, derived. rewrite El, nth_error_map. destruct (both' st (i_len _ _ _ I) k lf El) as [nd En]. rewrite En. cbn.
      destruct (l_active lf); [auto|]. destruct (n_def nd) eqn:Ed; [auto| |]; right; split; [|split|split|split]; auto; exists nd; split; congruence. }
    split; [|split].
    - intros k (lf & El & A). apply K. destruct (KV k lf El) as [B|(B & _)]; [exact B|congruence].
    - intros k (lf & El & A) N. apply K. destruct (KV k lf El) as [B|(_ & B & _)]; [exact B|contradiction].
    - intros k (lf & El & A) (nd & En & Nd). apply (q_gone _ _ _ _ _ Q).
      + rewrite <- (map_length n_def s), (q_def _ _ _ _ _ Q), map_length. eapply nth_lt; eauto.
      + unfold keptS, kept, act, isval. unfold life_of in El. rewrite El, A, nth_error_map, En. cbn. destruct (n_def nd); [congruence|reflexivity|reflexivity].
  Qed.

  (** So the streams not deleted hold the right values: their functions of what their inputs hold, down to the ValueStreams. *)
  Theorem netlife_consistent (neq_eq : forall a c : V, neq a c = false -> a = c) h st tr b k v : lawful neq none l_new h -> Forall quiet_op h ->
    l_run l_new h = (st, tr, b) -> alive st k -> value_of st k = Some v -> means (q_net st) k v.
  Proof.
    intros La Qu H1 Ak Hv. destruct (run_ok neq none h l_new linv_new) as (st' & t' & E & I). rewrite H1 in E. injection E as <- <- ->.
    destruct (n_run neq none [] (keeping h)) as [s t] eqn:H2.
    pose proof (sim_run neq none h l_new [] [] [] st tr s t (qrel_new none) La Qu H1 H2) as Q. cbn [app] in Q.
    pose proof (inv_run neq none neq_eq (keeping h) [] inv_new) as IV. rewrite H2 in IV. cbn [fst] in IV.
    assert (Kp : forall j, alive st j -> nth_error s j = nth_error (q_net st) j).
    { intros j (lf & El & A). apply (q_node _ _ _ _ _ Q). unfold keptS, kept, act. unfold life_of in El. now rewrite El, A. }
    assert (Sf : safe_to s k).
    { intros j nd _ Hj. destruct (nth_defs (s' := q_net st) j nd (q_def _ _ _ _ _ Q) Hj) as (n0 & H0 & D0). rewrite <- D0. eapply (q_tot _ _ _ _ _ Q); eauto. }
    assert (Vs : value s k = Some v) by (unfold value; rewrite (Kp k Ak); exact Hv).
    pose proof (consistent s IV (S k) k v (le_n _) Sf Vs) as M. clear Vs Hv Sf.
    assert (In_alive : forall j p nd, alive st j -> nth_error (q_net st) j = Some nd -> In p (ins_of nd) -> alive st p).
    { intros j p nd (lf & El & A) En HI. unfold life_of in El. pose proof (i_ok _ _ _ I j nd lf En El) as O. pose proof (k_wf _ _ _ _ _ _ O p HI).
      destruct (nth_error (q_life st) p) as [lp|] eqn:Ep; [|apply nth_error_None in Ep; apply nth_lt in El; lia].
      exists lp. split; [exact Ep|]. eapply holder_alive; eauto. rewrite (k_act _ _ _ _ _ _ O A). exact HI. }
    assert (G : forall n j w, j < n -> alive st j -> means s j w -> means (q_net st) j w).
    { induction n as [|n IH]; intros j w Lj Aj Mj; [lia|]. inversion Mj; subst.
      - rewrite (Kp j Aj) in H. econstructor; eauto.
      - rewrite (Kp j Aj) in H. assert (Ai : alive st i) by (eapply In_alive; eauto; now left). eapply means_map; eauto. apply IH; auto.
        destruct Aj as (lf & El & A). pose proof (k_wf _ _ _ _ _ _ (i_ok _ _ _ I j _ lf H El) i (or_introl eq_refl)). lia.
      - rewrite (Kp j Aj) in H. eapply means_comb; eauto.
        assert (X : forall p, In p l -> alive st p /\ p < n).
        { intros p HI. split; [eapply In_alive; eauto|]. destruct Aj as (lf & El & A). pose proof (k_wf _ _ _ _ _ _ (i_ok _ _ _ I j _ lf H El) p HI). lia. }
        clear - IH X H0. induction H0; constructor; auto.
        + apply IH; try apply X; auto; now left.
        + apply IHmeans_all. intros p HI. apply X. now right. }
    eapply G; eauto.
  Qed.

  (** FINDING: the inputs of a stream whose constructor raised are never deleted. *)
  Theorem netlife_lost_keeps st j lf nd i : reached st -> life_of st j = Some lf -> l_lost lf = true ->
    nth_error (q_net st) j = Some nd -> In i (inputs_of (n_def nd)) ->
    forall h st' t b, l_run st h = (st', t, b) -> alive st' i.
  Proof.
    intros R El Lo En HI h. revert st lf nd R El Lo En HI. induction h as [|o h IH]; intros st lf nd R El Lo En HI st' t b E.
    - cbn in E. injection E as <- <- <-. apply (netlife_wanted st i R). apply (wanted_input st j i).
      + apply (wanted_fresh st j lf); [exact El|]. apply (k_lost _ _ _ _ _ _ (i_ok _ _ _ (reached_inv st R) j nd lf En El) Lo).
      + rewrite inputs_ins, En. exact HI.
    - cbn [NetLife_Model.l_run] in E. pose proof (reached_inv st R) as I. destruct (step_ok neq none st o I) as (s2 & t2 & E2 & I2). rewrite E2 in E.
      destruct (l_run s2 h) as [[s3 t3] b3] eqn:E3. injection E as <- <- <-.
      destruct (step_effect st o s2 t2 true j nd lf I E2 En El) as (nd' & lf' & En' & El' & D' & L' & _).
      eapply (IH s2 lf' nd'); eauto; try congruence. eapply (reached_more st [o]); eauto. cbn. rewrite E2. reflexivity.
  Qed.
End NetLifeProps.

(** ** Examples; values are numbers, None is 0 *)
Definition nl_ne (a b : nat) : bool := negb (a =? b).
Definition nl_inc : nat -> res nat := fun v => Ok (v + 1).
Definition nl_sum : list nat -> res nat := fun vs => Ok (list_sum vs).
Definition nl_bad : nat -> res nat := fun _ => Err (ValueError).
(** stream 0 holds a value, stream 1 one more, stream 2 one more than stream 1, stream 3 the sum of 0, 1 and 1; in the end the clients
    keep a reference to stream 3 only *)
Definition nl_hist : list (lop nat) :=
  [LDo (MakeVal 5); LAdd 0; LDo (MakeMap 0 nl_inc); LAdd 1; LDo (MakeMap 1 nl_inc); LAdd 2;
   LDo (MakeComb [0; 1; 1] nl_sum); LAdd 3; LDrop 0; LDrop 1; LDrop 2].
Example netlife_ex_counts :
  let '(st, t, b) := l_run nl_ne 0 l_new nl_hist in
  (map l_count (q_life st), map l_active (q_life st), map n_val (q_net st), b) = ([2; 2; 0; 1], [true; true; false; true], [5; 6; 0; 17], true).
Proof. vm_compute. reflexivity. Qed.
(** the last reference given up: 3 is closed, then 1, then 0; 2 was closed before *)
Example netlife_ex_release :
  let st := fst (fst (l_run nl_ne 0 l_new nl_hist)) in
  let '(st', t, b) := l_step nl_ne 0 st (LDrop 3) in
  (t, map l_active (q_life st')) = ([EClose 3; EFire 3 17; EClose 1; EFire 1 6; EClose 0], [false; false; false; false]).
Proof. vm_compute. reflexivity. Qed.
Example netlife_ex_rest :
  let '(st, t, b) := l_run nl_ne 0 l_new (nl_hist ++ [LDo (SetVal 0 7)]) in
  let '(s, u) := n_run nl_ne 0 [] (keeping (nl_hist ++ [LDo (SetVal 0 7)])) in
  (map n_val (q_net st), map n_val s, heard 2 t, fired 2 u, heard 3 t, fired 3 u)
  = ([7; 8; 0; 23], [7; 8; 9; 23], [7; 7], [7; 9], [17; 19; 21; 23], [17; 19; 21; 23]).
Proof. vm_compute. reflexivity. Qed.
Example netlife_ex_after :
  let '(st, t, b) := l_run nl_ne 0 l_new (nl_hist ++ [LDo (SetVal 0 7)]) in
  closings 2 t = 1 /\ closings 3 t = 0 /\ value_of st 2 = Some 0.
Proof. vm_compute. auto. Qed.

(** FINDING: A stream made of another by a function that raises is not there, yet the other is never deleted: its count never falls to
    0 again. *)
Theorem netlife_leak_refuted :
  ~ (forall (h : list (lop nat)) st t b, l_run nl_ne 0 l_new h = (st, t, b) ->
     (forall k lf, life_of st k = Some lf -> l_lost lf = false -> l_ext lf = 0 /\ l_used lf = true) ->
     forall k lf, life_of st k = Some lf -> l_lost lf = false -> closed st k).
Proof.
  intros H. set (h := [LDo (MakeVal 5); LAdd 0; LDo (MakeMap 0 nl_bad); LDrop 0]).
  destruct (l_run nl_ne 0 l_new h) as [[st t] b] eqn:E. specialize (H h st t b E). vm_compute in E. injection E as <- <- <-.
  destruct (H) with (k := 0) (lf := Life 1 true 0 true false 0 0) as (lf & El & A); try reflexivity.
  - intros [|[|[|k]]] lf El Lo; cbn in El; try discriminate; injection El as <-; try discriminate. auto.
  - cbn in El. injection El as <-. discriminate.
Qed.

(** FINDING: until the garbage collector finds it, such a stream still listens, and what its function raises keeps streams made later
    from being updated. *)
Theorem netlife_zombie_refuted :
  exists (h : list (lop nat)) st t b, l_run nl_ne 0 l_new h = (st, t, b) /\
    (exists f, nth_error (q_net st) 2 = Some (Node (DMap 0 f) 6 []) /\ f 7 = Ok 8) /\ value_of st 0 = Some 7 /\
    value_of (fst (fst (l_run nl_ne 0 st [LCollect 1; LDo (SetVal 0 9)]))) 2 = Some 10.
Proof.
  exists [LDo (MakeVal 5); LDo (MakeMap 0 nl_bad); LDo (MakeMap 0 nl_inc); LDo (SetVal 0 7)].
  eexists _, _, _. split; [vm_compute; reflexivity|]. split; [exists nl_inc; split; reflexivity|]. split; reflexivity.
Qed.

Print Assumptions netlife_counts.
Print Assumptions netlife_wanted.
Print Assumptions netlife_all_released.
Print Assumptions netlife_release.
Print Assumptions netlife_once.
Print Assumptions netlife_after.
Print Assumptions netlife_rest.
Print Assumptions netlife_consistent.
Print Assumptions netlife_lost_keeps.
Print Assumptions netlife_leak_refuted.
Print Assumptions netlife_zombie_refuted.
