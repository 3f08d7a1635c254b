From Coq Require Import List Arith Bool Lia.
From Verif Require Import PyBase Net_Model Net_Spec Net_Proofs NetLife_Model NetLife_Spec NetLife_Proofs NetLife_Proofs2.
Import ListNotations.

Section NetLifeProofs3.
  Context {V : Type}.
  Variable neq : V -> V -> bool.
  Variable none : V.
  Local Notation net := (net V).
  Local Notation lst := (lst V).
  Local Notation node := (node V).
  Local Notation fire_l := (fire_l neq).
  Local Notation l_step := (l_step neq none).
  Local Notation l_run := (l_run neq none).
  Local Notation fell := (fell none).

  Lemma linv_defs C pend (s s' : net) ls : map n_def s' = map n_def s -> linv C pend (Ls s ls) -> linv C pend (Ls s' ls).
  Proof.
    intros D [L I]. cbn in *. constructor; cbn.
    - rewrite L. rewrite <- (map_length n_def s), <- D. apply map_length.
    - intros k nd lf En El. assert (E : nth_error (map n_def s') k = nth_error (map n_def s) k) by now rewrite D.
      rewrite !nth_error_map, En in E. cbn in E. destruct (nth_error s k) as [n0|] eqn:En0; [|discriminate]. cbn in E. injection E as E.
      assert (EI : ins_of nd = ins_of n0) by (unfold ins_of; now rewrite E).
      destruct (I k n0 lf En0 El) as [O1 O2 O3 O4 O5 O6 O7 O8 O9 O10]. cbn in *.
      constructor; cbn; rewrite ?EI; auto. rewrite (held_defs k s' s ls D). exact O2.
  Qed.

  (** ** firing *)
  Definition quiet (ls : list life) (s : net) (k : nat) : Prop := forall i q, ~ In (k, q) (filter (listens ls) (subs s i)).
  Lemma quiet_defs ls (s s' : net) k : map n_def s' = map n_def s -> quiet ls s k -> quiet ls s' k.
  Proof. intros D Q i q. rewrite (subs_defs s' s i D). apply Q. Qed.

  Definition calm (k : nat) (s s1 : net) (t1 : list (nat * V)) : Prop :=
    map n_def s1 = map n_def s /\ nth_error s1 k = nth_error s k /\ forall w, ~ In (k, w) t1.
  Lemma fire_l_quiet ls k : forall fuel s i v, quiet ls s k ->
    map n_def (fst (fire_l ls fuel s i v)) = map n_def s /\
    nth_error (fst (fire_l ls fuel s i v)) k = nth_error s k /\
    forall w, In (k, w) (snd (fire_l ls fuel s i v)) -> k = i.
  Proof.
    induction fuel as [|fuel IH]; intros s i v Q; cbn; [repeat split; auto; intros w []|].
    assert (HH : forall l s1, quiet ls s1 k -> (forall j q, In (j, q) l -> j <> k) ->
      calm k s1 (fst (calls (handle_with neq (fire_l ls fuel) v) l s1)) (snd (calls (handle_with neq (fire_l ls fuel) v) l s1))).
    { induction l as [|[j q] l IHl]; intros s1 Q1 HL; cbn [calls]; [repeat split; auto|].
      assert (Nj : j <> k) by (apply (HL j q); now left).
      assert (H1 : calm k s1 (fst (fst (handle_with neq (fire_l ls fuel) v s1 j q))) (snd (fst (handle_with neq (fire_l ls fuel) v s1 j q)))).
      { unfold handle_with. destruct (nth_error s1 j) as [[d x ins]|] eqn:Ej; [|repeat split; auto]. cbn [n_def n_val n_ins].
        assert (G : forall w ins', let r := fire_l ls fuel (put j (Node d w ins') s1) j w in calm k s1 (fst r) (snd r)).
        { intros w ins'. cbn zeta. assert (D : map n_def (put j (Node d w ins') s1) = map n_def s1) by (eapply put_map; eauto).
          destruct (IH (put j (Node d w ins') s1) j w (quiet_defs _ _ _ _ D Q1)) as (A1 & A2 & A3). split; [congruence|]. split.
          - rewrite A2. apply put_other. congruence.
          - intros w' HI. apply Nj. symmetry. eapply A3; eauto. }
        destruct d as [|p f|lp f]; [repeat split; auto| |].
        - destruct (f v) as [w|e]; [|repeat split; auto]. destruct (neq w x); [|repeat split; auto].
          specialize (G w ins). cbn zeta in G. destruct (fire_l ls fuel _ j w) as [s2 t2]. exact G.
        - destruct (f (put q v ins)) as [w|e].
          + specialize (G w (put q v ins)). cbn zeta in G. destruct (fire_l ls fuel _ j w) as [s2 t2]. exact G.
          + cbn. split; [eapply put_map; eauto|]. split; [apply put_other; congruence|]. intros w []. }
      destruct (handle_with neq (fire_l ls fuel) v s1 j q) as [[s2 t2] [e|]]; cbn [fst snd] in *; [exact H1|].
      destruct H1 as (A1 & A2 & A3). specialize (IHl s2 (quiet_defs _ _ _ _ A1 Q1) (fun j' q' HI => HL j' q' (or_intror HI))).
      destruct (calls (handle_with neq (fire_l ls fuel) v) l s2) as [s3 t3]. cbn [fst snd] in *.
      destruct IHl as (B1 & B2 & B3). split; [congruence|]. split; [congruence|]. intros w HI. apply in_app_iff in HI.
      destruct HI; [eapply A3|eapply B3]; eauto. }
    specialize (HH (filter (listens ls) (subs s i)) s Q). destruct (calls _ _ s) as [s1 t1]. cbn [fst snd] in *.
    destruct HH as (A1 & A2 & A3).
    - intros j q HI ->. exact (Q i q HI).
    - repeat split; auto. intros w [E|HI]; [congruence|]. exfalso. eapply A3; eauto.
  Qed.
  Lemma fire_l_defs ls fuel s i v : map n_def (fst (fire_l ls fuel s i v)) = map n_def s.
  Proof.
    apply (fire_l_quiet ls (length s)). intros i' q HI. apply filter_In in HI. destruct HI as [HI _]. apply subs_in in HI.
    destruct HI as (nd & E & _). apply nth_lt in E. lia.
  Qed.

  (** a closed stream no longer listens *)
  Lemma closed_quiet (st : lst) k lf : linv [] None st -> nth_error (q_life st) k = Some lf -> l_active lf = false ->
    quiet (q_life st) (q_net st) k.
  Proof.
    intros I El A i q HI. destruct (listens_holds neq none [] None st i k q I HI) as (nd & lf' & En & El' & HS).
    rewrite El in El'. injection El' as <-. rewrite (k_rel _ _ _ _ _ _ (i_ok _ _ _ I k nd lf En El) A (fun x => x)) in HS.
    rewrite skipn_all in HS. destruct HS.
  Qed.

  (** ** making streams *)
  Definition adds (l : list nat) (st : lst) : lst := fold_left (fun st i => set_life i add_ref st) l st.
  Lemma adds_net l : forall st, q_net (adds l st) = q_net st.
  Proof.
    unfold adds. induction l as [|i l IH]; intros st; cbn; [reflexivity|]. rewrite IH. unfold set_life.
    destruct (nth_error (q_life st) i); reflexivity.
  Qed.
  Lemma adds_life l : forall st k lf, nth_error (q_life st) k = Some lf -> exists lf', nth_error (q_life (adds l st)) k = Some lf' /\
    l_count lf' = l_count lf + occ l k /\ l_active lf' = l_active lf /\ l_ext lf' = l_ext lf /\
    l_used lf' = (l_used lf || (0 <? occ l k)) /\ l_lost lf' = l_lost lf /\ l_gone lf' = l_gone lf /\ l_rel lf' = l_rel lf.
  Proof.
    unfold adds. induction l as [|i l IH]; intros st k lf E; cbn [fold_left].
    - exists lf. unfold occ. cbn. rewrite orb_false_r. repeat split; auto.
    - destruct (Nat.eq_dec i k) as [->|N].
      + rewrite (set_life_eq k add_ref st lf E). destruct (IH (Ls (q_net st) (put k (add_ref lf) (q_life st))) k (add_ref lf)) as (lf' & E' & A).
        { cbn. apply put_same. eapply nth_lt; eauto. }
        exists lf'. split; [exact E'|]. unfold occ in *. rewrite count_occ_cons_eq by reflexivity. cbn [add_ref l_count l_active l_ext l_used l_lost l_gone l_rel orb] in A.
        destruct A as (a1 & a2 & a3 & a4 & a5 & a6 & a7). cbn [Nat.ltb Nat.leb]. rewrite orb_true_r. repeat split; auto. lia.
      + assert (E2 : nth_error (q_life (set_life i add_ref st)) k = Some lf).
        { unfold set_life. destruct (nth_error (q_life st) i) as [fi|]; [|exact E]. cbn. rewrite put_other by congruence. exact E. }
        destruct (IH _ k lf E2) as (lf' & E' & A). exists lf'. unfold occ in *. rewrite count_occ_cons_neq by assumption. auto.
  Qed.
  Lemma adds_len l : forall st, length (q_life (adds l st)) = length (q_life st).
  Proof.
    unfold adds. induction l as [|i l IH]; intros st; cbn; [reflexivity|]. rewrite IH. unfold set_life.
    destruct (nth_error (q_life st) i); cbn; [apply put_length|reflexivity].
  Qed.
  Lemma adds_rel l : forall st, map l_rel (q_life (adds l st)) = map l_rel (q_life st).
  Proof.
    unfold adds. induction l as [|i l IH]; intros st; cbn; [reflexivity|]. rewrite IH. unfold set_life.
    destruct (nth_error (q_life st) i) eqn:E; cbn; [|reflexivity]. eapply put_map; eauto.
  Qed.
  Lemma grow_eq nd lost (st : lst) : grow nd lost st = Ls (q_net st ++ [nd]) (q_life (adds (ins_of nd) st) ++ [life_new lost]).
  Proof. unfold grow. fold (ins_of nd). fold (adds (ins_of nd) st). now rewrite adds_net. Qed.

  Lemma occ_in l k : 0 < occ l k <-> In k l.
  Proof. unfold occ. rewrite (count_occ_In Nat.eq_dec). lia. Qed.
  Lemma linv_grow nd lost (st : lst) : linv [] None st -> (forall p, In p (ins_of nd) -> usable st p = true) ->
    linv [] None (grow nd lost st).
  Proof.
    intros [L I] U. rewrite grow_eq.
    assert (UL : forall p, In p (ins_of nd) -> p < length (q_net st)).
    { intros p HI. specialize (U p HI). unfold usable in U. destruct (nth_error (q_life st) p) as [f|] eqn:E; [|discriminate]. apply nth_lt in E. lia. }
    constructor; cbn [q_net q_life].
    - rewrite !app_length, adds_len, L. reflexivity.
    - intros k n lf En El. apply nth_snoc in En. apply nth_snoc in El. rewrite adds_len in El.
      assert (HH : held k (q_net st ++ [nd]) (q_life (adds (ins_of nd) st) ++ [life_new lost]) = held k (q_net st) (q_life st) + occ (ins_of nd) k).
      { rewrite held_snoc by (rewrite adds_len; exact L). f_equal. apply held_rel, adds_rel. }
      destruct En as [[Hk En]|[-> ->]]; destruct El as [[Hk' El]|[Hk' ->]]; try lia.
      + destruct (nth_error (q_life st) k) as [l0|] eqn:E0; [|apply nth_error_None in E0; lia].
        destruct (adds_life (ins_of nd) st k l0 E0) as (lf' & E' & a1 & a2 & a3 & a4 & a5 & a6 & a7).
        rewrite El in E'. injection E' as <-. destruct (I k n l0 En E0) as [O1 O2 O3 O4 O5 O6 O7 O8 O9 O10].
        assert (Z : (l_active l0 = false \/ l_lost l0 = true) -> occ (ins_of nd) k = 0).
        { intros H. destruct (occ (ins_of nd) k) as [|m] eqn:Eo; [reflexivity|]. assert (HI : In k (ins_of nd)) by (apply occ_in; lia).
          specialize (U k HI). unfold usable in U. rewrite E0 in U. apply andb_prop in U. destruct U as [U1 U2]. apply negb_true_iff in U2.
          destruct H; congruence. }
        constructor; cbn [q_net q_life]; rewrite ?a2, ?a3, ?a5, ?a6, ?a7; auto.
        * cbn [pends] in *. rewrite a1, O2, HH. lia.
        * intros A. rewrite a1, (O3 A), (Z (or_introl A)). reflexivity.
        * intros A. destruct (O7 A) as (b1 & b2 & b3). repeat split; auto. rewrite a4, b2, (Z (or_intror A)). reflexivity.
        * rewrite a4. intros A. apply orb_false_elim in A. destruct A as [A1 A2]. apply Nat.ltb_ge in A2. rewrite a1, (O8 A1). lia.
        * rewrite a4, a1. intros A B. apply orb_prop in B. destruct B as [B|B]; [specialize (O9 A B); lia|]. apply Nat.ltb_lt in B. lia.
        * intros A. rewrite a4, (O10 A). reflexivity.
      + assert (Z : occ (ins_of nd) (length (q_net st)) = 0).
        { destruct (occ (ins_of nd) (length (q_net st))) eqn:Eo; [reflexivity|].
          assert (HI : In (length (q_net st)) (ins_of nd)) by (apply occ_in; lia). specialize (UL _ HI). lia. }
        assert (Z2 : held (length (q_net st)) (q_net st) (q_life st) = 0).
        { destruct (held (length (q_net st)) (q_net st) (q_life st)) eqn:Eo; [reflexivity|].
          destruct (held_pos (length (q_net st)) (q_net st) (q_life st)) as (j & nj & lj & E1 & E2 & E3); [lia|].
          assert (HI : In (length (q_net st)) (ins_of nj)) by (rewrite <- (firstn_skipn (l_rel lj)); apply in_app_iff; auto).
          pose proof (k_wf _ _ _ _ _ _ (I j nj lj E1 E2) _ HI). apply nth_lt in E1. lia. }
        constructor; cbn [q_net q_life life_new l_count l_active l_ext l_used l_lost l_gone l_rel pends]; auto; try discriminate.
        rewrite HH, Z, Z2. reflexivity.
  Qed.

  (** ** one operation *)
  Definition drop_ext (lf : life) : life := Life (l_count lf) (l_active lf) (pred (l_ext lf)) (l_used lf) (l_lost lf) (l_gone lf) (l_rel lf).
  Lemma drop_step (st : lst) k lf : linv [] None st -> nth_error (q_life st) k = Some lf -> 0 < l_ext lf ->
    let st0 := Ls (q_net st) (put k (drop_ext lf) (q_life st)) in
    exists st' ks, l_step st (LDrop k) = (st', flat_map (closing st) ks, true) /\ linv [] None st' /\ fell None st0 st' ks /\
      forall j, In j ks -> j <= k.
  Proof.
    intros I El Ex st0. destruct (both' st (i_len _ _ _ I) k lf El) as [nd En]. pose proof (i_ok _ _ _ I k nd lf En El) as O.
    assert (I0 : linv [] (Some k) st0).
    { destruct O as [O1 O2 O3 O4 O5 O6 O7 O8 O9 O10]. cbn [pends] in O2.
      apply (linv_life [] [] None (Some k) st k nd lf (drop_ext lf)); auto; cbn [drop_ext l_count l_active l_ext l_used l_lost l_gone l_rel]; auto.
      - intros j N. cbn [pends]. rewrite (proj2 (Nat.eqb_neq k j)) by congruence. reflexivity.
      - cbn [pends]. rewrite Nat.eqb_refl. lia.
      - intros A. destruct (O7 A) as (b1 & _). lia. }
    destruct (drop_all neq none (S k) st0 k [] (le_n _)) as (st' & ks & E & I' & F & B); auto.
    { cbn. eapply nth_lt; eauto. } { intros c []. }
    exists st', ks. split; [|auto]. unfold NetLife_Model.l_step, allowed. rewrite El. rewrite (proj2 (Nat.ltb_lt 0 _) Ex).
    rewrite (set_life_eq k _ st lf El). exact E.
  Qed.

  Lemma step_ok (st : lst) o : linv [] None st -> exists st' t, l_step st o = (st', t, true) /\ linv [] None st'.
  Proof.
    intros I. destruct (allowed st o) eqn:Al.
    2:{ exists st, []. split; [|exact I]. unfold NetLife_Model.l_step. now rewrite Al. }
    destruct o as [[v|i f|l f|i v]|k|k|k].
    - unfold NetLife_Model.l_step. rewrite Al. eexists _, _. split; [reflexivity|]. apply linv_grow; auto.
    - unfold NetLife_Model.l_step. rewrite Al. cbn in Al.
      assert (G : forall x lost, linv [] None (grow (Node (DMap i f) x []) lost st)).
      { intros x lost. apply linv_grow; auto. intros p [<-|[]]. exact Al. }
      destruct (nth_error (q_net st) i) as [nd|]; [|eauto]. destruct (f (n_val nd)) as [w|e]; [|eauto].
      destruct (neq w none); eauto.
    - unfold NetLife_Model.l_step. rewrite Al. cbn in Al. rewrite forallb_forall in Al.
      assert (G : forall x vs lost, linv [] None (grow (Node (DComb l f) x vs) lost st)).
      { intros x vs lost. apply linv_grow; auto. }
      destruct (values_of (q_net st) l) as [vs|]; [|eauto]. destruct (f vs) as [w|e]; eauto.
    - unfold NetLife_Model.l_step. rewrite Al. destruct (nth_error (q_net st) i) as [[[|p f|l f] x ins]|] eqn:E; eauto.
      destruct (neq x v); [|eauto]. pose proof (fire_l_defs (q_life st) (length (q_net st) - i) (put i (Node DVal v ins) (q_net st)) i v) as D.
      destruct (fire_l _ _ _ i v) as [s1 t1]. eexists _, _. split; [reflexivity|]. apply (linv_defs [] None (q_net st)).
      + cbn in D. rewrite D. eapply put_map; eauto.
      + destruct st; exact I.
    - unfold NetLife_Model.l_step. rewrite Al. cbn in Al. unfold usable in Al. destruct (nth_error (q_life st) k) as [lf|] eqn:El; [|discriminate].
      apply andb_prop in Al. destruct Al as [A1 A2]. apply negb_true_iff in A2.
      rewrite (set_life_eq k _ st lf El). eexists _, _. split; [reflexivity|]. destruct (both' st (i_len _ _ _ I) k lf El) as [nd En].
      destruct (i_ok _ _ _ I k nd lf En El) as [O1 O2 O3 O4 O5 O6 O7 O8 O9 O10].
      apply (linv_life [] [] None None st k nd lf); auto; cbn [add_ref l_count l_active l_ext l_used l_lost l_gone l_rel pends] in *; auto; try congruence; lia.
    - unfold allowed in Al. destruct (nth_error (q_life st) k) as [lf|] eqn:El; [|discriminate]. apply Nat.ltb_lt in Al.
      destruct (drop_step st k lf I El Al) as (st' & ks & E & I' & _). eauto.
    - unfold NetLife_Model.l_step. rewrite Al. cbn in Al. destruct (nth_error (q_life st) k) as [lf|] eqn:El; [|discriminate].
      destruct (both' st (i_len _ _ _ I) k lf El) as [nd En]. rewrite En, (set_life_eq k _ st lf El). eexists _, _. split; [reflexivity|].
      destruct (i_ok _ _ _ I k nd lf En El) as [O1 O2 O3 O4 O5 O6 O7 O8 O9 O10].
      apply (linv_life [] [] None None st k nd lf); auto; cbn [unlisten l_count l_active l_ext l_used l_lost l_gone l_rel pends] in *; auto; congruence.
  Qed.
  Lemma linv_new : linv [] None (@l_new V).
  Proof. constructor; [reflexivity|]. intros [|k] nd lf H; discriminate. Qed.
  Lemma run_ok : forall h st, linv [] None st -> exists st' t, l_run st h = (st', t, true) /\ linv [] None st'.
  Proof.
    induction h as [|o h IH]; intros st I; cbn [NetLife_Model.l_run]; [eauto|].
    destruct (step_ok st o I) as (s1 & t1 & E1 & I1). rewrite E1. destruct (IH s1 I1) as (s2 & t2 & E2 & I2). rewrite E2. eauto.
  Qed.

  (** ** who is alive *)
  Lemma uses_held k (st : lst) : linv [] None st -> uses st k = held k (q_net st) (q_life st).
  Proof.
    intros [L I]. unfold uses. cut (forall (s : net) ls j0, length ls = length s ->
      (forall j nd lf, nth_error s j = Some nd -> nth_error ls j = Some lf -> ok1 [] None st (j0 + j) nd lf) -> uses_from k s ls = held k s ls).
    { intros H. apply (H _ _ 0 L). intros. now apply I. }
    induction s as [|nd s IH]; intros [|lf ls] j0 L' H; cbn in *; try discriminate; auto.
    rewrite (IH ls (S j0)); [|congruence|]. 2:{ intros j n f E1 E2. replace (S j0 + j) with (j0 + S j) by lia. now apply H. }
    f_equal. pose proof (H 0 nd lf eq_refl eq_refl) as O. unfold hold1, occ. destruct (l_active lf) eqn:A.
    - now rewrite (k_act _ _ _ _ _ _ O A).
    - rewrite (k_rel _ _ _ _ _ _ O A (fun x => x)), skipn_all. reflexivity.
  Qed.
  Lemma alive_wanted (st : lst) : linv [] None st -> forall k, alive st k <-> wanted st k.
  Proof.
    intros I k. split.
    - intros H. assert (Hn : exists n, length (q_net st) - k <= n) by eauto. destruct Hn as [n Hn]. revert k Hn H.
      induction n as [|n IH]; intros k Hn (lf & El & A); unfold life_of in El.
      { apply nth_lt in El. pose proof (i_len _ _ _ I). lia. }
      destruct (both' st (i_len _ _ _ I) k lf El) as [nd En]. destruct (i_ok _ _ _ I k nd lf En El) as [O1 O2 O3 O4 O5 O6 O7 O8 O9 O10].
      destruct (l_used lf) eqn:U; [|now apply (wanted_fresh st k lf)]. specialize (O9 A eq_refl). cbn [pends] in O2.
      destruct (l_ext lf) as [|e] eqn:Ee; [|apply (wanted_client st k lf); [exact El|lia]].
      destruct (held_pos k (q_net st) (q_life st)) as (j & nj & lj & E1 & E2 & E3); [lia|].
      pose proof (i_ok _ _ _ I j nj lj E1 E2) as Oj. destruct (l_active lj) eqn:Aj.
      + assert (HI : In k (ins_of nj)) by (rewrite <- (firstn_skipn (l_rel lj)); apply in_app_iff; auto).
        pose proof (k_wf _ _ _ _ _ _ Oj k HI). apply (wanted_input st j k).
        * apply IH; [apply nth_lt in E1; lia|]. exists lj. auto.
        * rewrite inputs_ins, E1. exact HI.
      + rewrite (k_rel _ _ _ _ _ _ Oj Aj (fun x => x)), skipn_all in E3. destruct E3.
    - induction 1 as [k lf El P|k lf El U|j k W IH HK].
      + exists lf. split; [exact El|]. unfold life_of in El. destruct (both' st (i_len _ _ _ I) k lf El) as [nd En].
        destruct (i_ok _ _ _ I k nd lf En El) as [O1 O2 O3 O4 O5 O6 O7 O8 O9 O10]. destruct (l_active lf); [reflexivity|]. specialize (O3 eq_refl). lia.
      + exists lf. split; [exact El|]. unfold life_of in El. destruct (both' st (i_len _ _ _ I) k lf El) as [nd En].
        destruct (i_ok _ _ _ I k nd lf En El) as [O1 O2 O3 O4 O5 O6 O7 O8 O9 O10]. destruct (l_active lf); [reflexivity|]. specialize (O10 eq_refl). congruence.
      + destruct IH as (lj & El & A). unfold life_of in El. destruct (both' st (i_len _ _ _ I) j lj El) as [nj En].
        pose proof (i_ok _ _ _ I j nj lj En El) as O. rewrite inputs_ins, En in HK. pose proof (k_wf _ _ _ _ _ _ O k HK) as Lt.
        destruct (nth_error (q_life st) k) as [lf|] eqn:Ek; [|apply nth_error_None in Ek; apply nth_lt in El; lia].
        exists lf. split; [exact Ek|]. eapply holder_alive; eauto. rewrite (k_act _ _ _ _ _ _ O A). exact HK.
  Qed.

  (** ** the same history in a network in which nothing is given up *)
  Section Sim.
    Variable ls : list life.
    Variable D : list (ndef V).
    Definition act (k : nat) : bool := match nth_error ls k with Some lf => l_active lf | None => false end.
    Definition isval (k : nat) : bool := match nth_error D k with Some DVal => true | _ => false end.
    Definition kept (k : nat) : bool := act k || isval k.
    Hypothesis total : forall k d, nth_error D k = Some d -> never_raises d.
    (** listening is being alive, and whoever listens has its input alive *)
    Hypothesis listen : forall s i j q, map n_def s = D -> In (j, q) (subs s i) -> listens ls (j, q) = act j.
    Hypothesis below : forall s i j q, map n_def s = D -> In (j, q) (subs s i) -> act j = true -> act i = true.

    Definition alike (s s' : net) : Prop :=
      map n_def s = D /\ map n_def s' = D /\ forall k, kept k = true -> nth_error s k = nth_error s' k.
    Definition keptf (e : nat * V) : bool := kept (fst e).

    Lemma derived_listener s i j q nd : map n_def s = D -> In (j, q) (subs s i) -> nth_error s j = Some nd -> isval j = false.
    Proof.
      intros E H Hj. apply subs_in in H. destruct H as (nd' & Hj' & Hs). rewrite Hj in Hj'. injection Hj' as <-.
      unfold isval. rewrite <- E, nth_error_map, Hj. cbn. destruct (n_def nd); [destruct Hs|reflexivity|reflexivity].
    Qed.
    Lemma total_at s j nd : map n_def s = D -> nth_error s j = Some nd -> never_raises (n_def nd).
    Proof. intros E Hj. apply (total j). rewrite <- E, nth_error_map, Hj. reflexivity. Qed.

    Lemma alike_put2 s s' j nd w ins : alike s s' -> nth_error s j = Some nd -> nth_error s' j = Some nd ->
      alike (put j (Node (n_def nd) w ins) s) (put j (Node (n_def nd) w ins) s').
    Proof.
      intros (E & E' & H) Hj Hj'. split; [|split].
      - rewrite <- E. eapply put_map; eauto.
      - rewrite <- E'. eapply put_map; eauto.
      - intros k Hk. destruct (Nat.eq_dec k j) as [->|N].
        + rewrite !put_same; auto; eapply nth_lt; eauto.
        + rewrite !put_other by assumption. auto.
    Qed.
    Lemma alike_put1 s s' j nd w ins : alike s s' -> nth_error s j = Some nd -> kept j = false ->
      alike (put j (Node (n_def nd) w ins) s) s'.
    Proof.
      intros (E & E' & H) Hj Kj. split; [|split]; [|exact E'|].
      - rewrite <- E. eapply put_map; eauto.
      - intros k Hk. rewrite put_other by congruence. auto.
    Qed.

    (** in the network that keeps everything, what is given up reaches nothing that is kept *)
    Lemma fire_gone : forall fuel s s' i v, alike s s' -> kept i = false ->
      alike (fst (fire neq fuel s i v)) s' /\ filter keptf (snd (fire neq fuel s i v)) = [].
    Proof.
      induction fuel as [|fuel IH]; intros s s' i v R Ki; cbn; [auto|].
      assert (HH : forall l s1, alike s1 s' -> (forall j q, In (j, q) l -> In (j, q) (subs s i)) ->
        alike (fst (calls (handle_with neq (fire neq fuel) v) l s1)) s' /\
        filter keptf (snd (calls (handle_with neq (fire neq fuel) v) l s1)) = []).
      { induction l as [|[j q] l IHl]; intros s1 R1 HL; cbn [calls]; [auto|].
        pose proof (HL j q (or_introl eq_refl)) as HI.
        assert (Aj : act j = false).
        { destruct (act j) eqn:A; [|reflexivity]. pose proof (below s i j q (proj1 R) HI A) as B. unfold kept in Ki. rewrite B in Ki. discriminate. }
        assert (H1 : exists s2 t2, handle_with neq (fire neq fuel) v s1 j q = (s2, t2, None) /\ alike s2 s' /\ filter keptf t2 = []).
        { unfold handle_with. destruct (nth_error s1 j) as [nd|] eqn:Ej; [|eauto].
          assert (HI1 : In (j, q) (subs s1 i)) by (rewrite (subs_defs s1 s i); [exact HI|rewrite (proj1 R1), (proj1 R); reflexivity]).
          pose proof (derived_listener s1 i j q nd (proj1 R1) HI1 Ej) as Vj.
          assert (Kj : kept j = false) by (unfold kept; now rewrite Aj, Vj).
          pose proof (total_at s1 j nd (proj1 R1) Ej) as T.
          assert (G : forall w ins, exists s2 t2, fire neq fuel (put j (Node (n_def nd) w ins) s1) j w = (s2, t2) /\ alike s2 s' /\ filter keptf t2 = []).
          { intros w ins. destruct (IH (put j (Node (n_def nd) w ins) s1) s' j w) as [B1 B2]; auto; [now apply alike_put1|].
            destruct (fire neq fuel _ j w) as [s2 t2]. eauto. }
          destruct (n_def nd) as [|p f|lp f]; [eauto| |].
          - destruct (T v) as [w ->]. destruct (neq w (n_val nd)); [|eauto]. destruct (G w (n_ins nd)) as (s2 & t2 & -> & B1 & B2). eauto.
          - destruct (T (put q v (n_ins nd))) as [w ->]. destruct (G w (put q v (n_ins nd))) as (s2 & t2 & -> & B1 & B2). eauto. }
        destruct H1 as (s2 & t2 & -> & R2 & F2). destruct (IHl s2 R2 (fun j' q' H => HL j' q' (or_intror H))) as [B1 B2].
        destruct (calls (handle_with neq (fire neq fuel) v) l s2) as [s3 t3]. cbn [fst snd] in *. split; [exact B1|].
        rewrite filter_app, F2, B2. reflexivity. }
      specialize (HH (subs s i) s R (fun _ _ H => H)). destruct (calls _ _ s) as [s1 t1]. cbn [fst snd filter keptf] in *.
      unfold keptf at 1. cbn [fst]. now rewrite Ki.
    Qed.

    Lemma fire_sim : forall fuel s s' i v, alike s s' -> exists s1 s1' r,
      fire neq (S fuel) s i v = (s1, (i, v) :: r) /\ fire_l ls (S fuel) s' i v = (s1', (i, v) :: filter keptf r) /\ alike s1 s1'.
    Proof.
      induction fuel as [|fuel IH]; intros s s' i v R.
      all: cbn [fire NetLife_Model.fire_l].
      all: rewrite (subs_defs s' s i) by (rewrite (proj1 R), (proj1 (proj2 R)); reflexivity).
      - assert (HH : forall l s1 s1', alike s1 s1' -> (forall j q, In (j, q) l -> In (j, q) (subs s i)) -> exists s2 s2' r,
          calls (handle_with neq (fire neq 0) v) l s1 = (s2, r) /\
          calls (handle_with neq (fire_l ls 0) v) (filter (listens ls) l) s1' = (s2', filter keptf r) /\ alike s2 s2').
        { induction l as [|[j q] l IHl]; intros s1 s1' R1 HL; [exists s1, s1', []; auto|].
          pose proof (HL j q (or_introl eq_refl)) as HI. cbn [filter]. rewrite (listen s i j q (proj1 R) HI).
          assert (HI1 : In (j, q) (subs s1 i)) by (rewrite (subs_defs s1 s i); [exact HI|rewrite (proj1 R1), (proj1 R); reflexivity]).
          assert (X : exists s2, handle_with neq (fire neq 0) v s1 j q = (s2, [], None) /\
            if act j then exists s2', handle_with neq (fire_l ls 0) v s1' j q = (s2', [], None) /\ alike s2 s2' else alike s2 s1').
          { unfold handle_with. destruct (nth_error s1 j) as [nd|] eqn:Ej.
            2:{ exists s1. split; [reflexivity|]. apply subs_in in HI1. destruct HI1 as (nd & E & _). congruence. }
            pose proof (total_at s1 j nd (proj1 R1) Ej) as T.
            pose proof (derived_listener s1 i j q nd (proj1 R1) HI1 Ej) as Vj.
            destruct (act j) eqn:Aj.
            - assert (Ej' : nth_error s1' j = Some nd) by (rewrite <- (proj2 (proj2 R1)); [exact Ej|unfold kept; now rewrite Aj]).
              rewrite Ej'. destruct (n_def nd) as [|p f|lp f] eqn:Ed; [eauto| |].
              + destruct (T v) as [w ->]. destruct (neq w (n_val nd)); [|eauto]. cbn [fire NetLife_Model.fire_l]. eexists. split; [reflexivity|].
                eexists. split; [reflexivity|]. rewrite <- Ed. now apply alike_put2.
              + destruct (T (put q v (n_ins nd))) as [w ->]. cbn [fire NetLife_Model.fire_l]. eexists. split; [reflexivity|].
                eexists. split; [reflexivity|]. rewrite <- Ed. now apply alike_put2.
            - assert (Kj : kept j = false) by (unfold kept; now rewrite Aj, Vj).
              destruct (n_def nd) as [|p f|lp f] eqn:Ed; [eauto| |].
              + destruct (T v) as [w ->]. destruct (neq w (n_val nd)); [|eauto]. cbn [fire]. eexists. split; [reflexivity|].
                rewrite <- Ed. now apply alike_put1.
              + destruct (T (put q v (n_ins nd))) as [w ->]. cbn [fire]. eexists. split; [reflexivity|].
                rewrite <- Ed. now apply alike_put1. }
          cbn [calls]. destruct X as (s2 & -> & X). destruct (act j).
          - destruct X as (s2' & E' & R2). destruct (IHl s2 s2' R2 (fun j' q' H => HL j' q' (or_intror H))) as (s3 & s3' & r & E1 & E2 & R3).
            rewrite E1. cbn [calls]. rewrite E', E2. exists s3, s3', r. auto.
          - destruct (IHl s2 s1' X (fun j' q' H => HL j' q' (or_intror H))) as (s3 & s3' & r & E1 & E2 & R3).
            rewrite E1, E2. exists s3, s3', r. auto. }
        destruct (HH (subs s i) s s' R (fun _ _ H => H)) as (s1 & s1' & r & E1 & E2 & R1). cbn [fire NetLife_Model.fire_l] in E1, E2. rewrite E1, E2.
        exists s1, s1', r. auto.
      - assert (HH : forall l s1 s1', alike s1 s1' -> (forall j q, In (j, q) l -> In (j, q) (subs s i)) -> exists s2 s2' r,
          calls (handle_with neq (fire neq (S fuel)) v) l s1 = (s2, r) /\
          calls (handle_with neq (fire_l ls (S fuel)) v) (filter (listens ls) l) s1' = (s2', filter keptf r) /\ alike s2 s2').
        { induction l as [|[j q] l IHl]; intros s1 s1' R1 HL; [exists s1, s1', []; auto|].
          pose proof (HL j q (or_introl eq_refl)) as HI. cbn [filter]. rewrite (listen s i j q (proj1 R) HI).
          assert (HI1 : In (j, q) (subs s1 i)) by (rewrite (subs_defs s1 s i); [exact HI|rewrite (proj1 R1), (proj1 R); reflexivity]).
          assert (X : exists s2 t2, handle_with neq (fire neq (S fuel)) v s1 j q = (s2, t2, None) /\
            if act j then exists s2', handle_with neq (fire_l ls (S fuel)) v s1' j q = (s2', filter keptf t2, None) /\ alike s2 s2'
            else alike s2 s1' /\ filter keptf t2 = []).
          { unfold handle_with. destruct (nth_error s1 j) as [nd|] eqn:Ej.
            2:{ apply subs_in in HI1. destruct HI1 as (nd & E & _). congruence. }
            pose proof (total_at s1 j nd (proj1 R1) Ej) as T.
            pose proof (derived_listener s1 i j q nd (proj1 R1) HI1 Ej) as Vj.
            destruct (act j) eqn:Aj.
            - assert (Kj : kept j = true) by (unfold kept; now rewrite Aj).
              assert (Ej' : nth_error s1' j = Some nd) by (rewrite <- (proj2 (proj2 R1)); [exact Ej|exact Kj]).
              assert (G : forall w ins, exists s2 t2 s2', fire neq (S fuel) (put j (Node (n_def nd) w ins) s1) j w = (s2, t2) /\
                fire_l ls (S fuel) (put j (Node (n_def nd) w ins) s1') j w = (s2', filter keptf t2) /\ alike s2 s2').
              { intros w ins. destruct (IH (put j (Node (n_def nd) w ins) s1) (put j (Node (n_def nd) w ins) s1') j w) as (s2 & s2' & r & F1 & F2 & R2);
                  [now apply alike_put2|]. exists s2, ((j, w) :: r), s2'. cbn [filter]. unfold keptf at 1. cbn [fst]. rewrite Kj. auto. }
              rewrite Ej'. destruct (n_def nd) as [|p f|lp f] eqn:Ed; [exists s1, []; split; [reflexivity|]; exists s1'; auto| |].
              + destruct (T v) as [w ->]. destruct (neq w (n_val nd)).
                * destruct (G w (n_ins nd)) as (s2 & t2 & s2' & -> & -> & R2). eauto 6.
                * exists s1, []. split; [reflexivity|]. exists s1'. auto.
              + destruct (T (put q v (n_ins nd))) as [w ->].
                destruct (G w (put q v (n_ins nd))) as (s2 & t2 & s2' & -> & -> & R2). eauto 6.
            - assert (Kj : kept j = false) by (unfold kept; now rewrite Aj, Vj).
              assert (G : forall w ins, exists s2 t2, fire neq (S fuel) (put j (Node (n_def nd) w ins) s1) j w = (s2, t2) /\ alike s2 s1' /\ filter keptf t2 = []).
              { intros w ins. destruct (fire_gone (S fuel) (put j (Node (n_def nd) w ins) s1) s1' j w) as [B1 B2]; auto; [now apply alike_put1|].
                destruct (fire neq (S fuel) _ j w) as [s2 t2]. eauto. }
              destruct (n_def nd) as [|p f|lp f] eqn:Ed; [eauto| |].
              + destruct (T v) as [w ->]. destruct (neq w (n_val nd)); [|eauto].
                destruct (G w (n_ins nd)) as (s2 & t2 & -> & B1 & B2). eauto.
              + destruct (T (put q v (n_ins nd))) as [w ->].
                destruct (G w (put q v (n_ins nd))) as (s2 & t2 & -> & B1 & B2). eauto. }
          cbn [calls]. destruct X as (s2 & t2 & -> & X). destruct (act j).
          - destruct X as (s2' & E' & R2). destruct (IHl s2 s2' R2 (fun j' q' H => HL j' q' (or_intror H))) as (s3 & s3' & r & E1 & E2 & R3).
            rewrite E1. cbn [calls]. rewrite E', E2. exists s3, s3', (t2 ++ r). rewrite filter_app. auto.
          - destruct X as [X X0]. destruct (IHl s2 s1' X (fun j' q' H => HL j' q' (or_intror H))) as (s3 & s3' & r & E1 & E2 & R3).
            rewrite E1, E2. exists s3, s3', (t2 ++ r). rewrite filter_app, X0. auto. }
        destruct (HH (subs s i) s s' R (fun _ _ H => H)) as (s1 & s1' & r & E1 & E2 & R1).
        cbn [fire NetLife_Model.fire_l] in E1, E2. rewrite E1, E2. exists s1, s1', r. auto.
    Qed.
  End Sim.

  Lemma heard_app k (t1 t2 : list (lev V)) : heard k (t1 ++ t2) = heard k t1 ++ heard k t2.
  Proof. induction t1 as [|[j|j v] t1 IH]; cbn; auto. destruct (j =? k); cbn; congruence. Qed.
  Lemma heard_fires k (t : list (nat * V)) : heard k (fires t) = fired k t.
  Proof. unfold fires, fired. induction t as [|[j v] t IH]; [reflexivity|]. cbn [map filter heard fst snd]. rewrite IH. destruct (j =? k); reflexivity. Qed.
  Lemma fired_filter k (g : nat * V -> bool) : (forall v, g (k, v) = true) -> forall t, fired k (filter g t) = fired k t.
  Proof.
    intros H. induction t as [|[j v] t IH]; [reflexivity|]. unfold fired in *. cbn. destruct (Nat.eqb_spec j k) as [->|N].
    - rewrite H. cbn. rewrite Nat.eqb_refl. cbn. congruence.
    - destruct (g (j, v)); [|exact IH]. cbn. rewrite (proj2 (Nat.eqb_neq j k) N). exact IH.
  Qed.
  Lemma fired_filter_none k (g : nat * V -> bool) : (forall v, g (k, v) = false) -> forall t, fired k (filter g t) = [].
  Proof.
    intros H. induction t as [|[j v] t IH]; [reflexivity|]. unfold fired in *. cbn.
    destruct (g (j, v)) eqn:G; [|exact IH]. cbn. destruct (Nat.eqb_spec j k) as [->|N]; [rewrite H in G; discriminate|exact IH].
  Qed.
  Lemma fired_pairs k n : forall l : list V, fired k (map (pair n) l) = if n =? k then l else [].
  Proof. induction l as [|v l IH]; unfold fired in *; cbn; [now destruct (n =? k)|]. destruct (n =? k); cbn; congruence. Qed.
  Lemma heard_pairs k n : forall l : list V, heard k (map (EFire n) l) = if n =? k then l else [].
  Proof. induction l as [|v l IH]; cbn; [now destruct (n =? k)|]. destruct (n =? k); cbn; congruence. Qed.
  Lemma last_last {X} : forall (l : list X) x d, last (l ++ [x]) d = x.
  Proof. induction l as [|y l IH]; intros x d; [reflexivity|]. cbn. destruct (l ++ [x]) eqn:E; [destruct l; discriminate|]. rewrite <- E. apply IH. Qed.

  Lemma fire_defs : forall fuel (s : net) i v, map n_def (fst (fire neq fuel s i v)) = map n_def s.
  Proof.
    induction fuel as [|fuel IH]; intros s i v; cbn; [reflexivity|].
    assert (HH : forall l s1, map n_def (fst (calls (handle_with neq (fire neq fuel) v) l s1)) = map n_def s1).
    { induction l as [|[j q] l IHl]; intros s1; cbn [calls]; [reflexivity|].
      assert (H1 : map n_def (fst (fst (handle_with neq (fire neq fuel) v s1 j q))) = map n_def s1).
      { unfold handle_with. destruct (nth_error s1 j) as [[d y ins]|] eqn:Ej; [|reflexivity]. cbn [n_def n_val n_ins].
        assert (G : forall w ins', map n_def (fst (fire neq fuel (put j (Node d w ins') s1) j w)) = map n_def s1).
        { intros w ins'. rewrite IH. eapply put_map; eauto. }
        destruct d as [|p f|lp f]; [reflexivity| |].
        - destruct (f v) as [w|e0]; [|reflexivity]. destruct (neq w y); [|reflexivity].
          specialize (G w ins). destruct (fire neq fuel _ j w). exact G.
        - destruct (f (put q v ins)) as [w|e0].
          + specialize (G w (put q v ins)). destruct (fire neq fuel _ j w). exact G.
          + cbn. eapply put_map; eauto. }
      destruct (handle_with neq (fire neq fuel) v s1 j q) as [[s2 t2] [e0|]]; cbn [fst] in *; [exact H1|].
      specialize (IHl s2). destruct (calls _ l s2). cbn [fst] in *. congruence. }
    specialize (HH (subs s i) s). destruct (calls _ _ s). exact HH.
  Qed.
  Lemma fire_range : forall fuel (s : net) i v e, i < length s -> In e (snd (fire neq fuel s i v)) -> fst e < length s.
  Proof.
    induction fuel as [|fuel IH]; intros s i v e Li; cbn; [tauto|].
    assert (HH : forall l s1, length s1 = length s -> map n_def s1 = map n_def s ->
      forall x, In x (snd (calls (handle_with neq (fire neq fuel) v) l s1)) -> fst x < length s).
    { induction l as [|[j q] l IHl]; intros s1 L1 D1 x; cbn [calls]; [intros []|].
      assert (H1 : let r := handle_with neq (fire neq fuel) v s1 j q in map n_def (fst (fst r)) = map n_def s /\ forall y, In y (snd (fst r)) -> fst y < length s).
      { cbn zeta. unfold handle_with. destruct (nth_error s1 j) as [[d y ins]|] eqn:Ej; [|split; [exact D1|intros ? []]]. cbn [n_def n_val n_ins].
        assert (G : forall w ins', let r := fire neq fuel (put j (Node d w ins') s1) j w in
          map n_def (fst r) = map n_def s /\ forall y, In y (snd r) -> fst y < length s).
        { intros w ins'. cbn zeta. split.
          - rewrite fire_defs. rewrite <- D1. eapply put_map; eauto.
          - intros z Hz. apply IH in Hz; rewrite put_length in *; [lia|]. eapply nth_lt; eauto. }
        destruct d as [|p f|lp f]; [split; [exact D1|intros ? []]| |].
        - destruct (f v) as [w|e0]; [|split; [exact D1|intros ? []]]. destruct (neq w y); [|split; [exact D1|intros ? []]].
          specialize (G w ins). destruct (fire neq fuel _ j w). exact G.
        - destruct (f (put q v ins)) as [w|e0].
          + specialize (G w (put q v ins)). destruct (fire neq fuel _ j w). exact G.
          + cbn. split; [rewrite <- D1; eapply put_map; eauto|intros ? []]. }
      cbn zeta in H1. destruct (handle_with neq (fire neq fuel) v s1 j q) as [[s2 t2] [e0|]]; cbn [fst snd] in H1; [cbn; apply H1|].
      destruct H1 as [D2 H1]. assert (L2 : length s2 = length s) by (rewrite <- (map_length n_def s2), D2; apply map_length).
      specialize (IHl s2 L2 D2). destruct (calls _ l s2) as [s3 t3]. cbn [snd]. rewrite in_app_iff. intros [H|H]; auto. }
    specialize (HH (subs s i) s eq_refl eq_refl). destruct (calls _ _ s) as [s1 t1]. cbn [snd]. intros [<-|H]; auto.
  Qed.
  Definition keptS (st : lst) (k : nat) : bool := kept (q_life st) (map n_def (q_net st)) k.
  Record qrel (st : lst) (tr : list (lev V)) (s : net) (t : list (nat * V)) : Prop := {
    q_inv : linv [] None st;
    q_wf : wfn s;
    q_nolost : forall k lf, nth_error (q_life st) k = Some lf -> l_lost lf = false;
    q_tot : forall k nd, nth_error (q_net st) k = Some nd -> never_raises (n_def nd);
    q_def : map n_def s = map n_def (q_net st);
    q_node : forall k, keptS st k = true -> nth_error s k = nth_error (q_net st) k;
    q_heard : forall k, keptS st k = true -> heard k tr = fired k t;
    q_gone : forall k, k < length s -> keptS st k = false -> exists l1 l2, fired k t = l1 ++ l2 /\ heard k tr = l1 ++ [last l1 none];
    q_last : forall k nd, nth_error s k = Some nd -> n_def nd <> DVal -> n_val nd = last (fired k t) none;
    q_none : forall k, length s <= k -> fired k t = [] /\ heard k tr = [] }.

  Lemma qrel_new : qrel l_new [] [] [].
  Proof.
    constructor; try reflexivity; auto using linv_new; try (intros [|k] ? H; discriminate).
    all: intros k H; cbn in H; lia.
  Qed.

  Lemma kept_usable (st : lst) k : usable st k = true -> keptS st k = true.
  Proof.
    unfold usable, keptS, kept, act. destruct (nth_error (q_life st) k); [|discriminate]. intros H. apply andb_prop in H. destruct H as [-> _]. reflexivity.
  Qed.

  Lemma qrel_grow st tr s t nd tn : qrel st tr s t -> (forall p, In p (ins_of nd) -> usable st p = true) -> never_raises (n_def nd) ->
    wf1 (length s) nd -> (n_def nd <> DVal -> n_val nd = last tn none) ->
    qrel (grow nd false st) (tr ++ map (EFire (length s)) tn) (s ++ [nd]) (t ++ map (pair (length s)) tn).
  Proof.
    intros Q U T W N. pose proof (i_len _ _ _ (q_inv _ _ _ _ Q)) as L.
    assert (Ls : length s = length (q_net st)) by (rewrite <- (map_length n_def s), (q_def _ _ _ _ Q); apply map_length).
    assert (KO : forall k, k <> length s -> keptS (grow nd false st) k = keptS st k).
    { intros k Nk. rewrite grow_eq. unfold keptS, kept, act, isval. cbn [q_net q_life]. rewrite map_app. f_equal.
      - destruct (nth_error (q_life st) k) as [lf|] eqn:E.
        + destruct (adds_life (ins_of nd) st k lf E) as (lf' & E' & _ & A & _). rewrite nth_error_app1 by (eapply nth_lt; eauto). now rewrite E'.
        + destruct (nth_error (q_life (adds (ins_of nd) st) ++ [life_new false]) k) as [lf|] eqn:E2; [|reflexivity].
          apply nth_error_None in E. apply nth_lt in E2. rewrite app_length, adds_len in E2. cbn in E2. lia.
      - destruct (le_lt_dec (length s) k) as [Hk|Hk].
        + rewrite (proj2 (nth_error_None (map n_def (q_net st) ++ _) k)), (proj2 (nth_error_None (map n_def (q_net st)) k)); auto;
            rewrite ?app_length, ?map_length; cbn; lia.
        + rewrite nth_error_app1 by (rewrite map_length; lia). reflexivity. }
    assert (KN : keptS (grow nd false st) (length s) = true).
    { rewrite grow_eq. unfold keptS, kept, act. cbn [q_life]. rewrite nth_error_app2 by (rewrite adds_len; lia). rewrite adds_len, L, Ls, Nat.sub_diag. reflexivity. }
    assert (FN : fired (length s) t = [] /\ heard (length s) tr = []) by (apply (q_none _ _ _ _ Q); lia).
    assert (FO : forall k, k <> length s -> fired k (t ++ map (pair (length s)) tn) = fired k t /\ heard k (tr ++ map (EFire (length s)) tn) = heard k tr).
    { intros k Nk. rewrite fired_app, heard_app, fired_pairs, heard_pairs, (proj2 (Nat.eqb_neq (length s) k)), !app_nil_r by congruence. auto. }
    constructor.
    - apply linv_grow; [apply (q_inv _ _ _ _ Q)|exact U].
    - intros j n H. apply nth_snoc in H. destruct H as [[_ H]|[-> ->]]; [apply (q_wf _ _ _ _ Q); exact H|exact W].
    - rewrite grow_eq. cbn [q_life]. intros k lf H. apply nth_snoc in H. destruct H as [[Hk H]|[_ ->]]; [|reflexivity].
      rewrite adds_len in Hk. destruct (nth_error (q_life st) k) as [l0|] eqn:E; [|apply nth_error_None in E; lia].
      destruct (adds_life (ins_of nd) st k l0 E) as (lf' & E' & _ & _ & _ & _ & A & _). rewrite H in E'. injection E' as <-. rewrite A.
      eapply (q_nolost _ _ _ _ Q); eauto.
    - rewrite grow_eq. cbn [q_net]. intros k n H. apply nth_snoc in H. destruct H as [[_ H]|[_ ->]]; [eapply (q_tot _ _ _ _ Q); eauto|exact T].
    - rewrite grow_eq. cbn [q_net]. rewrite !map_app, (q_def _ _ _ _ Q). reflexivity.
    - intros k Hk. rewrite grow_eq. cbn [q_net]. destruct (Nat.eq_dec k (length s)) as [->|Nk].
      + rewrite !nth_error_app2 by lia. rewrite <- Ls, Nat.sub_diag. reflexivity.
      + rewrite KO in Hk by assumption. pose proof (q_node _ _ _ _ Q k Hk) as E. destruct (le_lt_dec (length s) k) as [G|G].
        * rewrite !(proj2 (nth_error_None _ k)); auto; rewrite app_length; cbn; lia.
        * rewrite !nth_error_app1 by lia. exact E.
    - intros k Hk. destruct (Nat.eq_dec k (length s)) as [->|Nk].
      + rewrite fired_app, heard_app, fired_pairs, heard_pairs, (proj1 FN), (proj2 FN). reflexivity.
      + destruct (FO k Nk) as [-> ->]. rewrite KO in Hk by assumption. now apply (q_heard _ _ _ _ Q).
    - intros k Lk Hk. rewrite app_length in Lk. cbn in Lk. destruct (Nat.eq_dec k (length s)) as [->|Nk]; [congruence|].
      destruct (FO k Nk) as [-> ->]. rewrite KO in Hk by assumption. apply (q_gone _ _ _ _ Q); [lia|exact Hk].
    - intros k n H Nd. apply nth_snoc in H. destruct H as [[Hk H]|[-> ->]].
      + destruct (FO k) as [-> _]; [lia|]. now apply (q_last _ _ _ _ Q).
      + rewrite fired_app, fired_pairs, (proj1 FN), Nat.eqb_refl. cbn. now apply N.
    - intros k Hk. rewrite app_length in Hk. cbn in Hk. destruct (FO k) as [-> ->]; [lia|]. apply (q_none _ _ _ _ Q). lia.
  Qed.

  Lemma values_same (s s' : net) : forall l, (forall p, In p l -> nth_error s p = nth_error s' p) -> values_of s l = values_of s' l.
  Proof.
    induction l as [|p l IH]; intros H; cbn; [reflexivity|]. rewrite (H p) by now left. rewrite IH by (intros; apply H; now right). reflexivity.
  Qed.

  Lemma nth_defs {s s' : net} k nd : map n_def s = map n_def s' -> nth_error s k = Some nd ->
    exists nd', nth_error s' k = Some nd' /\ n_def nd' = n_def nd.
  Proof.
    intros E H. assert (F : nth_error (map n_def s) k = nth_error (map n_def s') k) by now rewrite E. rewrite !nth_error_map, H in F.
    destruct (nth_error s' k) as [nd'|]; [|discriminate]. cbn in F. injection F as F. eauto.
  Qed.

  Lemma listens_act st tr s t : qrel st tr s t -> forall s0 i j q, map n_def s0 = map n_def (q_net st) -> In (j, q) (subs s0 i) ->
    listens (q_life st) (j, q) = act (q_life st) j.
  Proof.
    intros Q s0 i j q E H. rewrite (subs_defs s0 (q_net st) i E) in H. apply subs_in in H. destruct H as (nd & Hn & Hs).
    apply (slot_input neq none) in Hs. pose proof (i_len _ _ _ (q_inv _ _ _ _ Q)) as L. destruct (both st L j nd Hn) as [lf Hl].
    pose proof (i_ok _ _ _ (q_inv _ _ _ _ Q) j nd lf Hn Hl) as O. unfold listens, act. cbn [fst snd]. rewrite Hl.
    rewrite (k_gone _ _ _ _ _ _ O (q_nolost _ _ _ _ Q j lf Hl)). destruct (l_active lf) eqn:A.
    - rewrite (k_act _ _ _ _ _ _ O A). reflexivity.
    - rewrite (k_rel _ _ _ _ _ _ O A (fun x => x)). apply nth_lt in Hs. apply Nat.leb_gt. exact Hs.
  Qed.
  Lemma below_act st tr s t : qrel st tr s t -> forall s0 i j q, map n_def s0 = map n_def (q_net st) -> In (j, q) (subs s0 i) ->
    act (q_life st) j = true -> act (q_life st) i = true.
  Proof.
    intros Q s0 i j q E H A. pose proof (listens_act st tr s t Q s0 i j q E H) as EL. rewrite A in EL.
    rewrite (subs_defs s0 (q_net st) i E) in H.
    destruct (listens_holds neq none [] None st i j q (q_inv _ _ _ _ Q)) as (nd & lf & Hn & Hl & HI); [apply filter_In; auto|].
    assert (HK : In i (ins_of nd)) by (rewrite <- (firstn_skipn (l_rel lf)); apply in_app_iff; auto).
    pose proof (k_wf _ _ _ _ _ _ (i_ok _ _ _ (q_inv _ _ _ _ Q) j nd lf Hn Hl) i HK) as Lt.
    destruct (nth_error (q_life st) i) as [li|] eqn:Ei; [|apply nth_error_None in Ei; apply nth_lt in Hl; lia].
    unfold act. rewrite Ei. eapply holder_alive; eauto. apply (q_inv _ _ _ _ Q).
  Qed.

  Definition erased (o : lop V) : list (nop V) := match o with LDo o' => [o'] | _ => [] end.

  Lemma sim_step st tr s t o st1 t1 s1 u1 : qrel st tr s t -> allowed st o = true -> quiet_op o ->
    l_step st o = (st1, t1, true) -> n_run neq none s (erased o) = (s1, u1) -> qrel st1 (tr ++ t1) s1 (t ++ u1).
  Proof.
    intros Q Al Qu E1 E2. pose proof (i_len _ _ _ (q_inv _ _ _ _ Q)) as L.
    assert (Ln : length s = length (q_net st)) by (rewrite <- (map_length n_def s), (q_def _ _ _ _ Q); apply map_length).
    assert (UL : forall p, usable st p = true -> p < length s).
    { intros p HI. unfold usable in HI. destruct (nth_error (q_life st) p) as [f|] eqn:E; [|discriminate]. apply nth_lt in E. lia. }
    destruct o as [[v|i f|l f|i v]|k|k|k]; cbn [erased n_run] in E2.
    - unfold NetLife_Model.l_step in E1. rewrite Al in E1. injection E1 as <- <-. cbn [n_step] in E2. injection E2 as <- <-.
      apply (qrel_grow st tr s t _ []); auto; cbn; try congruence; intros p [].
    - unfold NetLife_Model.l_step in E1. rewrite Al in E1. cbn in Al. cbn [n_step] in E2.
      rewrite (q_node _ _ _ _ Q i (kept_usable st i Al)) in E2. destruct (nth_error (q_net st) i) as [nd|] eqn:Ei.
      2:{ apply nth_error_None in Ei. specialize (UL i Al). lia. }
      destruct (Qu (n_val nd)) as [w Ew]. rewrite Ew in E1, E2. destruct (neq w none).
      + injection E1 as <- <-. injection E2 as <- <-. rewrite <- Ln.
        apply (qrel_grow st tr s t (Node (DMap i f) w []) [w]); auto; cbn; auto. intros p [<-|[]]; exact Al.
      + injection E1 as <- <-. injection E2 as <- <-.
        apply (qrel_grow st tr s t (Node (DMap i f) none []) []); auto; cbn; auto. intros p [<-|[]]; exact Al.
    - unfold NetLife_Model.l_step in E1. rewrite Al in E1. cbn in Al. rewrite forallb_forall in Al. cbn [n_step] in E2.
      rewrite (values_same s (q_net st) l) in E2 by (intros p HI; apply (q_node _ _ _ _ Q), kept_usable, Al, HI).
      destruct (values_of (q_net st) l) as [vs|] eqn:Ev.
      2:{ exfalso. clear - Ev UL Al Ln. induction l as [|p l IH]; cbn in Ev; [discriminate|].
          destruct (nth_error (q_net st) p) eqn:Ep.
          - destruct (values_of (q_net st) l); [discriminate|]. apply IH; auto. intros x HI. apply Al. now right.
          - apply nth_error_None in Ep. specialize (UL p (Al p (or_introl eq_refl))). lia. }
      pose proof (proj1 (values_of_nth (q_net st) l vs Ev)) as Lv.
      destruct (Qu vs) as [w Ew]. rewrite Ew in E1, E2. injection E1 as <- <-. injection E2 as <- <-. rewrite <- Ln.
      apply (qrel_grow st tr s t (Node (DComb l f) w vs) [w]); auto; cbn; auto.
    - unfold NetLife_Model.l_step in E1. rewrite Al in E1. cbn in Al.
      destruct (nth_error (q_net st) i) as [[[|p f|lp f] x ins]|] eqn:Ei; try discriminate.
      assert (Ki : keptS st i = true).
      { unfold keptS, kept, isval. rewrite nth_error_map, Ei. apply orb_true_r. }
      pose proof (q_node _ _ _ _ Q i Ki) as Es. rewrite Ei in Es.
      assert (W1 : wfn s1) by (pose proof (wf_run neq none [SetVal i v] s (q_wf _ _ _ _ Q)) as W; cbn [n_run] in W; rewrite E2 in W; exact W).
      assert (TL : forall k nd, nth_error s1 k = Some nd -> n_def nd <> DVal -> map n_def s1 = map n_def s -> n_val nd = last (fired k (t ++ u1)) none).
      { intros k nd H N D1. destruct (nth_defs (s' := s) k nd D1 H) as (n0 & H0 & D0).
        pose proof (run_tracks neq none k [SetVal i v] s (q_wf _ _ _ _ Q) (n_val n0)) as T. unfold value in T. cbn [n_run] in T.
        rewrite E2, H0 in T. cbn [fst snd] in T. specialize (T eq_refl). rewrite H in T. injection T as T. rewrite T, fired_app, last_app. f_equal.
        apply (q_last _ _ _ _ Q k n0 H0). congruence. }
      cbn [n_step] in E2. rewrite Es in E2. destruct (neq x v).
      2:{ injection E1 as <- <-. injection E2 as <- <-. rewrite !app_nil_r. exact Q. }
      set (D := map n_def (q_net st)).
      assert (R0 : alike (q_life st) D (put i (Node DVal v ins) s) (put i (Node DVal v ins) (q_net st))).
      { apply (alike_put2 (q_life st) D s (q_net st) i (Node DVal x ins) v ins); auto. split; [apply (q_def _ _ _ _ Q)|].
        split; [reflexivity|]. intros k Hk. apply (q_node _ _ _ _ Q). exact Hk. }
      destruct (length (q_net st) - i) as [|m] eqn:Em; [apply nth_lt in Ei; lia|]. rewrite Ln, Em in E2.
      destruct (fire_sim (q_life st) D) with (fuel := m) (s := put i (Node DVal v ins) s) (s' := put i (Node DVal v ins) (q_net st)) (i := i) (v := v)
        as (s2 & s2' & r & F1 & F2 & R2).
      { intros k d H. unfold D in H. rewrite nth_error_map in H. destruct (nth_error (q_net st) k) as [n|] eqn:En; [|discriminate].
        injection H as <-. eapply (q_tot _ _ _ _ Q); eauto. }
      { intros s0 i0 j q. apply (listens_act st tr s t Q). }
      { intros s0 i0 j q. apply (below_act st tr s t Q). }
      { exact R0. }
      rewrite F1 in E2. rewrite F2 in E1. injection E1 as <- <-. cbn in E2. rewrite app_nil_r in E2. injection E2 as <- <-.
      destruct R2 as (D1 & D2 & R2). change (EFire i v :: fires (filter (keptf (q_life st) D) r)) with (fires ((i, v) :: filter (keptf (q_life st) D) r)).
      assert (LK : length s2 = length s) by (rewrite <- (map_length n_def s2), D1; unfold D; rewrite map_length; congruence).
      assert (KS : forall k, keptS (Ls s2' (q_life st)) k = keptS st k) by (intros k; unfold keptS; cbn [q_net q_life]; now rewrite D2).
      assert (CF : forall k (l1 l2 : list (nat * V)) e, fired k l1 = fired k l2 -> fired k (e :: l1) = fired k (e :: l2)).
      { intros k l1 l2 e H. unfold fired in *. cbn. destruct (fst e =? k); cbn; congruence. }
      constructor; cbn [q_net q_life].
      + apply (linv_defs [] None (q_net st)); [exact D2|]. destruct st; apply (q_inv _ _ _ _ Q).
      + exact W1.
      + apply (q_nolost _ _ _ _ Q).
      + intros k n H. destruct (nth_defs (s' := q_net st) k n D2 H) as (n0 & H0 & D0). rewrite <- D0. eapply (q_tot _ _ _ _ Q); eauto.
      + congruence.
      + intros k Hk. rewrite KS in Hk. apply R2. exact Hk.
      + intros k Hk. rewrite KS in Hk. rewrite heard_app, heard_fires, fired_app. rewrite (q_heard _ _ _ _ Q k Hk). f_equal. apply CF.
        apply fired_filter. intros w. exact Hk.
      + intros k Lk Hk. rewrite KS in Hk. rewrite LK in Lk. destruct (q_gone _ _ _ _ Q k Lk Hk) as (l1 & l2 & G1 & G2).
        rewrite heard_app, heard_fires, fired_app, G1, G2. exists l1, (l2 ++ fired k ((i, v) :: r)). rewrite app_assoc. split; [reflexivity|].
        assert (Z : fired k ((i, v) :: filter (keptf (q_life st) D) r) = []).
        { unfold fired. cbn. destruct (Nat.eqb_spec i k) as [->|N]; [congruence|]. apply (fired_filter_none k). intros w. exact Hk. }
        now rewrite Z, app_nil_r.
      + intros k n H N. apply TL; auto. rewrite (q_def _ _ _ _ Q). exact D1.
      + intros k Hk. rewrite LK in Hk. destruct (q_none _ _ _ _ Q k Hk) as [G1 G2].
        assert (Bd : forall e, In e ((i, v) :: r) -> fst e < length s).
        { intros e He. assert (H0 : In e (snd (fire neq (S m) (put i (Node DVal v ins) s) i v))) by (rewrite F1; exact He).
          apply fire_range in H0; [rewrite put_length in H0; exact H0|]. rewrite put_length. eapply nth_lt; eauto. }
        assert (Z : forall l : list (nat * V), (forall e, In e l -> fst e < length s) -> fired k l = []).
        { induction l as [|[j w] l IH]; intros H; [reflexivity|]. unfold fired in *. cbn. rewrite (proj2 (Nat.eqb_neq j k)).
          - apply IH. intros e He. apply H. now right.
          - specialize (H (j, w) (or_introl eq_refl)). cbn in H. lia. }
        rewrite fired_app, heard_app, heard_fires, G1, G2, !Z; auto. intros e [<-|He]; [apply (Bd (i, v)); now left|].
        apply Bd. right. apply filter_In in He. apply He.
    - injection E2 as <- <-. rewrite app_nil_r. destruct (step_ok st (LAdd k) (q_inv _ _ _ _ Q)) as (st' & t' & E' & I').
      rewrite E1 in E'. injection E' as <- <-. unfold NetLife_Model.l_step in E1. rewrite Al in E1. unfold allowed, usable in Al.
      destruct (nth_error (q_life st) k) as [lf|] eqn:El; [|discriminate]. rewrite (set_life_eq k _ st lf El) in E1. injection E1 as <- <-.
      rewrite app_nil_r. pose proof (nth_lt _ _ _ El) as Lk.
      match goal with |- qrel ?x _ _ _ => set (st1 := x) in * end.
      assert (KS : forall j, keptS st1 j = keptS st j).
      { intros j. unfold keptS, kept, act, st1. cbn [q_net q_life]. f_equal. destruct (Nat.eq_dec j k) as [->|N].
        - rewrite put_same by assumption. rewrite El. reflexivity.
        - now rewrite put_other. }
      destruct Q as [Q1 Q2 Q3 Q4 Q5 Q6 Q7 Q8 Q9 Q10]. constructor; auto.
      + unfold st1. cbn [q_life]. intros j f H. destruct (Nat.eq_dec j k) as [->|N].
        * rewrite put_same in H by assumption. injection H as <-. cbn. eauto.
        * rewrite put_other in H by assumption. eauto.
      + intros j Hj. rewrite KS in Hj. exact (Q6 j Hj).
      + intros j Hj. rewrite KS in Hj. exact (Q7 j Hj).
      + intros j Lj Hj. rewrite KS in Hj. exact (Q8 j Lj Hj).
    - injection E2 as <- <-. rewrite app_nil_r. unfold allowed in Al. destruct (nth_error (q_life st) k) as [lf|] eqn:El; [|discriminate].
      apply Nat.ltb_lt in Al. destruct (drop_step st k lf (q_inv _ _ _ _ Q) El Al) as (st' & ks & E' & I' & F & B).
      rewrite E1 in E'. injection E' as <- ->. pose proof (nth_lt _ _ _ El) as Lk.
      set (st0 := Ls (q_net st) (put k (drop_ext lf) (q_life st))) in *.
      assert (A0 : forall j, act (q_life st0) j = act (q_life st) j).
      { intros j. unfold act, st0. cbn [q_life]. destruct (Nat.eq_dec j k) as [->|N].
        - rewrite put_same by assumption. rewrite El. reflexivity.
        - now rewrite put_other. }
      assert (A1 : forall j, act (q_life st1) j = act (q_life st) j && negb (existsb (Nat.eqb j) ks)).
      { intros j. rewrite <- A0. destruct (existsb (Nat.eqb j) ks) eqn:X.
        - apply existsb_exists in X. destruct X as (y & HI & Y). apply Nat.eqb_eq in Y. subst y. rewrite andb_false_r.
          destruct (f_in _ _ _ _ _ F j HI) as [_ (l1 & L1 & C1)]. unfold act. unfold life_of in L1. now rewrite L1.
        - rewrite andb_true_r. assert (NI : ~ In j ks).
          { intros HI. assert (existsb (Nat.eqb j) ks = true) by (apply existsb_exists; exists j; split; [exact HI|apply Nat.eqb_refl]). congruence. }
          unfold act. destruct (nth_error (q_life st0) j) as [l0|] eqn:E0.
          + destruct (f_life _ _ _ _ _ F j l0 E0) as (l1 & L1 & _ & _ & _ & _ & C1 & _). rewrite L1. now apply C1.
          + destruct (nth_error (q_life st1) j) as [l1|] eqn:L1; [|reflexivity]. apply nth_error_None in E0. apply nth_lt in L1.
            rewrite (f_len _ _ _ _ _ F) in L1. lia. }
      pose proof (f_def _ _ _ _ _ F) as D1. change (q_net st0) with (q_net st) in D1.
      assert (KS : forall j, keptS st1 j = true -> keptS st j = true).
      { intros j. unfold keptS, kept. rewrite D1, A1. intros H. apply orb_prop in H. destruct H as [H|H]; [|rewrite H; apply orb_true_r].
        apply andb_prop in H. now rewrite (proj1 H). }
      assert (HC : forall j, keptS st j = true -> keptS st1 j = true -> heard j (flat_map (closing st) ks) = []).
      { intros j _ Kj. clear - Kj A1 D1. unfold keptS, kept in Kj. rewrite D1, A1 in Kj.
        assert (X : existsb (Nat.eqb j) ks = false \/ isval (map n_def (q_net st)) j = true).
        { apply orb_prop in Kj. destruct Kj as [H|H]; [|auto]. apply andb_prop in H. left. now apply negb_true_iff. }
        clear - X. induction ks as [|x ks IH]; [reflexivity|]. cbn [flat_map]. rewrite heard_app, IH.
        - rewrite app_nil_r. unfold closing. cbn [heard]. destruct X as [X|X].
          + cbn in X. apply orb_false_elim in X. destruct X as [X _]. rewrite Nat.eqb_sym in X.
            destruct (nth_error (q_net st) x) as [[[] ? ?]|]; cbn; rewrite ?X; reflexivity.
          + unfold isval in X. rewrite nth_error_map in X. destruct (Nat.eq_dec x j) as [->|N].
            * destruct (nth_error (q_net st) j) as [[[] ? ?]|]; cbn in *; try discriminate; reflexivity.
            * destruct (nth_error (q_net st) x) as [[[] ? ?]|]; cbn; rewrite ?(proj2 (Nat.eqb_neq x j) N); reflexivity.
        - destruct X as [X|X]; [left|auto]. cbn in X. apply orb_false_elim in X. apply X. }
      constructor.
      + exact I'.
      + apply (q_wf _ _ _ _ Q).
      + intros j f H. pose proof (nth_lt _ _ _ H) as Lj. rewrite (f_len _ _ _ _ _ F) in Lj.
        destruct (nth_error (q_life st0) j) as [l0|] eqn:E0; [|apply nth_error_None in E0; lia].
        destruct (f_life _ _ _ _ _ F j l0 E0) as (l1 & L1 & _ & _ & C1 & _). rewrite H in L1. injection L1 as <-. rewrite C1.
        unfold st0 in E0. cbn [q_life] in E0. destruct (Nat.eq_dec j k) as [->|N].
        * rewrite put_same in E0 by assumption. injection E0 as <-. cbn. eapply (q_nolost _ _ _ _ Q); eauto.
        * rewrite put_other in E0 by assumption. eapply (q_nolost _ _ _ _ Q); eauto.
      + intros j n H. destruct (nth_defs (s' := q_net st) j n D1 H) as (n0 & H0 & D0). rewrite <- D0. eapply (q_tot _ _ _ _ Q); eauto.
      + rewrite D1. apply (q_def _ _ _ _ Q).
      + intros j Hj. rewrite (q_node _ _ _ _ Q j (KS j Hj)). destruct (in_dec Nat.eq_dec j ks) as [HI|HI].
        * destruct (f_shut _ _ _ _ _ F j HI) as [_ SH]. change (q_net st0) with (q_net st) in SH. rewrite SH.
          assert (X : isval (map n_def (q_net st)) j = true).
          { unfold keptS, kept in Hj. rewrite D1, A1 in Hj. replace (existsb (Nat.eqb j) ks) with true in Hj; [now rewrite andb_false_r in Hj|].
            symmetry. apply existsb_exists. exists j. split; [exact HI|apply Nat.eqb_refl]. }
          unfold isval in X. rewrite nth_error_map in X. destruct (nth_error (q_net st) j) as [[[] ? ?]|]; cbn in *; try discriminate; reflexivity.
        * symmetry. apply (f_node _ _ _ _ _ F j HI). discriminate.
      + intros j Hj. rewrite heard_app, (HC j (KS j Hj) Hj), app_nil_r. apply (q_heard _ _ _ _ Q), KS, Hj.
      + intros j Lj Hj. rewrite heard_app. destruct (keptS st j) eqn:Kj.
        * (* closed now *)
          assert (X : In j ks /\ isval (map n_def (q_net st)) j = false).
          { unfold keptS, kept in Kj, Hj. rewrite D1, A1 in Hj. destruct (isval (map n_def (q_net st)) j); [rewrite orb_true_r in Hj; discriminate|].
            split; [|reflexivity]. rewrite orb_false_r in Kj, Hj. rewrite Kj in Hj. cbn in Hj. apply negb_false_iff in Hj. apply existsb_exists in Hj.
            destruct Hj as (y & HI & Y). apply Nat.eqb_eq in Y. now subst y. }
          destruct X as [HI Vj]. exists (fired j t), []. rewrite app_nil_r. split; [reflexivity|]. rewrite (q_heard _ _ _ _ Q j Kj). f_equal.
          destruct (nth_error (q_net st) j) as [nd|] eqn:Ej; [|apply nth_error_None in Ej; lia].
          assert (Nd : n_def nd <> DVal).
          { intros Ed. unfold isval in Vj. rewrite nth_error_map, Ej in Vj. cbn in Vj. rewrite Ed in Vj. discriminate. }
          rewrite <- (q_last _ _ _ _ Q j nd); [|rewrite (q_node _ _ _ _ Q j Kj); exact Ej|exact Nd].
          pose proof (f_nodup _ _ _ _ _ F) as ND. clear - ND HI Ej Nd. induction ks as [|x ks IH]; [destruct HI|]. cbn [flat_map]. rewrite heard_app.
          inversion ND; subst. destruct (Nat.eq_dec x j) as [->|N].
          -- unfold closing at 1. rewrite Ej. assert (Z : heard j (flat_map (closing st) ks) = []).
             { clear - H1. induction ks as [|x ks IH]; [reflexivity|]. cbn [flat_map]. rewrite heard_app, IH by (intros H; apply H1; now right).
               assert (x <> j) by (intros ->; apply H1; now left). unfold closing. rewrite app_nil_r. cbn [heard].
               destruct (nth_error (q_net st) x) as [[[] ? ?]|]; cbn; rewrite ?(proj2 (Nat.eqb_neq x j) H); reflexivity. }
             rewrite Z, app_nil_r. destruct nd as [[] ? ?]; cbn in *; [congruence| |]; now rewrite Nat.eqb_refl.
          -- destruct HI as [->|HI]; [congruence|]. rewrite IH by assumption. unfold closing. cbn [heard].
             destruct (nth_error (q_net st) x) as [[[] ? ?]|]; cbn; rewrite ?(proj2 (Nat.eqb_neq x j) N); reflexivity.
        * destruct (q_gone _ _ _ _ Q j Lj Kj) as (l1 & l2 & G1 & G2). exists l1, l2. split; [exact G1|]. rewrite G2.
          assert (Z : heard j (flat_map (closing st) ks) = []); [|now rewrite Z, app_nil_r].
          assert (NI : ~ In j ks).
          { intros HI. destruct (f_in _ _ _ _ _ F j HI) as [(l0 & E0 & C0) _]. pose proof (A0 j) as AA. unfold act at 1 in AA. unfold life_of in E0. rewrite E0, C0 in AA.
            unfold keptS, kept in Kj. rewrite <- AA in Kj. discriminate. }
          clear - NI. induction ks as [|x ks IH]; [reflexivity|]. cbn [flat_map]. rewrite heard_app, IH by (intros H; apply NI; now right).
          assert (x <> j) by (intros ->; apply NI; now left). unfold closing. rewrite app_nil_r. cbn [heard].
          destruct (nth_error (q_net st) x) as [[[] ? ?]|]; cbn; rewrite ?(proj2 (Nat.eqb_neq x j) H); reflexivity.
      + apply (q_last _ _ _ _ Q).
      + intros j Hj. destruct (q_none _ _ _ _ Q j Hj) as [G1 G2]. split; [exact G1|]. rewrite heard_app, G2. cbn [app].
        assert (NI : ~ In j ks).
        { intros HI. specialize (B j HI). rewrite L, <- Ln in Lk. lia. }
        clear - NI. induction ks as [|x ks IH]; [reflexivity|]. cbn [flat_map]. rewrite heard_app, IH by (intros H; apply NI; now right).
        assert (x <> j) by (intros ->; apply NI; now left). unfold closing. rewrite app_nil_r. cbn [heard].
        destruct (nth_error (q_net st) x) as [[[] ? ?]|]; cbn; rewrite ?(proj2 (Nat.eqb_neq x j) H); reflexivity.
    - exfalso. unfold allowed in Al. destruct (nth_error (q_life st) k) as [lf|] eqn:El; [|discriminate].
      rewrite (q_nolost _ _ _ _ Q k lf El) in Al. discriminate.
  Qed.

  Lemma n_run_app h1 : forall (s : net) h2 s1 t1 s2 t2, n_run neq none s h1 = (s1, t1) -> n_run neq none s1 h2 = (s2, t2) ->
    n_run neq none s (h1 ++ h2) = (s2, t1 ++ t2).
  Proof.
    induction h1 as [|o h1 IH]; intros s h2 s1 t1 s2 t2 E1 E2; cbn in *.
    - injection E1 as <- <-. exact E2.
    - destruct (n_step neq none s o) as [s3 t3]. destruct (n_run neq none s3 h1) as [s4 t4] eqn:E3. injection E1 as <- <-.
      rewrite (IH _ _ _ _ _ _ E3 E2). now rewrite app_assoc.
  Qed.
  Lemma keeping_cons (o : lop V) h : keeping (o :: h) = erased o ++ keeping h.
  Proof. destruct o; reflexivity. Qed.
  Lemma sim_run : forall h st tr s t st1 t1 s1 u1, qrel st tr s t -> lawful neq none st h -> Forall quiet_op h ->
    l_run st h = (st1, t1, true) -> n_run neq none s (keeping h) = (s1, u1) -> qrel st1 (tr ++ t1) s1 (t ++ u1).
  Proof.
    induction h as [|o h IH]; intros st tr s t st1 t1 s1 u1 Q La Qu E1 E2.
    - cbn in *. injection E1 as <- <-. injection E2 as <- <-. rewrite !app_nil_r. exact Q.
    - rewrite keeping_cons in E2. inversion Qu as [|? ? Q1 Q2]; subst. destruct La as [L1 L2]. cbn [NetLife_Model.l_run] in E1.
      destruct (step_ok st o (q_inv _ _ _ _ Q)) as (st2 & t2 & E3 & I2). rewrite E3 in *. cbn [fst] in L2.
      destruct (n_run neq none s (erased o)) as [s2 u2] eqn:E4. pose proof (sim_step st tr s t o st2 t2 s2 u2 Q L1 Q1 E3 E4) as Q3.
      destruct (l_run st2 h) as [[st3 t3] b] eqn:E5. cbn in E1. injection E1 as <- <- ->.
      destruct (n_run neq none s2 (keeping h)) as [s3 u3] eqn:E6. rewrite (n_run_app (erased o) s (keeping h) s2 u2 s3 u3 E4 E6) in E2. injection E2 as <- <-.
      rewrite !app_assoc. eapply IH; eauto.
  Qed.
End NetLifeProofs3.
