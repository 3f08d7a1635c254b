From Coq Require Import List Arith Bool Lia.
From Verif Require Import PyBase Net_Model Net_Spec Net_Proofs NetLife_Model NetLife_Spec NetLife_Proofs.
Import ListNotations.

Section NetLifeProofs2.
  Context {V : Type}.
  Variable neq : V -> V -> bool.
  Variable none : V.
  Local Notation net := (net V).
  Local Notation lst := (lst V).
  Local Notation node := (node V).
  Local Notation fire_l := (fire_l neq).
  Local Notation drop := (drop neq none).
  Local Notation leave := (leave none).
  Local Notation close_with := (close_with neq none).
  Local Notation fell := (fell none).

  Lemma put_id {X} (x : X) : forall l j, nth_error l j = Some x -> put j x l = l.
  Proof. induction l as [|y l IH]; intros [|j] H; cbn in *; try discriminate; [congruence|]. f_equal. auto. Qed.
  Lemma set_life_eq k g (st : lst) lf : nth_error (q_life st) k = Some lf -> set_life k g st = Ls (q_net st) (put k (g lf) (q_life st)).
  Proof. unfold set_life. now intros ->. Qed.
  Lemma set_node_eq k g (st : lst) nd : nth_error (q_net st) k = Some nd -> set_node k g st = Ls (put k (g nd) (q_net st)) (q_life st).
  Proof. unfold set_node. now intros ->. Qed.
  Lemma skipn_len {X} (l : list X) n : n = length l -> skipn n l = [].
  Proof. intros ->. apply skipn_all. Qed.
  Lemma hold1_none (nd : node) lf j : (forall p, In p (ins_of nd) -> p < j) -> hold1 j nd lf = 0.
  Proof.
    intros H. unfold hold1, occ. apply count_occ_not_In. intros HI.
    assert (In j (ins_of nd)) by (rewrite <- (firstn_skipn (l_rel lf) (ins_of nd)); apply in_app_iff; auto).
    specialize (H j H0). lia.
  Qed.

  (** changing one stream *)
  Lemma linv_put C C' pend pend' (st : lst) k nd nd' lf lf' :
    linv C pend st -> nth_error (q_net st) k = Some nd -> nth_error (q_life st) k = Some lf -> n_def nd' = n_def nd ->
    (forall j, j <> k -> hold1 j nd lf' + pends pend' j = hold1 j nd lf + pends pend j) ->
    (forall j, j <> k -> In j C -> In j C') ->
    l_count lf' = l_ext lf' + held k (q_net st) (q_life st) + pends pend' k ->
    (l_active lf' = false -> l_count lf' = 0) ->
    (l_active lf' = false -> ~ In k C' -> l_rel lf' = length (ins_of nd)) ->
    (l_active lf' = true -> l_rel lf' = 0) ->
    (l_lost lf' = false -> l_gone lf' = l_rel lf') ->
    (l_lost lf' = true -> l_ext lf' = 0 /\ l_used lf' = false /\ l_active lf' = true) ->
    (l_used lf' = false -> l_count lf' = 0) ->
    (l_active lf' = true -> l_used lf' = true -> 0 < l_count lf') ->
    (l_active lf' = false -> l_used lf' = true) ->
    linv C' pend' (Ls (put k nd' (q_net st)) (put k lf' (q_life st))).
  Proof.
    intros [L I] Hn Hl D Hh HC H1 H2 H3 H4 H5 H6 H7 H8 H9. constructor; cbn [q_net q_life].
    - now rewrite !put_length.
    - intros j n f En Ef. pose proof (held_put j (q_net st) (q_life st) k nd nd' lf lf' Hn Hl D) as HP.
      destruct (Nat.eq_dec j k) as [->|N].
      + rewrite put_same in En by (eapply nth_lt; eauto). rewrite put_same in Ef by (eapply nth_lt; eauto).
        injection En as <-. injection Ef as <-. pose proof (I k nd lf Hn Hl) as O.
        pose proof (hold1_none nd lf k (k_wf _ _ _ _ _ _ O)) as Z1.
        pose proof (hold1_none nd lf' k (k_wf _ _ _ _ _ _ O)) as Z2.
        assert (EI : ins_of nd' = ins_of nd) by (unfold ins_of; now rewrite D).
        constructor; cbn [q_net q_life]; auto; rewrite ?EI; auto.
        * apply (k_wf _ _ _ _ _ _ O).
        * lia.
      + rewrite put_other in En by assumption. rewrite put_other in Ef by assumption. pose proof (I j n f En Ef) as O. specialize (Hh j N).
        destruct O as [O1 O2 O3 O4 O5 O6 O7 O8 O9 O10]. constructor; cbn [q_net q_life]; auto; lia.
  Qed.
  Lemma linv_life C C' pend pend' (st : lst) k nd lf lf' :
    linv C pend st -> nth_error (q_net st) k = Some nd -> nth_error (q_life st) k = Some lf ->
    (forall j, j <> k -> hold1 j nd lf' + pends pend' j = hold1 j nd lf + pends pend j) ->
    (forall j, j <> k -> In j C -> In j C') ->
    l_count lf' = l_ext lf' + held k (q_net st) (q_life st) + pends pend' k ->
    (l_active lf' = false -> l_count lf' = 0) ->
    (l_active lf' = false -> ~ In k C' -> l_rel lf' = length (ins_of nd)) ->
    (l_active lf' = true -> l_rel lf' = 0) ->
    (l_lost lf' = false -> l_gone lf' = l_rel lf') ->
    (l_lost lf' = true -> l_ext lf' = 0 /\ l_used lf' = false /\ l_active lf' = true) ->
    (l_used lf' = false -> l_count lf' = 0) ->
    (l_active lf' = true -> l_used lf' = true -> 0 < l_count lf') ->
    (l_active lf' = false -> l_used lf' = true) ->
    linv C' pend' (Ls (q_net st) (put k lf' (q_life st))).
  Proof.
    intros I Hn Hl H. intros. rewrite <- (put_id nd (q_net st) k Hn). eapply linv_put; eauto.
  Qed.

  Definition drop_ok (fuel : nat) : Prop := forall (st : lst) k C, k < fuel -> k < length (q_net st) ->
    linv C (Some k) st -> (forall c, In c C -> k < c) ->
    exists st' ks, drop fuel st k = (st', flat_map (closing st) ks, true) /\ linv C None st' /\ fell None st st' ks /\
      forall j, In j ks -> j <= k.

  Lemma closing_same (st st' : lst) : forall ks, (forall j, In j ks -> nth_error (q_net st) j = nth_error (q_net st') j) ->
    flat_map (closing st) ks = flat_map (closing st') ks.
  Proof.
    induction ks as [|j ks IH]; intros H; cbn; [reflexivity|]. rewrite IH by (intros; apply H; now right).
    unfold closing. rewrite (H j) by now left. reflexivity.
  Qed.

  Lemma leave_ok fuel : drop_ok fuel -> forall l q (st : lst) C k nd lf,
    linv (k :: C) None st -> nth_error (q_net st) k = Some nd -> nth_error (q_life st) k = Some lf ->
    l_active lf = false -> l_lost lf = false -> l_rel lf = q -> q <= length (ins_of nd) -> skipn q (ins_of nd) = l -> k <= fuel ->
    (forall c, In c C -> k < c) ->
    exists st' ks lf', leave (drop fuel) k q l st = (st', flat_map (closing st) ks, true) /\ linv (k :: C) None st' /\
      fell (Some k) st st' ks /\ (forall j, In j ks -> j < k) /\ nth_error (q_life st') k = Some lf' /\
      l_active lf' = false /\ l_rel lf' = length (ins_of nd).
  Proof.
    intros IH. induction l as [|p l IHl]; intros q st C k nd lf I Hn Hl A Lo Rq Lq0 Sk Hk HC.
    - exists st, [], lf. cbn. repeat (split; [first [assumption|reflexivity|apply fell_refl|intros ? []]|]).
      assert (length (skipn q (ins_of nd)) = 0) by now rewrite Sk. rewrite skipn_length in H. lia.
    - pose proof (i_ok _ _ _ I k nd lf Hn Hl) as O.
      assert (Lk : k < length (q_life st)) by (eapply nth_lt; eauto).
      assert (Lq : k < length (q_net st)) by (eapply nth_lt; eauto).
      assert (Sk' : skipn (S q) (ins_of nd) = l).
      { clear - Sk. revert q Sk. induction (ins_of nd) as [|y r IHr]; intros [|q] Sk; cbn in *; try discriminate; [congruence|].
        apply (IHr q Sk). }
      assert (Hp : p < k).
      { apply (k_wf _ _ _ _ _ _ O). rewrite <- (firstn_skipn q (ins_of nd)), Sk. apply in_app_iff. right. now left. }
      cbn [NetLife_Model.leave].
      rewrite (set_life_eq k _ st lf Hl).
      rewrite (set_node_eq k _ _ nd) by exact Hn. cbn [q_net q_life].
      rewrite (set_life_eq k _ _ (unlisten (S q) lf)) by (cbn [q_life]; now apply put_same). cbn [q_net q_life].
      set (nd1 := Node (n_def nd) (n_val nd) (put q none (n_ins nd))).
      set (lf1 := give_up (S q) (unlisten (S q) lf)).
      assert (PP : put k lf1 (put k (unlisten (S q) lf) (q_life st)) = put k lf1 (q_life st)).
      { clear. revert k. induction (q_life st) as [|y r IH]; intros [|k]; cbn; auto. f_equal. apply IH. }
      rewrite PP. set (st1 := Ls (put k nd1 (q_net st)) (put k lf1 (q_life st))).
      assert (I1 : linv (k :: C) (Some p) st1).
      { unfold st1. apply (linv_put (k :: C) (k :: C) None (Some p) st k nd nd1 lf lf1); auto.
        - intros j N. unfold hold1. change (l_rel lf1) with (S q). rewrite Rq, Sk, Sk'. cbn [pends]. unfold occ.
          destruct (Nat.eqb_spec p j) as [->|Np]; [rewrite count_occ_cons_eq by reflexivity|rewrite count_occ_cons_neq by assumption]; lia.
        - change (l_count lf1) with (l_count lf). change (l_ext lf1) with (l_ext lf). rewrite (k_count _ _ _ _ _ _ O). cbn [pends].
          rewrite (proj2 (Nat.eqb_neq p k)) by lia. lia.
        - intros _. apply (k_dead _ _ _ _ _ _ O A).
        - intros _ N. exfalso. apply N. now left.
        - intros B. change (l_active lf1) with (l_active lf) in B. congruence.
        - intros B. change (l_lost lf1) with (l_lost lf) in B. congruence.
        - apply (k_unused _ _ _ _ _ _ O).
        - intros B. change (l_active lf1) with (l_active lf) in B. congruence.
        - apply (k_du _ _ _ _ _ _ O). }
      destruct (IH st1 p (k :: C)) as (st2 & ks1 & E2 & I2 & F2 & B2); auto.
      { lia. } { unfold st1. cbn [q_net]. rewrite put_length. lia. }
      { intros c [<-|Hc]; [assumption|]. specialize (HC c Hc). lia. }
      rewrite E2.
      assert (F1 : fell (Some k) st st1 []).
      { constructor; try (intros; contradiction); try constructor.
        - unfold st1. cbn. now rewrite put_length.
        - unfold st1. cbn [q_net]. eapply put_map; eauto.
        - intros j f Ef. unfold st1. cbn [q_life]. destruct (Nat.eq_dec j k) as [->|N].
          + rewrite put_same by assumption. exists lf1. rewrite Hl in Ef. injection Ef as <-. repeat split; auto; congruence.
          + rewrite put_other by assumption. exists f. repeat split; auto.
        - intros j _ X. unfold st1. cbn [q_net]. apply put_other. congruence.
        - intros [|y a] x b E; discriminate. }
      assert (F2' : fell (Some k) st1 st2 ks1).
      { apply fell_weaken; [|exact F2]. intros j Hj X. injection X as ->. specialize (B2 j Hj). lia. }
      assert (K2 : nth_error (q_net st2) k = Some nd1).
      { rewrite (f_node _ _ _ _ _ F2); [|intros Hj; specialize (B2 k Hj); lia|discriminate].
        unfold st1. cbn [q_net]. now apply put_same. }
      destruct (f_life _ _ _ _ _ F2 k lf1) as (lf2 & El2 & _ & _ & Lo2 & _ & Ac2 & Sb2).
      { unfold st1. cbn [q_life]. now apply put_same. }
      assert (Nk : ~ In k ks1) by (intros Hj; specialize (B2 k Hj); lia).
      destruct (Sb2 Nk) as (_ & _ & _ & _ & _ & R2); [discriminate|].
      destruct (IHl (S q) st2 C k nd1 lf2) as (st3 & ks2 & lf3 & E3 & I3 & F3 & B3 & El3 & A3 & R3); auto.
      { rewrite Ac2 by assumption. exact A. } { rewrite Lo2. exact Lo. }
      { change (ins_of nd1) with (ins_of nd). destruct (le_lt_dec (S q) (length (ins_of nd))); [assumption|].
        assert (q = length (ins_of nd)) as -> by lia. rewrite skipn_all in Sk. discriminate. }
      rewrite E3. exists st3, (ks1 ++ ks2), lf3. split.
      { f_equal. f_equal. rewrite flat_map_app. f_equal.
        - apply closing_same. intros j Hj. unfold st1. cbn [q_net]. apply put_other. specialize (B2 j Hj). lia.
        - apply closing_same. intros j Hj. rewrite (f_node _ _ _ _ _ F2).
          + unfold st1. cbn [q_net]. apply put_other. specialize (B3 j Hj). lia.
          + intros Hj1. destruct (f_in _ _ _ _ _ F2 j Hj1) as [_ (l1 & L1 & A1)].
            destruct (f_in _ _ _ _ _ F3 j Hj) as [(l2 & L2 & A2) _]. congruence.
          + discriminate. }
      split; [exact I3|]. split.
      { change (ks1 ++ ks2) with (([] ++ ks1) ++ ks2).
        apply (fell_trans neq none (Some k) (k :: C) None st st2 st3 ([] ++ ks1) ks2 I2); [|exact F3].
        exact (fell_trans neq none (Some k) (k :: C) (Some p) st st1 st2 [] ks1 I1 F1 F2'). }
      split; [|auto]. intros j Hj. apply in_app_iff in Hj. destruct Hj as [Hj|Hj]; [specialize (B2 j Hj); lia|auto].
  Qed.

  Lemma close_derived dr k (st : lst) nd : nth_error (q_net st) k = Some nd -> n_def nd <> DVal ->
    close_with dr k st =
      let (s1, t1) := fire_l (q_life st) (length (q_net st) - k) (q_net st) k (n_val nd) in
      match leave dr k 0 (inputs_of (n_def nd)) (Ls s1 (q_life st)) with
      | (st2, t2, true) => (set_node k (fun nd => Node (n_def nd) none []) st2, EClose k :: fires t1 ++ t2, true)
      | (st2, t2, false) => (st2, EClose k :: fires t1 ++ t2, false)
      end.
  Proof. intros H N. unfold NetLife_Model.close_with. rewrite H. destruct (n_def nd); [congruence|reflexivity|reflexivity]. Qed.

  Lemma drop_all : forall fuel, drop_ok fuel.
  Proof.
    induction fuel as [|fuel IH]; intros st k C Hf Hk I HC; [lia|]. cbn [NetLife_Model.drop].
    destruct (nth_error (q_net st) k) as [nd|] eqn:Hn; [|apply nth_error_None in Hn; lia].
    destruct (both st (i_len _ _ _ I) k nd Hn) as [lf Hl]. rewrite Hl. pose proof (i_ok _ _ _ I k nd lf Hn Hl) as O.
    pose proof (nth_lt _ _ _ Hl) as Lk. pose proof (k_count _ _ _ _ _ _ O) as EC. cbn [pends] in EC. rewrite Nat.eqb_refl in EC.
    destruct (l_count lf) as [|c] eqn:Ec; [lia|].
    assert (Ac : l_active lf = true).
    { destruct (l_active lf) eqn:A; [reflexivity|]. pose proof (k_dead _ _ _ _ _ _ O A). lia. }
    assert (Us : l_used lf = true).
    { destruct (l_used lf) eqn:A; [reflexivity|]. pose proof (k_unused _ _ _ _ _ _ O A). lia. }
    assert (Lo : l_lost lf = false).
    { destruct (l_lost lf) eqn:A; [|reflexivity]. destruct (k_lost _ _ _ _ _ _ O A) as (_ & B & _). congruence. }
    pose proof (k_act _ _ _ _ _ _ O Ac) as R0. pose proof (k_gone _ _ _ _ _ _ O Lo) as G0.
    rewrite Ac. cbn [andb]. rewrite (set_life_eq k _ st lf Hl), (set_life_eq k _ st lf Hl).
    destruct (Nat.eqb_spec c 0) as [->|Nc].
    - (* closed *)
      set (lf1 := Life 0 false (l_ext lf) (l_used lf) (l_lost lf) (l_gone lf) (l_rel lf)).
      set (st1 := Ls (q_net st) (put k lf1 (q_life st))).
      assert (I1 : linv (k :: C) None st1).
      { unfold st1. apply (linv_life C (k :: C) (Some k) None st k nd lf lf1); auto; cbn [lf1 l_count l_active l_ext l_used l_lost l_gone l_rel pends]; try congruence.
        - intros j N. cbn [pends]. rewrite (proj2 (Nat.eqb_neq k j)) by congruence. reflexivity.
        - intros j _ HI. now right.
        - lia.
        - intros _ N. exfalso. apply N. now left. }
      assert (Hl1 : nth_error (q_life st1) k = Some lf1) by (unfold st1; cbn; now apply put_same).
      assert (FA : forall j, j <> k -> nth_error (q_life st1) j = nth_error (q_life st) j) by (intros; unfold st1; cbn [q_life]; now apply put_other).
      assert (OT : forall lf2, l_ext lf2 = l_ext lf1 -> l_used lf2 = l_used lf1 -> l_lost lf2 = l_lost lf1 -> l_count lf2 <= l_count lf1 ->
        l_ext lf2 = l_ext lf /\ l_used lf2 = l_used lf /\ l_lost lf2 = l_lost lf /\ l_count lf2 <= l_count lf)
        by (intros lf2; cbn; intros; repeat split; auto; lia).
      assert (DD : n_def nd = DVal \/ n_def nd <> DVal) by (destruct (n_def nd); auto; right; discriminate).
      destruct DD as [Ed|Ed].
      + (* a ValueStream *)
        unfold NetLife_Model.close_with. change (q_net st1) with (q_net st) at 1. rewrite Hn, Ed.
        exists st1, [k]. split; [unfold closing; cbn; rewrite Hn; destruct nd as [d x ins]; cbn in Ed; subst d; reflexivity|].
        split; [|split].
        * constructor; [apply (i_len _ _ _ I1)|]. intros j n g En Eg. pose proof (i_ok _ _ _ I1 j n g En Eg) as [O1 O2 O3 O4 O5 O6 O7 O8 O9 O10].
          constructor; auto. intros B N. destruct (Nat.eq_dec j k) as [->|Nj].
          -- change (q_net st1) with (q_net st) in En. rewrite Hn in En. injection En as <-. rewrite Hl1 in Eg. injection Eg as <-.
             unfold ins_of. rewrite Ed. cbn. exact R0.
          -- apply O4; auto. intros [E|E]; [congruence|contradiction].
        * constructor.
          -- constructor; [intros []|constructor].
          -- intros j [<-|[]]. split; [exists lf; split; [exact Hl|exact Ac]|]. exists lf1. split; [exact Hl1|reflexivity].
          -- unfold st1. cbn. now rewrite put_length.
          -- reflexivity.
          -- intros j g Eg. destruct (Nat.eq_dec j k) as [->|Nj].
             ++ rewrite Hl in Eg. injection Eg as <-. exists lf1. cbn. repeat split; auto; try lia; exfalso; apply H; now left.
             ++ rewrite FA by assumption. exists g. repeat split; auto.
          -- reflexivity.
          -- intros j [<-|[]]. split; [discriminate|]. change (q_net st1) with (q_net st). rewrite Hn. cbn. unfold shut. now rewrite Ed.
          -- intros [|y a] x b E j HI; injection E as -> E; [subst; destruct HI|destruct a; discriminate].
        * intros j [<-|[]]. lia.
      + (* another stream *)
        rewrite (close_derived (drop fuel) k st1 nd Hn Ed).
        change (length (q_net st1) - k) with (length (q_net st) - k).
        destruct (length (q_net st) - k) as [|m] eqn:Em; [lia|].
        rewrite (fire_nobody neq none (k :: C) None st1 k nd lf1 (n_val nd) m I1 Hn Hl1 eq_refl).
        change (Ls (q_net st1) (q_life st1)) with st1.
        destruct (leave_ok fuel IH (inputs_of (n_def nd)) 0 st1 C k nd lf1) as (st2 & ks & lf2 & E2 & I2 & F2 & B2 & El2 & A2 & R2); auto.
        { lia. } { lia. }
        rewrite E2.
        assert (Nk : ~ In k ks) by (intros Hj; specialize (B2 k Hj); lia).
        assert (Dk : exists nd2, nth_error (q_net st2) k = Some nd2 /\ n_def nd2 = n_def nd).
        { assert (E : nth_error (map n_def (q_net st2)) k = nth_error (map n_def (q_net st1)) k) by now rewrite (f_def _ _ _ _ _ F2).
          rewrite !nth_error_map in E. change (q_net st1) with (q_net st) in E. rewrite Hn in E.
          destruct (nth_error (q_net st2) k) as [nd2|]; cbn in E; [|discriminate]. injection E as E. eauto. }
        destruct Dk as (nd2 & En2 & Ed2). rewrite (set_node_eq k _ st2 nd2 En2).
        set (st3 := Ls (put k (Node (n_def nd2) none []) (q_net st2)) (q_life st2)).
        assert (Lk2 : k < length (q_net st2)) by (eapply nth_lt; eauto).
        assert (I3 : linv C None st3).
        { pose proof (i_ok _ _ _ I2 k nd2 lf2 En2 El2) as [O1 O2 O3 O4 O5 O6 O7 O8 O9 O10].
          unfold st3. rewrite <- (put_id lf2 (q_life st2) k El2). apply (linv_put (k :: C) C None None st2 k nd2 _ lf2 lf2); auto.
          - intros j N [E|E]; [congruence|exact E].
          - intros _ _. assert (EI : ins_of nd2 = ins_of nd) by (unfold ins_of; now rewrite Ed2). rewrite EI.
            exact R2. }
        exists st3, (k :: ks). split; [|split; [exact I3|split]].
        * cbn [fires map flat_map app fst snd]. f_equal. f_equal. unfold closing at 2. rewrite Hn.
          destruct nd as [d x ins]. cbn [n_def n_val] in *. destruct d; [congruence| |]; cbn [app]; f_equal; f_equal; apply closing_same; reflexivity.
        * constructor.
          -- constructor; [exact Nk|apply (f_nodup _ _ _ _ _ F2)].
          -- intros j [<-|Hj].
             ++ split; [exists lf; split; [exact Hl|exact Ac]|]. exists lf2. split; [exact El2|exact A2].
             ++ destruct (f_in _ _ _ _ _ F2 j Hj) as [(l1 & L1 & A1) Cl]. split; [|exact Cl].
                exists l1. split; [|exact A1]. unfold life_of in *. rewrite FA in L1; [exact L1|]. intros ->. contradiction.
          -- unfold st3. cbn [q_life]. rewrite (f_len _ _ _ _ _ F2). unfold st1. cbn. now rewrite put_length.
          -- unfold st3. cbn [q_net]. erewrite (put_map n_def) by (try exact En2; reflexivity). apply (f_def _ _ _ _ _ F2).
          -- intros j g Eg. destruct (Nat.eq_dec j k) as [->|Nj].
             ++ rewrite Hl in Eg. injection Eg as <-. destruct (f_life _ _ _ _ _ F2 k lf1 Hl1) as (lf2' & El2' & a1 & a2 & a3 & a4 & _ & _).
                exists lf2'. destruct (OT lf2' a1 a2 a3 a4) as (b1 & b2 & b3 & b4). split; [exact El2'|]. repeat (split; [assumption|]). split; intros N; exfalso; apply N; now left.
             ++ rewrite <- FA in Eg by assumption. destruct (f_life _ _ _ _ _ F2 j g Eg) as (g' & Eg' & a1 & a2 & a3 & a4 & a5 & a6).
                exists g'. split; [exact Eg'|]. repeat (split; [assumption|]). split.
                ** intros N. apply a5. intros HI. apply N. now right.
                ** intros N _. apply a6; [intros HI; apply N; now right|congruence].
          -- intros j N _. unfold st3. cbn [q_net]. rewrite put_other by (intros ->; apply N; now left).
             rewrite (f_node _ _ _ _ _ F2); [reflexivity|intros HI; apply N; now right|intros E; injection E as ->; apply N; now left].
          -- intros j Hj. split; [discriminate|]. destruct Hj as [<-|Hj].
             ++ unfold st3. cbn [q_net]. rewrite put_same by assumption. rewrite Hn. cbn. f_equal. unfold shut. rewrite Ed2.
                destruct (n_def nd); [congruence|reflexivity|reflexivity].
             ++ assert (j <> k) by (intros ->; contradiction). unfold st3. cbn [q_net]. rewrite put_other by assumption.
                apply (f_shut _ _ _ _ _ F2 j Hj).
          -- intros [|y a] x b E j HI; injection E as -> E.
             ++ subst b. specialize (B2 j HI). intros HK. (* inputs come first *)
                rewrite inputs_ins in HK. destruct (nth_error (q_net st) j) as [nj|] eqn:Ej; [|destruct HK].
                destruct (both st (i_len _ _ _ I) j nj Ej) as [lj Elj].
                pose proof (k_wf _ _ _ _ _ _ (i_ok _ _ _ I j nj lj Ej Elj) x HK). lia.
             ++ apply (f_order _ _ _ _ _ F2 a x b E j HI).
        * intros j [<-|Hj]; [lia|]. specialize (B2 j Hj). lia.
    - (* others still have references *)
      set (lf1 := Life c (l_active lf) (l_ext lf) (l_used lf) (l_lost lf) (l_gone lf) (l_rel lf)).
      exists (Ls (q_net st) (put k lf1 (q_life st))), []. split; [reflexivity|]. split; [|split].
      + apply (linv_life C C (Some k) None st k nd lf lf1); auto; cbn [lf1 l_count l_active l_ext l_used l_lost l_gone l_rel pends]; try congruence; try lia.
        intros j N. cbn [pends]. rewrite (proj2 (Nat.eqb_neq k j)) by congruence. reflexivity.
      + constructor; try (intros; contradiction); try constructor; cbn [q_net q_life].
        * now rewrite put_length.
        * intros j g Eg. destruct (Nat.eq_dec j k) as [->|N].
          -- rewrite put_same by assumption. rewrite Hl in Eg. injection Eg as <-. exists lf1. cbn. repeat split; auto; lia.
          -- rewrite put_other by assumption. exists g. repeat split; auto.
        * intros [|y a] x b E; discriminate.
      + intros j [].
  Qed.
End NetLifeProofs2.
