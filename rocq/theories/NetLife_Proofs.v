From Coq Require Import List Arith Bool Lia.
From Verif Require Import PyBase Net_Model Net_Spec Net_Proofs NetLife_Model NetLife_Spec.
Import ListNotations.

Section NetLifeProofs.
  Context {V : Type}.
  Variable neq : V -> V -> bool.
  Variable none : V.
  Local Notation net := (net V).
  Local Notation lst := (lst V).
  Local Notation node := (node V).
  Local Notation fire_l := (fire_l neq).
  Local Notation drop := (drop neq none).
  Local Notation leave := (leave none).
  Local Notation close_with := (close_with neq none).

  Definition ins_of (nd : node) : list nat := inputs_of (n_def nd).
  Definition occ (l : list nat) (k : nat) : nat := count_occ Nat.eq_dec l k.
  (** references to [k] that a stream still has *)
  Definition hold1 (k : nat) (nd : node) (lf : life) : nat := occ (skipn (l_rel lf) (ins_of nd)) k.
  Fixpoint held (k : nat) (s : net) (ls : list life) : nat :=
    match s, ls with
    | nd :: s', lf :: ls' => hold1 k nd lf + held k s' ls'
    | _, _ => 0
    end.

  Lemma held_put k : forall (s : net) ls j nd nd' lf lf',
    nth_error s j = Some nd -> nth_error ls j = Some lf -> n_def nd' = n_def nd ->
    held k (put j nd' s) (put j lf' ls) + hold1 k nd lf = held k s ls + hold1 k nd lf'.
  Proof.
    induction s as [|n s IH]; intros [|l ls] [|j] nd nd' lf lf' H1 H2 E; cbn in *; try discriminate.
    - injection H1 as ->. injection H2 as ->. unfold hold1, ins_of. rewrite E. lia.
    - specialize (IH ls j nd nd' lf lf' H1 H2 E). lia.
  Qed.
  Lemma held_defs k : forall (s s' : net) ls, map n_def s = map n_def s' -> held k s ls = held k s' ls.
  Proof.
    induction s as [|n s IH]; intros [|n' s'] ls H; cbn in *; try discriminate; auto.
    destruct ls as [|l ls]; auto. injection H as H1 H2. rewrite (IH s' ls H2). unfold hold1, ins_of. now rewrite H1.
  Qed.
  Lemma held_rel k : forall (s : net) ls ls', map l_rel ls = map l_rel ls' -> held k s ls = held k s ls'.
  Proof.
    induction s as [|n s IH]; intros [|l ls] [|l' ls'] H; cbn in *; try discriminate; auto.
    injection H as H1 H2. rewrite (IH ls ls' H2). unfold hold1. now rewrite H1.
  Qed.
  Lemma held_snoc k nd lf : forall (s : net) ls, length ls = length s ->
    held k (s ++ [nd]) (ls ++ [lf]) = held k s ls + hold1 k nd lf.
  Proof.
    induction s as [|n s IH]; intros [|l ls] H; cbn in *; try discriminate; [lia|].
    rewrite IH by congruence. lia.
  Qed.
  Lemma held_in k : forall (s : net) ls j nd lf, nth_error s j = Some nd -> nth_error ls j = Some lf ->
    In k (skipn (l_rel lf) (ins_of nd)) -> 0 < held k s ls.
  Proof.
    induction s as [|n s IH]; intros [|l ls] [|j] nd lf H1 H2 HI; cbn in *; try discriminate.
    - injection H1 as ->. injection H2 as ->. unfold hold1. apply (count_occ_In Nat.eq_dec) in HI. unfold occ. lia.
    - specialize (IH ls j nd lf H1 H2 HI). lia.
  Qed.
  Lemma held_pos k : forall (s : net) ls, 0 < held k s ls -> exists j nd lf,
    nth_error s j = Some nd /\ nth_error ls j = Some lf /\ In k (skipn (l_rel lf) (ins_of nd)).
  Proof.
    induction s as [|n s IH]; intros [|l ls] H; cbn in *; try lia.
    destruct (hold1 k n l) as [|m] eqn:E.
    - destruct (IH ls H) as (j & nd & lf & A). exists (S j), nd, lf. exact A.
    - exists 0, n, l. repeat split; auto. apply (count_occ_In Nat.eq_dec). unfold hold1, occ in E. lia.
  Qed.

  (** ** the invariant, while the streams of [C] are being closed and the reference [pend] is about to be taken off its count *)
  Definition pends (pend : option nat) (k : nat) : nat :=
    match pend with Some i => if i =? k then 1 else 0 | None => 0 end.
  Record ok1 (C : list nat) (pend : option nat) (st : lst) (k : nat) (nd : node) (lf : life) : Prop := {
    k_wf : forall p, In p (ins_of nd) -> p < k;
    k_count : l_count lf = l_ext lf + held k (q_net st) (q_life st) + pends pend k;
    k_dead : l_active lf = false -> l_count lf = 0;
    k_rel : l_active lf = false -> ~ In k C -> l_rel lf = length (ins_of nd);
    k_act : l_active lf = true -> l_rel lf = 0;
    k_gone : l_lost lf = false -> l_gone lf = l_rel lf;
    k_lost : l_lost lf = true -> l_ext lf = 0 /\ l_used lf = false /\ l_active lf = true;
    k_unused : l_used lf = false -> l_count lf = 0;
    k_used : l_active lf = true -> l_used lf = true -> 0 < l_count lf;
    k_du : l_active lf = false -> l_used lf = true }.
  Record linv (C : list nat) (pend : option nat) (st : lst) : Prop := {
    i_len : length (q_life st) = length (q_net st);
    i_ok : forall k nd lf, nth_error (q_net st) k = Some nd -> nth_error (q_life st) k = Some lf -> ok1 C pend st k nd lf }.

  Lemma both (st : lst) : length (q_life st) = length (q_net st) -> forall k nd, nth_error (q_net st) k = Some nd ->
    exists lf, nth_error (q_life st) k = Some lf.
  Proof.
    intros L k nd H. apply nth_lt in H. destruct (nth_error (q_life st) k) as [lf|] eqn:E; [eauto|].
    apply nth_error_None in E. lia.
  Qed.
  Lemma both' (st : lst) : length (q_life st) = length (q_net st) -> forall k lf, nth_error (q_life st) k = Some lf ->
    exists nd, nth_error (q_net st) k = Some nd.
  Proof.
    intros L k lf H. apply nth_lt in H. destruct (nth_error (q_net st) k) as [nd|] eqn:E; [eauto|].
    apply nth_error_None in E. lia.
  Qed.

  (** a stream somebody has a reference to is alive *)
  Lemma holder_alive C pend st j ndj lfj k lf : linv C pend st ->
    nth_error (q_net st) j = Some ndj -> nth_error (q_life st) j = Some lfj -> In k (skipn (l_rel lfj) (ins_of ndj)) ->
    nth_error (q_life st) k = Some lf -> l_active lf = true /\ 0 < l_count lf.
  Proof.
    intros [L I] H1 H2 HI Hk. destruct (both' st L k lf Hk) as [nd Hn]. pose proof (I k nd lf Hn Hk) as O.
    pose proof (held_in k _ _ _ _ _ H1 H2 HI) as P. pose proof (k_count _ _ _ _ _ _ O) as E.
    assert (0 < l_count lf) by lia. split; [|assumption]. destruct (l_active lf) eqn:A; [reflexivity|].
    pose proof (k_dead _ _ _ _ _ _ O A). lia.
  Qed.

  (** ** firing a stream nobody listens to *)
  Lemma slot_input i q (d : ndef V) : In q (slots i d) -> nth_error (inputs_of d) q = Some i.
  Proof.
    destruct d as [|p f|l f]; cbn; [tauto| |].
    - destruct (p =? i) eqn:E; [|intros []]. apply Nat.eqb_eq in E. subst. intros [<-|[]]. reflexivity.
    - intros H. apply positions_in in H. rewrite Nat.sub_0_r in H. apply H.
  Qed.
  Lemma skipn_nth {X} (l : list X) q n x : nth_error l q = Some x -> n <= q -> In x (skipn n l).
  Proof.
    revert q n. induction l as [|y l IH]; intros [|q] [|n] H L; cbn in *; try discriminate; try lia.
    - injection H as ->. now left.
    - right. eapply nth_error_In; eauto.
    - apply (IH q n); [assumption|lia].
  Qed.
  Lemma listens_holds C pend st i j q : linv C pend st -> In (j, q) (filter (listens (q_life st)) (subs (q_net st) i)) ->
    exists nd lf, nth_error (q_net st) j = Some nd /\ nth_error (q_life st) j = Some lf /\ In i (skipn (l_rel lf) (ins_of nd)).
  Proof.
    intros [L I] H. apply filter_In in H. destruct H as [H1 H2]. apply subs_in in H1. destruct H1 as (nd & E & Hs).
    unfold listens in H2. cbn [fst snd] in H2. destruct (nth_error (q_life st) j) as [lf|] eqn:El; [|discriminate].
    apply Nat.leb_le in H2. apply slot_input in Hs. exists nd, lf. repeat split; auto.
    pose proof (I j nd lf E El) as O. apply (skipn_nth _ q); [exact Hs|]. destruct (l_lost lf) eqn:Lo.
    - destruct (k_lost _ _ _ _ _ _ O Lo) as (_ & _ & A). rewrite (k_act _ _ _ _ _ _ O A). lia.
    - rewrite <- (k_gone _ _ _ _ _ _ O Lo). exact H2.
  Qed.
  Lemma fire_nobody C pend st i nd lf v fuel : linv C pend st ->
    nth_error (q_net st) i = Some nd -> nth_error (q_life st) i = Some lf -> l_active lf = false ->
    fire_l (q_life st) (S fuel) (q_net st) i v = (q_net st, [(i, v)]).
  Proof.
    intros I Hn Hl A. cbn. destruct (filter (listens (q_life st)) (subs (q_net st) i)) as [|[j q] r] eqn:E; [reflexivity|].
    exfalso. destruct (listens_holds C pend st i j q I) as (nj & lj & E1 & E2 & HI); [rewrite E; now left|].
    destruct (holder_alive C pend st j nj lj i lf I E1 E2 HI Hl) as [A' _]. congruence.
  Qed.

  (** ** what giving up a reference does *)
  Definition shut (nd : node) : node := match n_def nd with DVal => nd | d => Node d none [] end.
  Definition same_but_count (a b : life) : Prop :=
    l_active a = l_active b /\ l_ext a = l_ext b /\ l_used a = l_used b /\ l_lost a = l_lost b /\ l_gone a = l_gone b /\ l_rel a = l_rel b.
  (** [x]: a stream being closed, whose node and positions change *)
  Record fell (x : option nat) (st st' : lst) (ks : list nat) : Prop := {
    f_nodup : NoDup ks;
    f_in : forall j, In j ks -> alive st j /\ closed st' j;
    f_len : length (q_life st') = length (q_life st);
    f_def : map n_def (q_net st') = map n_def (q_net st);
    f_life : forall j lf, nth_error (q_life st) j = Some lf -> exists lf', nth_error (q_life st') j = Some lf' /\
      l_ext lf' = l_ext lf /\ l_used lf' = l_used lf /\ l_lost lf' = l_lost lf /\ l_count lf' <= l_count lf /\
      (~ In j ks -> l_active lf' = l_active lf) /\ (~ In j ks -> x <> Some j -> same_but_count lf' lf);
    f_node : forall j, ~ In j ks -> x <> Some j -> nth_error (q_net st') j = nth_error (q_net st) j;
    f_shut : forall j, In j ks -> x <> Some j /\ nth_error (q_net st') j = option_map shut (nth_error (q_net st) j);
    f_order : forall a k b, ks = a ++ k :: b -> forall j, In j b -> ~ In k (inputs (q_net st) j) }.

  Lemma fell_refl x st : fell x st st [].
  Proof.
    constructor; auto; try (intros; contradiction); try constructor.
    - intros j lf H. exists lf. repeat split; auto.
    - intros [|y a] k b E; discriminate.
  Qed.
  Lemma inputs_ins (s : net) j : inputs s j = match nth_error s j with Some nd => ins_of nd | None => [] end.
  Proof. unfold inputs, ins_of. destruct (nth_error s j) as [[[] ? ?]|]; reflexivity. Qed.
  Lemma inputs_same (s s' : net) j : map n_def s = map n_def s' -> inputs s j = inputs s' j.
  Proof.
    intros H. rewrite !inputs_ins. assert (E : nth_error (map n_def s) j = nth_error (map n_def s') j) by now rewrite H.
    rewrite !nth_error_map in E. unfold ins_of. destruct (nth_error s j), (nth_error s' j); cbn in E; congruence.
  Qed.

  Lemma fell_weaken x st st' ks : (forall j, In j ks -> x <> Some j) -> fell None st st' ks -> fell x st st' ks.
  Proof.
    intros N F. destruct F as [F1 F2 F3 F4 F5 F6 F7 F8]. constructor; auto.
    - intros j lf H. destruct (F5 j lf H) as (lf' & A1 & A2 & A3 & A4 & A5 & A6 & A7). exists lf'. repeat split; auto;
        apply A7; auto; discriminate.
    - intros j H _. apply F6; [assumption|discriminate].
    - intros j H. split; [apply N; assumption|]. now apply F7.
  Qed.

  Lemma split_app {X} (a1 a2 b1 b2 : list X) x : a1 ++ a2 = b1 ++ x :: b2 ->
    (exists r, a1 = b1 ++ x :: r /\ b2 = r ++ a2) \/ (exists r, b1 = a1 ++ r /\ a2 = r ++ x :: b2).
  Proof.
    revert b1. induction a1 as [|y a1 IH]; intros b1 H; cbn in H.
    - right. exists b1. split; auto.
    - destruct b1 as [|z b1]; cbn in H; injection H as -> H.
      + left. exists a1. split; auto.
      + destruct (IH b1 H) as [(r & -> & ->)|(r & -> & ->)]; [left|right]; exists r; auto.
  Qed.

  Lemma fell_trans x C pend st1 st2 st3 k1 k2 : linv C pend st2 ->
    fell x st1 st2 k1 -> fell x st2 st3 k2 -> fell x st1 st3 (k1 ++ k2).
  Proof.
    intros I F G.
    assert (D : forall j, In j k1 -> In j k2 -> False).
    { intros j A B. destruct (f_in _ _ _ _ F j A) as [_ (l1 & E1 & A1)]. destruct (f_in _ _ _ _ G j B) as [(l2 & E2 & A2) _]. congruence. }
    assert (Al : forall j, In j k2 -> alive st1 j).
    { intros j B. destruct (f_in _ _ _ _ G j B) as [(l2 & E2 & A2) _]. unfold life_of in E2.
      pose proof (nth_lt _ _ _ E2) as L. rewrite (f_len _ _ _ _ F) in L.
      destruct (nth_error (q_life st1) j) as [l1|] eqn:E1; [|apply nth_error_None in E1; lia].
      destruct (f_life _ _ _ _ F j l1 E1) as (l2' & E2' & _ & _ & _ & _ & A & _). rewrite E2 in E2'. injection E2' as <-.
      exists l1. split; [exact E1|]. rewrite <- A; [exact A2|]. intros HI. exact (D j HI B). }
    constructor.
    - revert D. generalize (f_nodup _ _ _ _ F) (f_nodup _ _ _ _ G). clear. induction k1 as [|y k1 IH]; intros N1 N2 D; cbn; auto.
      inversion N1; subst. constructor.
      + rewrite in_app_iff. intros [HI|HI]; [auto|]. apply (D y); [now left|assumption].
      + apply IH; auto. intros j A B. apply (D j); [now right|assumption].
    - intros j HI. apply in_app_iff in HI. destruct HI as [HI|HI].
      + split; [apply (f_in _ _ _ _ F j HI)|]. destruct (f_in _ _ _ _ F j HI) as [_ (l2 & E2 & A2)].
        destruct (f_life _ _ _ _ G j l2 E2) as (l3 & E3 & _ & _ & _ & _ & A & _). exists l3. split; [exact E3|].
        rewrite A; [exact A2|]. intros B. exact (D j HI B).
      + split; [now apply Al|]. apply (f_in _ _ _ _ G j HI).
    - rewrite (f_len _ _ _ _ G). apply (f_len _ _ _ _ F).
    - rewrite (f_def _ _ _ _ G). apply (f_def _ _ _ _ F).
    - intros j l1 E1. destruct (f_life _ _ _ _ F j l1 E1) as (l2 & E2 & A2 & A3 & A4 & A5 & A6 & A7).
      destruct (f_life _ _ _ _ G j l2 E2) as (l3 & E3 & B2 & B3 & B4 & B5 & B6 & B7). exists l3.
      rewrite in_app_iff. split; [exact E3|]. split; [congruence|]. split; [congruence|]. split; [congruence|]. split; [lia|].
      split; [intros N; rewrite B6, A6 by tauto; reflexivity|]. intros N X.
      assert (N1 : ~ In j k1) by tauto. assert (N2 : ~ In j k2) by tauto.
      destruct (A7 N1 X) as (a1 & a2 & a3 & a4 & a5 & a6). destruct (B7 N2 X) as (b1 & b2 & b3 & b4 & b5 & b6).
      repeat split; congruence.
    - intros j N X. rewrite in_app_iff in N. rewrite (f_node _ _ _ _ G), (f_node _ _ _ _ F) by tauto. reflexivity.
    - intros j HI. apply in_app_iff in HI. destruct HI as [HI|HI].
      + destruct (f_shut _ _ _ _ F j HI) as [X E]. split; [exact X|]. rewrite (f_node _ _ _ _ G); auto. intros B. exact (D j HI B).
      + destruct (f_shut _ _ _ _ G j HI) as [X E]. split; [exact X|]. rewrite E. f_equal. apply (f_node _ _ _ _ F); auto.
        intros B. exact (D j B HI).
    - intros a k b E j HI. apply split_app in E. destruct E as [(r & -> & ->)|(r & -> & E2)].
      + apply in_app_iff in HI. destruct HI as [HI|HI]; [now apply (f_order _ _ _ _ F a k r eq_refl)|].
        intros HK. (* j is alive in st2 and has a reference to k, which is closed *)
        destruct (f_in _ _ _ _ G j HI) as [(l2 & E2 & A2) _]. unfold life_of in E2.
        destruct (both' st2 (i_len _ _ _ I) j l2 E2) as [nd En]. pose proof (i_ok _ _ _ I j nd l2 En E2) as O.
        destruct (f_in _ _ _ _ F k) as [_ (lk & Ek & Ak)]; [apply in_app_iff; right; now left|].
        destruct (holder_alive C pend st2 j nd l2 k lk I En E2) as [B _]; [|exact Ek|congruence].
        rewrite (k_act _ _ _ _ _ _ O A2). cbn. rewrite (inputs_same (q_net st1) (q_net st2) j) in HK by (symmetry; apply (f_def _ _ _ _ F)).
        rewrite inputs_ins, En in HK. exact HK.
      + rewrite (inputs_same (q_net st1) (q_net st2) j) by (symmetry; apply (f_def _ _ _ _ F)).
        apply (f_order _ _ _ _ G r k b E2 j HI).
  Qed.
End NetLifeProofs.
