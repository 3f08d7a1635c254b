From Coq Require Import List Arith Bool Lia Sorted.
From Verif Require Import PyBase Net_Model Net_Spec.
Import ListNotations.

Section NetProofs.
  Context {V : Type}.
  Local Notation net := (net V).

  (** ** replacing *)
  Lemma put_length {X} (x : X) : forall l j, length (put j x l) = length l.
  Proof. induction l as [|y l IH]; intros [|j]; cbn; auto. Qed.
  Lemma put_same {X} (x : X) : forall l j, j < length l -> nth_error (put j x l) j = Some x.
  Proof. induction l as [|y l IH]; intros [|j] H; cbn in *; auto; try lia; apply IH; lia. Qed.
  Lemma put_other {X} (x : X) : forall l j k, k <> j -> nth_error (put j x l) k = nth_error l k.
  Proof. induction l as [|y l IH]; intros [|j] [|k] H; cbn; auto; congruence. Qed.
  Lemma put_map {X Y} (g : X -> Y) (x : X) : forall l j y, nth_error l j = Some y -> g x = g y ->
    map g (put j x l) = map g l.
  Proof.
    induction l as [|z l IH]; intros [|j] y H E; cbn in *; try discriminate.
    - injection H as ->. now rewrite E.
    - f_equal. eauto.
  Qed.
  Lemma nth_lt {X} (l : list X) j x : nth_error l j = Some x -> j < length l.
  Proof. intros H. apply nth_error_Some. congruence. Qed.

  (** ** listeners *)
  Lemma positions_in i : forall l p q, In q (positions i p l) <-> p <= q /\ nth_error l (q - p) = Some i.
  Proof.
    induction l as [|x l IH]; intros p q; cbn.
    - split; [tauto|]. intros [_ H]. destruct (q - p); discriminate.
    - destruct (x =? i) eqn:E.
      + apply Nat.eqb_eq in E. subst x. cbn. rewrite IH. split.
        * intros [->|[H1 H2]]; [rewrite Nat.sub_diag; auto|]. split; [lia|].
          replace (q - p) with (S (q - S p)) by lia. exact H2.
        * intros [H1 H2]. destruct (q - p) as [|m] eqn:E.
          -- left. lia.
          -- right. cbn in H2. replace (q - S p) with m by lia. split; [lia|exact H2].
      + rewrite IH. split.
        * intros [H1 H2]. split; [lia|]. replace (q - p) with (S (q - S p)) by lia. exact H2.
        * intros [H1 H2]. destruct (q - p) as [|m] eqn:F.
          -- cbn in H2. apply Nat.eqb_neq in E. congruence.
          -- cbn in H2. replace (q - S p) with m by lia. split; [lia|exact H2].
  Qed.

  Lemma subs_from_in i : forall (s : net) j0 j q,
    In (j, q) (subs_from i j0 s) <-> j0 <= j /\ exists nd, nth_error s (j - j0) = Some nd /\ In q (slots i (n_def nd)).
  Proof.
    induction s as [|nd s IH]; intros j0 j q; cbn.
    - split; [tauto|]. intros [_ (nd & H & _)]. destruct (j - j0); discriminate.
    - rewrite in_app_iff, IH, in_map_iff. split.
      + intros [(x & E & Hx)|(H & nd' & H1 & H2)].
        * injection E as -> ->. split; [lia|]. exists nd. rewrite Nat.sub_diag. auto.
        * split; [lia|]. exists nd'. replace (j - j0) with (S (j - S j0)) by lia. auto.
      + intros (H & nd' & H1 & H2). destruct (j - j0) as [|m] eqn:E.
        * left. cbn in H1. injection H1 as ->. exists q. split; [|exact H2]. f_equal. lia.
        * right. split; [lia|]. exists nd'. cbn in H1. replace (j - S j0) with m by lia. auto.
  Qed.
  Lemma subs_in (s : net) i j q :
    In (j, q) (subs s i) <-> exists nd, nth_error s j = Some nd /\ In q (slots i (n_def nd)).
  Proof. unfold subs. rewrite subs_from_in, Nat.sub_0_r. split; [intros [_ H]; exact H|]. split; [lia|assumption]. Qed.

  Lemma subs_from_defs i : forall (s s' : net) j, map n_def s = map n_def s' -> subs_from i j s = subs_from i j s'.
  Proof.
    induction s as [|nd s IH]; intros [|nd' s'] j H; cbn in *; try discriminate; auto.
    injection H as H1 H2. rewrite H1. f_equal. auto.
  Qed.
  Lemma subs_defs (s s' : net) i : map n_def s = map n_def s' -> subs s i = subs s' i.
  Proof. apply subs_from_defs. Qed.

  Definition le1 (a b : nat * nat) : Prop := fst a <= fst b.
  Lemma same_sorted j (l : list nat) (r : list (nat * nat)) :
    StronglySorted le1 r -> (forall e, In e r -> j <= fst e) -> StronglySorted le1 (map (pair j) l ++ r).
  Proof.
    intros Hr Hj. induction l as [|x l IH]; cbn; [exact Hr|]. constructor; [exact IH|].
    apply Forall_forall. intros e He. apply in_app_or in He. destruct He as [He|He].
    - apply in_map_iff in He. destruct He as (y & <- & _). unfold le1. cbn. lia.
    - unfold le1. cbn. auto.
  Qed.
  Lemma subs_from_sorted i : forall (s : net) j, StronglySorted le1 (subs_from i j s).
  Proof.
    induction s as [|nd s IH]; intros j; cbn; [constructor|]. apply same_sorted; [apply IH|].
    intros [a b] H. apply subs_from_in in H. cbn. lia.
  Qed.

  (** ** well formed networks: inputs come first *)
  Definition wf1 (j : nat) (nd : node V) : Prop :=
    match n_def nd with
    | DVal => True
    | DMap i _ => i < j
    | DComb l _ => (forall i, In i l -> i < j) /\ length (n_ins nd) = length l
    end.
  Definition wfn (s : net) : Prop := forall j nd, nth_error s j = Some nd -> wf1 j nd.
  Definition keeps (i : nat) (s s' : net) : Prop :=
    map n_def s' = map n_def s /\ forall j, j <= i -> nth_error s' j = nth_error s j.
  Lemma keeps_refl i s : keeps i s s.
  Proof. split; auto. Qed.
  Lemma keeps_trans i j s1 s2 s3 : keeps i s1 s2 -> keeps j s2 s3 -> i <= j -> keeps i s1 s3.
  Proof. intros [A1 B1] [A2 B2] L. split; [congruence|]. intros m Hm. rewrite B2, B1; auto. lia. Qed.
  Lemma keeps_length i s s' : keeps i s s' -> length s' = length s.
  Proof. intros [H _]. rewrite <- (map_length n_def s'), H. apply map_length. Qed.

  Lemma slot_source (s : net) i j q : wfn s -> In (j, q) (subs s i) -> i < j.
  Proof.
    intros W H. apply subs_in in H. destruct H as (nd & H1 & H2). specialize (W j nd H1). unfold wf1 in W.
    destruct (n_def nd) as [|p f|l f]; cbn in H2; [contradiction| |].
    - destruct (p =? i) eqn:E; [|contradiction]. apply Nat.eqb_eq in E. now subst.
    - apply positions_in in H2. destruct W as [W _]. apply W. eapply nth_error_In. apply H2.
  Qed.

  Lemma put_keeps (s : net) j nd nd' i :
    nth_error s j = Some nd -> n_def nd' = n_def nd -> i < j -> keeps i s (put j nd' s).
  Proof.
    intros H E L. split.
    - eapply put_map; eauto.
    - intros m Hm. apply put_other. lia.
  Qed.
  Lemma put_wf (s : net) j nd' : wfn s -> wf1 j nd' -> wfn (put j nd' s).
  Proof.
    intros W H m nd Hm. destruct (Nat.eq_dec m j) as [->|N].
    - rewrite put_same in Hm; [now injection Hm as <-|]. apply nth_lt in Hm. now rewrite put_length in Hm.
    - rewrite put_other in Hm; auto.
  Qed.

  Variable neq : V -> V -> bool.
  Local Notation fire := (fire neq).
  Local Notation handle_with := (handle_with neq).

  Lemma handle_keeps (F : net -> nat -> V -> net * list (nat * V)) v s i j q :
    (forall s j w, wfn s -> wfn (fst (F s j w)) /\ keeps j s (fst (F s j w))) ->
    wfn s -> i < j ->
    wfn (fst (fst (handle_with F v s j q))) /\ keeps i s (fst (fst (handle_with F v s j q))).
  Proof.
    intros HF W L. unfold Net_Model.handle_with. destruct (nth_error s j) as [nd|] eqn:E; [|split; [auto|apply keeps_refl]].
    pose proof (W j nd E) as W1. unfold wf1 in W1. destruct nd as [d x ins]. cbn [n_def n_val n_ins] in *.
    destruct d as [|p f|l f]; [split; [auto|apply keeps_refl]| |].
    - destruct (f v) as [w|e]; [|split; [auto|apply keeps_refl]].
      destruct (neq w x); [|split; [auto|apply keeps_refl]].
      assert (W2 : wfn (put j (Node (DMap p f) w ins) s)) by (apply put_wf; auto).
      destruct (HF _ j w W2) as [A B].
      destruct (F (put j (Node (DMap p f) w ins) s) j w) as [s1 t1]. cbn in *. split; [exact A|].
      eapply keeps_trans; [|exact B|lia]. eapply put_keeps; eauto.
    - assert (W2 : forall w, wfn (put j (Node (DComb l f) w (put q v ins)) s)).
      { intros w. apply put_wf; auto. cbn. rewrite put_length. exact W1. }
      destruct (f (put q v ins)) as [w|e].
      + destruct (HF _ j w (W2 w)) as [A B].
        destruct (F (put j (Node (DComb l f) w (put q v ins)) s) j w) as [s1 t1]. cbn in *. split; [exact A|].
        eapply keeps_trans; [|exact B|lia]. eapply put_keeps; eauto.
      + cbn. split; [apply W2|]. eapply put_keeps; eauto.
  Qed.

  Lemma calls_keeps (H : net -> nat -> nat -> net * list (nat * V) * option exn) i :
    (forall s j q, wfn s -> i < j -> wfn (fst (fst (H s j q))) /\ keeps i s (fst (fst (H s j q)))) ->
    forall l s, wfn s -> (forall j q, In (j, q) l -> i < j) ->
    wfn (fst (calls H l s)) /\ keeps i s (fst (calls H l s)).
  Proof.
    intros HH. induction l as [|[j q] l IH]; intros s W HL; cbn; [split; [auto|apply keeps_refl]|].
    destruct (HH s j q W) as [A B]; [apply (HL j q); now left|].
    destruct (H s j q) as [[s1 t1] [e|]]; cbn in *; [auto|].
    destruct (IH s1 A) as [A2 B2]; [intros; apply (HL j0 q0); now right|].
    destruct (calls H l s1) as [s2 t2]. cbn in *. split; [exact A2|]. eapply keeps_trans; eauto.
  Qed.

  Lemma fire_keeps : forall fuel s i v, wfn s -> wfn (fst (fire fuel s i v)) /\ keeps i s (fst (fire fuel s i v)).
  Proof.
    induction fuel as [|fuel IH]; intros s i v W; cbn; [split; [auto|apply keeps_refl]|].
    pose proof (calls_keeps (handle_with (fire fuel) v) i) as C.
    specialize (C (fun s j q W L => handle_keeps (fire fuel) v s i j q IH W L) (subs s i) s W
                  (fun j q HI => slot_source s i j q W HI)).
    destruct (calls (handle_with (fire fuel) v) (subs s i) s) as [s1 t1]. exact C.
  Qed.

  (** ** consistency up to stream [k] *)
  Section Consistent.
    Variable k : nat.
    Hypothesis neq_eq : forall a b : V, neq a b = false -> a = b.

    Definition comb_ok (s : net) (j : nat) : Prop :=
      forall l f v ins, nth_error s j = Some (Node (DComb l f) v ins) -> f ins = Ok v.
    Definition edge_ok (s : net) (i j q : nat) : Prop :=
      forall nd ni, nth_error s j = Some nd -> nth_error s i = Some ni ->
      match n_def nd with
      | DVal => True
      | DMap _ f => f (n_val ni) = Ok (n_val nd)
      | DComb _ _ => nth_error (n_ins nd) q = Some (n_val ni)
      end.
    Definition okay (D : nat -> nat -> nat -> Prop) (s : net) : Prop :=
      (forall j, j <= k -> comb_ok s j) /\
      (forall i j q, j <= k -> In (j, q) (subs s i) -> ~ D i j q -> edge_ok s i j q).

    Lemma okay_weaken (D D' : nat -> nat -> nat -> Prop) s :
      wfn s -> okay D s -> (forall i j q, j <= k -> i < j -> D i j q -> In (j, q) (subs s i) -> D' i j q) -> okay D' s.
    Proof.
      intros W [A B] H. split; [exact A|]. intros i j q Hj Hs N. apply B; auto. intros HD. apply N.
      apply H; auto. eapply slot_source; eauto.
    Qed.

    Lemma okay_above D (s s' : net) j : wfn s -> k < j -> keeps (j - 1) s s' -> okay D s -> okay D s'.
    Proof.
      intros W L [E K] [A B]. split.
      - intros m Hm l f v ins. rewrite K by lia. now apply A.
      - intros a b q Hb Hs N. rewrite (subs_defs s' s a E) in Hs.
        pose proof (slot_source s a b q W Hs) as La.
        intros nd ni. rewrite !K by lia. apply (B a b q Hb Hs N).
    Qed.

    Lemma safe_keeps i s s' : keeps i s s' -> safe_to s k -> safe_to s' k.
    Proof.
      intros [E _] H j nd Hj Hn. assert (M : nth_error (map n_def s) j = Some (n_def nd))
        by (rewrite <- E; now apply map_nth_error).
      rewrite nth_error_map in M. destruct (nth_error s j) as [nd0|] eqn:F; [|discriminate].
      injection M as <-. now apply (H j).
    Qed.

    (** the state after stream [j], node [nd], has got value [w] and inputs [ins'] *)
    Lemma okay_put D (s : net) j nd w ins' :
      okay (fun a b q => D a b q \/ b = j) s -> nth_error s j = Some nd ->
      (forall l f, n_def nd = DComb l f -> j <= k -> f ins' = Ok w) ->
      (forall i q ni, j <= k -> In (j, q) (subs s i) -> nth_error s i = Some ni -> ~ D i j q ->
         match n_def nd with
         | DVal => True
         | DMap _ f => f (n_val ni) = Ok w
         | DComb _ _ => nth_error ins' q = Some (n_val ni)
         end) ->
      okay (fun a b q => D a b q \/ a = j) (put j (Node (n_def nd) w ins') s).
    Proof.
      intros [A B] E HC HE. pose proof (nth_lt _ _ _ E) as Lj. split.
      - intros m Hm l f v ins H. destruct (Nat.eq_dec m j) as [->|N].
        + rewrite put_same in H by assumption. injection H as H1 H2 H3. subst. eauto.
        + rewrite put_other in H by assumption. eapply A; eauto.
      - intros a b q Hb Hs ND nb na Hnb Hna.
        assert (Hs' : In (b, q) (subs s a)) by (rewrite <- (subs_defs (put j (Node (n_def nd) w ins') s) s a); [exact Hs|];
          eapply put_map; eauto).
        assert (Na : a <> j) by tauto. assert (Nd : ~ D a b q) by tauto.
        rewrite (put_other _ _ j a Na) in Hna.
        destruct (Nat.eq_dec b j) as [->|Nb].
        + rewrite put_same in Hnb by assumption. injection Hnb as <-. cbn [n_def n_val n_ins]. exact (HE a q na Hb Hs' Hna Nd).
        + rewrite put_other in Hnb by assumption. apply (B a b q Hb Hs'); auto. tauto.
    Qed.

    Definition fire_good (fuel : nat) : Prop := forall (s : net) i v ni D,
      wfn s -> safe_to s k -> length s - i <= fuel -> nth_error s i = Some ni -> n_val ni = v ->
      okay (fun a b q => D a b q \/ a = i) s -> okay D (fst (fire fuel s i v)).

    Lemma handle_okay fuel s i ni j q D :
      fire_good fuel -> wfn s -> safe_to s k -> length s - i <= S fuel -> In (j, q) (subs s i) ->
      nth_error s i = Some ni ->
      okay (fun a b r => D a b r \/ (a = i /\ b = j /\ r = q)) s ->
      let '(s', t, e) := handle_with (fire fuel) (n_val ni) s j q in
      match e with
      | None => okay D s'
      | Some _ => k < j /\ okay D s'
      end.
    Proof.
      intros HF W S L Hin Hi O. pose proof (slot_source s i j q W Hin) as Lij.
      destruct (le_lt_dec j k) as [Hjk|Hjk].
      - (* within the bound *)
        pose proof (proj1 (subs_in s i j q) Hin) as (nd & Hj & Hq).
        pose proof (nth_lt _ _ _ Hj) as Lj.
        pose proof (S j nd Hjk Hj) as SF. pose proof (W j nd Hj) as W1. unfold wf1 in W1.
        unfold Net_Model.handle_with. rewrite Hj.
        destruct nd as [d x ins]. cbn [n_def n_val n_ins] in *. destruct d as [|p f|l f].
        + cbn in Hq. contradiction.
        + cbn in Hq. destruct (p =? i) eqn:E; [|contradiction]. apply Nat.eqb_eq in E. subst p.
          destruct Hq as [<-|[]]. destruct (SF (n_val ni)) as (w & Ew). rewrite Ew.
          destruct (neq w x) eqn:N.
          * assert (O2 : okay (fun a b r => D a b r \/ a = j) (put j (Node (DMap i f) w ins) s)).
            { apply (okay_put D s j (Node (DMap i f) x ins)); auto.
              - eapply okay_weaken; [exact W|exact O|]. cbn. intuition.
              - cbn. discriminate.
              - cbn. intros a r na _ Hs Hna _. apply subs_in in Hs. destruct Hs as (nd' & E1 & E2). rewrite Hj in E1.
                injection E1 as <-. cbn in E2. destruct (i =? a) eqn:E; [|contradiction]. apply Nat.eqb_eq in E.
                subst a. rewrite Hi in Hna. injection Hna as <-. exact Ew. }
            assert (O3 : okay D (fst (fire fuel (put j (Node (DMap i f) w ins) s) j w))).
            { apply (HF _ j w (Node (DMap i f) w ins) D); [apply put_wf; auto| | | |reflexivity|exact O2].
              - eapply safe_keeps; [|exact S]. eapply (put_keeps s j _ _ i); eauto.
              - rewrite put_length. lia.
              - rewrite put_same by assumption. cbn. reflexivity. }
            destruct (fire fuel (put j (Node (DMap i f) w ins) s) j w) as [s1 t1]. exact O3.
          * apply neq_eq in N. subst w.
            destruct O as [A B]. split; [exact A|]. intros a b r Hb Hs ND.
            destruct (Nat.eq_dec b j) as [->|Nb].
            { intros nb na Hnb Hna. rewrite Hj in Hnb. injection Hnb as <-. cbn.
              apply subs_in in Hs. destruct Hs as (nd' & E1 & E2). rewrite Hj in E1.
              injection E1 as <-. cbn in E2. destruct (i =? a) eqn:E; [|contradiction]. apply Nat.eqb_eq in E.
              subst a. rewrite Hi in Hna. injection Hna as <-. exact Ew. }
            { apply B; auto. intros [X|(X1 & X2 & X3)]; [tauto|congruence]. }
        + cbn in Hq. apply positions_in in Hq. destruct Hq as [_ Hq]. rewrite Nat.sub_0_r in Hq.
          destruct W1 as [W1 W2]. pose proof (nth_lt _ _ _ Hq) as Lq.
          destruct (SF (put q (n_val ni) ins)) as (w & Ew). rewrite Ew.
          assert (O2 : okay (fun a b r => D a b r \/ a = j) (put j (Node (DComb l f) w (put q (n_val ni) ins)) s)).
          { apply (okay_put D s j (Node (DComb l f) x ins)); auto.
            - eapply okay_weaken; [exact W|exact O|]. cbn. intuition.
            - cbn. intros l' f' E _. injection E as <- <-. exact Ew.
            - cbn. intros a r na _ Hs Hna ND.
              destruct (Nat.eq_dec r q) as [->|Nr].
              + rewrite put_same by congruence. apply subs_in in Hs. destruct Hs as (nd' & E1 & E2).
                rewrite Hj in E1. injection E1 as <-. cbn in E2. apply positions_in in E2. destruct E2 as [_ E2].
                rewrite Nat.sub_0_r in E2. rewrite Hq in E2. injection E2 as <-. congruence.
              + rewrite put_other by assumption. destruct O as [_ B].
                apply (B a j r Hjk Hs) with (nd := Node (DComb l f) x ins); auto. intros [X|(X1 & X2 & X3)]; [tauto|congruence]. }
          assert (O3 : okay D (fst (fire fuel (put j (Node (DComb l f) w (put q (n_val ni) ins)) s) j w))).
          { apply (HF _ j w (Node (DComb l f) w (put q (n_val ni) ins)) D); [apply put_wf; auto; cbn; rewrite put_length; auto| | | |reflexivity|exact O2].
            - eapply safe_keeps; [|exact S]. eapply (put_keeps s j _ _ i); eauto.
            - rewrite put_length. lia.
            - rewrite put_same by assumption. cbn. reflexivity. }
          destruct (fire fuel (put j (Node (DComb l f) w (put q (n_val ni) ins)) s) j w) as [s1 t1]. exact O3.
      - (* above the bound nothing that matters changes *)
        destruct (handle_keeps (fire fuel) (n_val ni) s (j - 1) j q (fire_keeps fuel) W) as [W' K']; [lia|].
        destruct (handle_with (fire fuel) (n_val ni) s j q) as [[s' t] e] eqn:EH. cbn in W', K'.
        assert (O' : okay D s').
        { eapply (okay_above D s s' j); auto. eapply okay_weaken; [exact W|exact O|]. cbn. intros a b r Hb _ [X|(_ & X & _)] _; [exact X|lia]. }
        destruct e; auto.
    Qed.

    Lemma calls_okay fuel i ni D : fire_good fuel -> forall l s,
      wfn s -> safe_to s k -> length s - i <= S fuel -> nth_error s i = Some ni ->
      (forall e, In e l -> In e (subs s i)) -> StronglySorted le1 l ->
      okay (fun a b q => D a b q \/ (a = i /\ In (b, q) l)) s ->
      okay D (fst (calls (handle_with (fire fuel) (n_val ni)) l s)).
    Proof.
      intros HF. induction l as [|[j q] l IH]; intros s W S L Hi Hsub Hsort O; cbn [calls].
      - cbn. eapply okay_weaken; [exact W|exact O|]. cbn. intuition.
      - assert (Hin : In (j, q) (subs s i)) by (apply Hsub; now left).
        pose proof (slot_source s i j q W Hin) as Lij.
        pose proof (handle_okay fuel s i ni j q (fun a b r => D a b r \/ (a = i /\ In (b, r) l)) HF W S L Hin Hi) as HO.
        destruct (handle_keeps (fire fuel) (n_val ni) s i j q (fire_keeps fuel) W Lij) as [W' K'].
        destruct (handle_with (fire fuel) (n_val ni) s j q) as [[s1 t1] e] eqn:EH. cbn in W', K'.
        inversion Hsort as [|? ? Hs1 Hs2]; subst.
        assert (O1 : okay (fun a b r => (D a b r \/ (a = i /\ In (b, r) l)) \/ (a = i /\ b = j /\ r = q)) s).
        { eapply okay_weaken; [exact W|exact O|]. cbn. intros a b r _ _ [X|[X1 [X2|X2]]] _; [auto| |auto].
          injection X2 as -> ->. auto. }
        specialize (HO O1). destruct e as [e|].
        + destruct HO as [Lk HO]. cbn. eapply okay_weaken; [exact W'|exact HO|]. cbn.
          intros a b r Hb _ [X|[_ X]] _; [exact X|]. exfalso. rewrite Forall_forall in Hs2. specialize (Hs2 _ X).
          unfold le1 in Hs2. cbn in Hs2. lia.
        + specialize (IH s1 W' (safe_keeps _ _ _ K' S)).
          rewrite (keeps_length _ _ _ K') in IH. specialize (IH L). destruct K' as [KE KN].
          rewrite KN in IH by lia. specialize (IH Hi).
          rewrite (subs_defs s1 s i KE) in IH. specialize (IH (fun e He => Hsub e (or_intror He)) Hs1 HO).
          destruct (calls (handle_with (fire fuel) (n_val ni)) l s1) as [s2 t2]. exact IH.
    Qed.

    Lemma fire_okay : forall fuel, fire_good fuel.
    Proof.
      induction fuel as [|fuel IH]; intros s i v ni D W S L Hi <- O.
      - pose proof (nth_lt _ _ _ Hi). lia.
      - cbn [Net_Model.fire].
        pose proof (calls_okay fuel i ni D IH (subs s i) s W S L Hi (fun _ H => H) (subs_from_sorted i s 0)) as C.
        assert (O1 : okay (fun a b q => D a b q \/ (a = i /\ In (b, q) (subs s i))) s).
        { eapply okay_weaken; [exact W|exact O|]. cbn. intros a b q _ _ [X| ->] Hs; auto. }
        specialize (C O1). destruct (calls (handle_with (fire fuel) (n_val ni)) (subs s i) s) as [s1 t1]. exact C.
    Qed.
  End Consistent.

  (** ** the state after any history *)
  Variable none : V.
  Definition none_dirty : nat -> nat -> nat -> Prop := fun _ _ _ => False.
  Definition inv (s : net) : Prop := wfn s /\ forall k, safe_to s k -> okay k none_dirty s.

  Lemma nth_snoc {X} (l : list X) x j y : nth_error (l ++ [x]) j = Some y ->
    (j < length l /\ nth_error l j = Some y) \/ (j = length l /\ y = x).
  Proof.
    intros H. destruct (lt_eq_lt_dec j (length l)) as [[L|E]|L].
    - left. rewrite nth_error_app1 in H by assumption. auto.
    - right. subst j. rewrite nth_error_app2, Nat.sub_diag in H by lia. cbn in H. injection H as ->. auto.
    - exfalso. apply nth_lt in H. rewrite app_length in H. cbn in H. lia.
  Qed.

  Lemma inv_snoc (s : net) (nd : node V) : inv s -> wf1 (length s) nd ->
    (forall l f, n_def nd = DComb l f -> f (n_ins nd) = Ok (n_val nd)) ->
    (forall i q ni, In q (slots i (n_def nd)) -> nth_error s i = Some ni ->
       match n_def nd with
       | DVal => True
       | DMap _ f => f (n_val ni) = Ok (n_val nd)
       | DComb _ _ => nth_error (n_ins nd) q = Some (n_val ni)
       end) -> inv (s ++ [nd]).
  Proof.
    intros [W I] W1 HC HE.
    assert (W' : wfn (s ++ [nd])).
    { intros j x H. apply nth_snoc in H. destruct H as [[_ H]|[-> ->]]; auto. }
    split; [exact W'|]. intros k S.
    assert (S0 : safe_to s k).
    { intros j x Hj Hx. apply (S j x Hj). rewrite nth_error_app1; auto. now apply nth_lt in Hx. }
    destruct (I k S0) as [A B]. split.
    - intros j Hj l f v ins H. apply nth_snoc in H. destruct H as [[_ H]|[-> E]].
      + eapply A; eauto.
      + subst nd. cbn in HC. eauto.
    - intros a b q Hb Hs N nb na Hnb Hna.
      pose proof (slot_source _ _ _ _ W' Hs) as Lab.
      assert (Hna' : a < length s -> nth_error s a = Some na)
        by (intros; rewrite nth_error_app1 in Hna; auto).
      apply subs_in in Hs. destruct Hs as (x & Hx & Hq). rewrite Hnb in Hx. injection Hx as <-.
      apply nth_snoc in Hnb. destruct Hnb as [[Lb Hnb]|[-> ->]].
      + apply (B a b q Hb); auto. * apply subs_in. eauto. * apply Hna'. lia.
      + apply (HE a q); auto.
  Qed.

  Lemma values_of_nth (s : net) : forall l vs, values_of s l = Some vs -> length vs = length l /\
    (forall i, In i l -> i < length s) /\
    (forall i q ni, nth_error l q = Some i -> nth_error s i = Some ni -> nth_error vs q = Some (n_val ni)).
  Proof.
    induction l as [|i l IH]; intros vs H; cbn in H.
    - injection H as <-. repeat split; [intros ? []|]. intros i [|q] ni H; discriminate.
    - destruct (nth_error s i) as [nd|] eqn:E; [|discriminate]. destruct (values_of s l) as [vs'|]; [|discriminate].
      injection H as <-. destruct (IH vs' eq_refl) as (A & B & C). repeat split.
      + cbn. now rewrite A.
      + intros j [<-|Hj]; auto. now apply nth_lt in E.
      + intros j [|q] ni H Hn; cbn in *; [|eauto]. injection H as <-. congruence.
  Qed.

  Lemma inv_step (neq_eq : forall a b : V, neq a b = false -> a = b) s o : inv s -> inv (fst (n_step neq none s o)).
  Proof.
    intros I. destruct o as [v|i f|l f|i v]; cbn.
    - apply inv_snoc; auto; cbn; auto. discriminate.
    - destruct (nth_error s i) as [nd|] eqn:E; [|exact I]. destruct (f (n_val nd)) as [w|e] eqn:F; [|exact I].
      assert (G : forall w', w' = w -> inv (s ++ [Node (DMap i f) w' []])).
      { intros w' ->. apply inv_snoc; auto; cbn.
        - now apply nth_lt in E.
        - discriminate.
        - intros a q na H Hn. destruct (i =? a) eqn:Ea; [|contradiction]. apply Nat.eqb_eq in Ea. subst a. congruence. }
      destruct (neq w none) eqn:N; cbn; apply G; auto. symmetry. now apply neq_eq.
    - destruct (values_of s l) as [vs|] eqn:E; [|exact I]. destruct (f vs) as [w|e] eqn:F; [|exact I].
      destruct (values_of_nth s l vs E) as (A & B & C). cbn. apply inv_snoc; auto; cbn.
      + auto.
      + intros l' f' H. injection H as <- <-. exact F.
      + intros a q na H Hn. apply positions_in in H. destruct H as [_ H]. rewrite Nat.sub_0_r in H. eauto.
    - destruct (nth_error s i) as [[d x ins]|] eqn:E; [|exact I]. destruct d; try exact I.
      destruct (neq x v) eqn:N; [|exact I]. destruct I as [W I].
      assert (W2 : wfn (put i (Node DVal v ins) s)) by (apply put_wf; cbn; auto).
      destruct (fire_keeps (length s - i) (put i (Node DVal v ins) s) i v W2) as [W3 K3].
      split; [exact W3|]. intros k S. pose proof (nth_lt _ _ _ E) as Li.
      assert (KP : map n_def (put i (Node DVal v ins) s) = map n_def s) by (eapply put_map; eauto).
      assert (S2 : safe_to (put i (Node DVal v ins) s) k).
      { destruct K3 as [K3 _]. intros j nd Hj Hn. assert (M : nth_error (map n_def (put i (Node DVal v ins) s)) j = Some (n_def nd))
          by (now apply map_nth_error).
        rewrite <- K3, nth_error_map in M.
        destruct (nth_error (fst (fire (length s - i) (put i (Node DVal v ins) s) i v)) j) as [nd'|] eqn:G; [|discriminate].
        injection M as M. rewrite <- M. now apply (S j). }
      assert (S0 : safe_to s k).
      { intros j nd Hj Hn. assert (M : nth_error (map n_def s) j = Some (n_def nd)) by (now apply map_nth_error).
        rewrite <- KP, nth_error_map in M. destruct (nth_error (put i (Node DVal v ins) s) j) as [nd'|] eqn:G; [|discriminate].
        injection M as M. rewrite <- M. now apply (S2 j). }
      eapply (fire_okay k neq_eq (length s - i) _ i v (Node DVal v ins)); auto.
      + rewrite put_length. lia.
      + now apply put_same.
      + refine (okay_put k none_dirty s i (Node DVal x ins) v ins _ E _ _).
        * eapply okay_weaken; [exact W|exact (I k S0)|]. cbn. tauto.
        * cbn. discriminate.
        * cbn. auto.
  Qed.

  Lemma inv_new : inv [].
  Proof.
    split; [intros [|j] nd H; discriminate|]. intros k _. split.
    - intros [|j] _ l f v ins H; discriminate.
    - intros a b q _ [].
  Qed.

  Lemma inv_run (neq_eq : forall a b : V, neq a b = false -> a = b) : forall h s,
    inv s -> inv (fst (n_run neq none s h)).
  Proof.
    induction h as [|o h IH]; intros s I; [exact I|]. cbn [n_run].
    pose proof (inv_step neq_eq s o I) as I1. destruct (n_step neq none s o) as [s1 t1]. cbn in I1.
    pose proof (IH s1 I1) as I2. destruct (n_run neq none s1 h) as [s2 t2]. exact I2.
  Qed.

  Lemma wf_step s o : wfn s -> wfn (fst (n_step neq none s o)).
  Proof.
    assert (G : forall s nd, wfn s -> wf1 (length s) nd -> wfn (s ++ [nd])).
    { intros s' nd W W1 j x H. apply nth_snoc in H. destruct H as [[_ H]|[-> ->]]; auto. }
    intros W. destruct o as [v|i f|l f|i v]; cbn.
    - apply G; cbn; auto.
    - destruct (nth_error s i) as [nd|] eqn:E; [|exact W]. destruct (f (n_val nd)) as [w|e] eqn:F; [|exact W].
      apply nth_lt in E. destruct (neq w none); cbn; apply G; cbn; auto.
    - destruct (values_of s l) as [vs|] eqn:E; [|exact W]. destruct (f vs) as [w|e] eqn:F; [|exact W].
      destruct (values_of_nth s l vs E) as (A & B & C). cbn. apply G; cbn; auto.
    - destruct (nth_error s i) as [[d x ins]|] eqn:E; [|exact W]. destruct d; try exact W.
      destruct (neq x v) eqn:N; [|exact W]. apply fire_keeps. apply put_wf; cbn; auto.
  Qed.
  Lemma wf_run : forall h s, wfn s -> wfn (fst (n_run neq none s h)).
  Proof.
    induction h as [|o h IH]; intros s W; [exact W|]. cbn [n_run].
    pose proof (wf_step s o W) as I1. destruct (n_step neq none s o) as [s1 t1]. cbn in I1.
    pose proof (IH s1 I1) as I2. destruct (n_run neq none s1 h) as [s2 t2]. exact I2.
  Qed.

  Lemma means_all_nth (s : net) : forall l vs, length vs = length l ->
    (forall q i v, nth_error l q = Some i -> nth_error vs q = Some v -> means s i v) -> means_all s l vs.
  Proof.
    induction l as [|i l IH]; intros [|v vs] H HA; cbn in H; try discriminate; constructor.
    - apply (HA 0); reflexivity.
    - apply IH; [lia|]. intros q j w H1 H2. apply (HA (S q)); assumption.
  Qed.

  Lemma consistent s (I : inv s) : forall n k v, k < n -> safe_to s k -> value s k = Some v -> means s k v.
  Proof.
    destruct I as [W I]. induction n as [|n IH]; intros k v L S H; [lia|].
    unfold value in H. destruct (nth_error s k) as [[d x ins]|] eqn:E; [|discriminate]. cbn in H. injection H as ->.
    pose proof (W k _ E) as W1. destruct (I k S) as [A B]. destruct d as [|i f|l f]; cbn in W1.
    - econstructor; eauto.
    - assert (Hi : exists ni, nth_error s i = Some ni).
      { destruct (nth_error s i) eqn:F; [eauto|]. apply nth_error_None in F. apply nth_lt in E. lia. }
      destruct Hi as [ni Hi]. apply (means_map s k i f v ins (n_val ni)); [exact E| |].
      + apply IH; [lia| |unfold value; now rewrite Hi]. intros j nd Hj. apply S. lia.
      + assert (Hs : In (k, 0) (subs s i)) by (apply subs_in; eexists; split; [exact E|]; cbn; rewrite Nat.eqb_refl; now left).
        apply (B i k 0 (le_n k) Hs (fun x => x) _ _ E Hi).
    - destruct W1 as [W1 W2]. apply (means_comb s k l f v ins ins); [exact E| |].
      + apply means_all_nth; [exact W2|]. intros q i w Hq Hw.
        assert (Li : i < k) by (apply W1; eapply nth_error_In; eauto).
        assert (Hi : exists ni, nth_error s i = Some ni).
        { destruct (nth_error s i) eqn:F; [eauto|]. apply nth_error_None in F. apply nth_lt in E. lia. }
        destruct Hi as [ni Hi].
        assert (Hs : In (k, q) (subs s i)).
        { apply subs_in. eexists. split; [exact E|]. cbn. apply positions_in. rewrite Nat.sub_0_r. split; [lia|auto]. }
        pose proof (B i k q (le_n k) Hs (fun x => x) _ _ E Hi) as X. cbn in X. rewrite Hw in X. injection X as ->.
        apply IH; [lia| |unfold value; now rewrite Hi]. intros j nd Hj. apply S. lia.
      + eapply A; eauto.
  Qed.

  Lemma means_fun (s : net) : (forall k v, means s k v -> forall v', means s k v' -> v = v').
  Proof.
    fix IH 3. intros k v H. destruct H as [k v ins E|k i f v0 ins v w E M F|k l f v0 ins vs w E M F]; intros v' H'.
    - destruct H' as [? ? ? E'|? ? ? ? ? ? ? E' M' F'|? ? ? ? ? ? ? E' M' F']; rewrite E in E'; congruence.
    - destruct H' as [? ? ? E'|? ? ? ? ? v2 ? E' M' F'|? ? ? ? ? ? ? E' M' F']; rewrite E in E'; try congruence.
      injection E' as <- <- _ _. rewrite (IH _ _ M _ M') in F. congruence.
    - destruct H' as [? ? ? E'|? ? ? ? ? v2 ? E' M' F'|? ? ? ? ? vs' ? E' M' F']; rewrite E in E'; try congruence.
      injection E' as <- <- _ _.
      assert (G : forall l vs, means_all s l vs -> forall vs', means_all s l vs' -> vs = vs').
      { clear - IH. fix IHl 3. intros l vs M. destruct M as [|i l v vs Mi Ml]; intros vs' M'.
        - inversion M'. reflexivity.
        - inversion M' as [|? ? v2 vs2 Mi' Ml']; subst. f_equal; [exact (IH _ _ Mi _ Mi')|exact (IHl _ _ Ml _ Ml')]. }
      rewrite (G _ _ M _ M') in F. congruence.
  Qed.

  (** ** what is fired *)
  Lemma fired_app k (t1 t2 : list (nat * V)) : fired k (t1 ++ t2) = fired k t1 ++ fired k t2.
  Proof. unfold fired. now rewrite filter_app, map_app. Qed.
  Lemma last_app (l1 : list V) : forall l2 d, last (l1 ++ l2) d = last l2 (last l1 d).
  Proof.
    induction l2 as [|x l2 IH] using rev_ind; intros d.
    - now rewrite app_nil_r.
    - rewrite app_assoc. rewrite !last_last. reflexivity.
  Qed.

  Definition tracks (k : nat) (s s' : net) (t : list (nat * V)) : Prop :=
    forall d, value s k = Some d -> value s' k = Some (last (fired k t) d).
  Lemma tracks_refl k (s : net) : tracks k s s [].
  Proof. intros d H. exact H. Qed.
  Lemma tracks_trans k s1 s2 s3 t1 t2 : tracks k s1 s2 t1 -> tracks k s2 s3 t2 -> tracks k s1 s3 (t1 ++ t2).
  Proof. intros A B d H. rewrite fired_app, last_app. apply B, A, H. Qed.

  Lemma value_put_other (s : net) j (nd : node V) k : k <> j -> value (put j nd s) k = value s k.
  Proof. intros H. unfold value. now rewrite put_other. Qed.

  (** a node gets value [w], then its event fires it *)
  Lemma put_tracks k (s : net) j (nd : node V) s1 t1 : j < length s ->
    tracks k (put j nd s) s1 t1 -> (exists t, t1 = (j, n_val nd) :: t) -> tracks k s s1 t1.
  Proof.
    intros L T (t & ->) d H. destruct (Nat.eq_dec k j) as [->|N].
    - assert (E : value (put j nd s) j = Some (n_val nd)) by (unfold value; now rewrite put_same).
      rewrite (T _ E). change ((j, n_val nd) :: t) with ([(j, n_val nd)] ++ t). rewrite fired_app, !last_app.
      unfold fired at 2 4. cbn [filter fst]. rewrite Nat.eqb_refl. reflexivity.
    - apply T. now rewrite value_put_other.
  Qed.

  Definition fire_tracks_at (k fuel : nat) : Prop := forall s i v, wfn s ->
    length s - i <= fuel -> i < length s -> value s i = Some v ->
    tracks k s (fst (fire fuel s i v)) (snd (fire fuel s i v)) /\ exists t, snd (fire fuel s i v) = (i, v) :: t.

  Lemma handle_tracks k fuel v s i j q : fire_tracks_at k fuel -> wfn s -> length s - i <= S fuel -> i < j ->
    tracks k s (fst (fst (handle_with (fire fuel) v s j q))) (snd (fst (handle_with (fire fuel) v s j q))).
  Proof.
    intros HF W L Lij. unfold Net_Model.handle_with.
    destruct (nth_error s j) as [[d x ins]|] eqn:E; [|apply tracks_refl].
    pose proof (nth_lt _ _ _ E) as Lj. pose proof (W j _ E) as W1. unfold wf1 in W1.
    cbn [n_def n_val n_ins] in *. destruct d as [|p f|l f]; [apply tracks_refl| |].
    - destruct (f v) as [w|e]; [|apply tracks_refl]. destruct (neq w x); [|apply tracks_refl].
      destruct (HF (put j (Node (DMap p f) w ins) s) j w) as [T X].
      + apply put_wf; auto.
      + rewrite put_length. lia.
      + now rewrite put_length.
      + unfold value. now rewrite put_same.
      + destruct (fire fuel (put j (Node (DMap p f) w ins) s) j w) as [s1 t1]. cbn in *.
        eapply put_tracks; eauto.
    - destruct (f (put q v ins)) as [w|e].
      + destruct (HF (put j (Node (DComb l f) w (put q v ins)) s) j w) as [T X].
        * apply put_wf; auto. cbn. now rewrite put_length.
        * rewrite put_length. lia.
        * now rewrite put_length.
        * unfold value. now rewrite put_same.
        * destruct (fire fuel (put j (Node (DComb l f) w (put q v ins)) s) j w) as [s1 t1]. cbn in *.
          eapply put_tracks; eauto.
      + cbn. intros d H. destruct (Nat.eq_dec k j) as [->|N].
        * unfold value in *. rewrite put_same by assumption. rewrite E in H. exact H.
        * now rewrite value_put_other.
  Qed.

  Lemma calls_tracks k fuel v i : fire_tracks_at k fuel -> forall l s, wfn s -> length s - i <= S fuel ->
    (forall j q, In (j, q) l -> i < j) ->
    tracks k s (fst (calls (handle_with (fire fuel) v) l s)) (snd (calls (handle_with (fire fuel) v) l s)).
  Proof.
    intros HF. induction l as [|[j q] l IH]; intros s W L HL; cbn [calls]; [apply tracks_refl|].
    assert (Lij : i < j) by (apply (HL j q); now left).
    pose proof (handle_tracks k fuel v s i j q HF W L Lij) as T.
    destruct (handle_keeps (fire fuel) v s i j q (fire_keeps fuel) W Lij) as [W' K'].
    destruct (handle_with (fire fuel) v s j q) as [[s1 t1] [e|]]; cbn in T, W', K'; [exact T|].
    specialize (IH s1 W'). rewrite (keeps_length _ _ _ K') in IH. specialize (IH L (fun j0 q0 H => HL j0 q0 (or_intror H))).
    destruct (calls (handle_with (fire fuel) v) l s1) as [s2 t2]. cbn in *. eapply tracks_trans; eauto.
  Qed.

  Lemma fire_tracks k : forall fuel, fire_tracks_at k fuel.
  Proof.
    induction fuel as [|fuel IH]; intros s i v W L Li Hv; [lia|]. cbn [Net_Model.fire].
    pose proof (calls_tracks k fuel v i IH (subs s i) s W L (fun j q H => slot_source s i j q W H)) as T.
    destruct (calls (handle_with (fire fuel) v) (subs s i) s) as [s1 t1] eqn:EC. cbn in *. split; [|eauto].
    change ((i, v) :: t1) with ([(i, v)] ++ t1). eapply tracks_trans; [|exact T].
    intros d H. unfold fired. cbn. destruct (i =? k) eqn:E; cbn; [|exact H]. apply Nat.eqb_eq in E. subst k. congruence.
  Qed.

  Lemma step_tracks k s o : wfn s -> tracks k s (fst (n_step neq none s o)) (snd (n_step neq none s o)).
  Proof.
    assert (G : forall s nd t, (forall d, value s k = Some d -> fired k t = []) -> tracks k s (s ++ [nd]) t).
    { intros s' nd t H d Hd. rewrite (H d Hd). unfold value in *. destruct (nth_error s' k) eqn:E; [|discriminate].
      rewrite nth_error_app1 by (now apply nth_lt in E). now rewrite E. }
    assert (NK : forall d, value s k = Some d -> (length s =? k) = false).
    { intros d Hd. apply Nat.eqb_neq. unfold value in Hd. destruct (nth_error s k) eqn:E; [|discriminate]. apply nth_lt in E. lia. }
    intros W. destruct o as [v|i f|l f|i v]; cbn.
    - now apply G.
    - destruct (nth_error s i) as [nd|] eqn:E; [|apply tracks_refl]. destruct (f (n_val nd)) as [w|e]; [|apply tracks_refl].
      destruct (neq w none); cbn; apply G; auto. intros d Hd. unfold fired. cbn. now rewrite (NK d Hd).
    - destruct (values_of s l) as [vs|] eqn:E; [|apply tracks_refl]. destruct (f vs) as [w|e]; [|apply tracks_refl].
      cbn. apply G. intros d Hd. unfold fired. cbn. now rewrite (NK d Hd).
    - destruct (nth_error s i) as [[d x ins]|] eqn:E; [|apply tracks_refl]. destruct d; try apply tracks_refl.
      destruct (neq x v); [|apply tracks_refl]. pose proof (nth_lt _ _ _ E) as Li.
      destruct (fire_tracks k (length s - i) (put i (Node DVal v ins) s) i v) as [T X].
      + apply put_wf; cbn; auto.
      + rewrite put_length. lia.
      + now rewrite put_length.
      + unfold value. now rewrite put_same.
      + eapply put_tracks; eauto.
  Qed.

  Lemma run_tracks k : forall h s, wfn s -> tracks k s (fst (n_run neq none s h)) (snd (n_run neq none s h)).
  Proof.
    induction h as [|o h IH]; intros s W; [apply tracks_refl|]. cbn [n_run].
    pose proof (step_tracks k s o W) as T. pose proof (wf_step s o W) as W1.
    destruct (n_step neq none s o) as [s1 t1]. cbn in T, W1.
    pose proof (IH s1 W1) as T2. destruct (n_run neq none s1 h) as [s2 t2]. cbn in *. eapply tracks_trans; eauto.
  Qed.
End NetProofs.
