(** Filtered lists in a row: every list after every operation. *)
From Coq Require Import List ZArith Bool Arith Permutation Sorted Lia.
From Verif Require Import PyBase Filtered_Model Filtered_Spec Filtered_Proofs Filtered_Proofs2 Filtered_Proofs3 Chain_Model Chain_Spec Chain_Proofs Chain_Proofs2 Chain_Proofs3
  Cascade_Model Cascade_Spec Cascade_Proofs.
Import ListNotations.

Section P.
  Context {A C K : Type} (A_dec : forall a b : A, {a = b} + {a <> b}) (lt : K -> K -> bool).
  Notation fstate := (fstate A C K).
  Notation inv := (inv (A := A) (C := C) (K := K)).
  Notation uns := (uns (A := A) (C := C) (K := K)).
  Notation sor := (sor (A := A) (C := C) lt).
  Notation deliver := (deliver A_dec lt).
  Notation deliver1 := (deliver1 A_dec lt).
  Notation kept := (kept lt).
  Notation kview := (kview A C K).
  (** the lists whose order is claimed *)
  Variables (U S : nat -> Prop).
  Hypothesis S_swo : forall j, S j -> strict_weak_order lt.

  (** list [j] has the contents [b] as container and is right for the settings of the client *)
  Definition lev (v : kview) (s : fstate) (j : nat) (b : option (list A)) : Prop :=
    inv s /\ fs_cont s = b /\ agree s (k_sets v j) (k_content v) /\ (U j -> uns s) /\ (S j -> sor s).
  Definition below (v : kview) (j : nat) (l : list A) : option (list A) := if k_att v j then Some l else None.

  Lemma kept_lev v s s' j b b' : lev v s j b -> kept s s' -> fs_cont s' = b' -> lev v s' j b'.
  Proof.
    intros (I & E & G & Hu & Hs) (I' & G' & Hu' & Hs') E'. split; [exact I'|]. split; [exact E'|].
    split; [eapply agree_sets; eassumption|]. split; [auto|]. intros H. apply Hs'; [apply (S_swo j H)|auto].
  Qed.
  Lemma deliver_lev v s j l tr l' s' t : feeds l tr l' -> lev v s j (Some l) -> deliver s tr = (s', t) ->
    lev v s' j (Some l') /\ feeds (fs_items s) t (fs_items s').
  Proof.
    intros F L E. destruct (deliver_feeds A_dec lt _ _ _ F _ _ _ E (proj1 L) (proj1 (proj2 L))) as [KK EC].
    split; [eapply kept_lev; eassumption|]. eapply deliver_out; [exact F|exact E|apply L|apply L].
  Qed.
  Lemma deliver_below v s j l tr l' s' t : feeds l tr l' -> lev v s j (below v j l) -> deliver s tr = (s', t) ->
    lev v s' j (below v j l') /\ feeds (fs_items s) t (fs_items s').
  Proof.
    unfold below. destruct (k_att v j); [apply deliver_lev|]. intros _ L E.
    rewrite (deliver_none A_dec lt) in E by apply L. injection E as <- <-. split; [exact L|constructor].
  Qed.

  Fixpoint tower (v : kview) (j : nat) (b : option (list A)) (ls : list fstate) : Prop :=
    match ls with
    | [] => True
    | s :: r => lev v s j b /\ tower v (j + 1) (below v (j + 1) (fs_items s)) r
    end.

  Definition base (v : kview) (j : nat) (b : option (list A)) (ls : list fstate) (i : nat) : option (list A) :=
    match i with
    | O => b
    | Datatypes.S i' => match nth_error ls i' with Some p => below v (j + i) (fs_items p) | None => None end
    end.
  Lemma base_cons v j b s ls i : base v j b (s :: ls) (Datatypes.S i) = base v (j + 1) (below v (j + 1) (fs_items s)) ls i.
  Proof. destruct i as [|i]; cbn [base nth_error]; [reflexivity|]. replace (j + 1 + Datatypes.S i) with (j + Datatypes.S (Datatypes.S i)) by lia. reflexivity. Qed.
  Lemma tower_nth v ls : forall j b i s, tower v j b ls -> nth_error ls i = Some s -> lev v s (j + i) (base v j b ls i).
  Proof.
    induction ls as [|s0 ls IH]; intros j b i s T E; [destruct i; discriminate|]. destruct T as [L T]. destruct i as [|i].
    - injection E as <-. rewrite Nat.add_0_r. exact L.
    - rewrite base_cons. replace (j + Datatypes.S i) with (j + 1 + i) by lia. apply IH; assumption.
  Qed.

  Definition same_at (v v' : kview) (k : nat) : Prop := k_sets v' k = k_sets v k /\ k_att v' k = k_att v k.
  Lemma lev_same v v' s j b : k_sets v' j = k_sets v j -> k_content v' = k_content v -> lev v s j b -> lev v' s j b.
  Proof. intros H1 H2 (I & E & G & Hu & Hs). split; [exact I|]. split; [exact E|]. rewrite H1, H2. auto. Qed.
  Lemma tower_same v v' ls : forall j b, (forall i, i < length ls -> same_at v v' (j + i)) -> k_content v' = k_content v ->
    tower v j b ls -> tower v' j b ls.
  Proof.
    induction ls as [|s ls IH]; intros j b H Hc T; [exact T|]. destruct T as [L T]. split.
    - apply (lev_same v v'); [|exact Hc|exact L]. specialize (H 0 ltac:(cbn; lia)). rewrite Nat.add_0_r in H. apply H.
    - assert (H1 : below v' (j + 1) (fs_items s) = below v (j + 1) (fs_items s) \/ ls = []).
      { destruct ls as [|s1 ls]; [right; reflexivity|left]. unfold below. rewrite (proj2 (H 1 ltac:(cbn; lia))). reflexivity. }
      destruct H1 as [->| ->]; [|exact I]. apply IH; [|exact Hc|exact T]. intros i Hi. replace (j + 1 + i) with (j + Datatypes.S i) by lia. apply H. cbn. lia.
  Qed.

  Lemma flow_tower v ls : forall j l tr l' r ls' ts r',
    flow A_dec lt j ls tr r = (ls', ts, r') -> feeds l tr l' -> tower v j (below v j l) ls -> tower v j (below v j l') ls'.
  Proof.
    induction ls as [|s ls IH]; intros j l tr l' r ls' ts r' E F T.
    - injection E as <- <- <-. exact T.
    - cbn [flow] in E. destruct (deliver s tr) as [s1 t1] eqn:E1. destruct (flow _ _ _ _ _ _) as [[ls2 ts2] r2] eqn:E2. injection E as <- <- <-.
      destruct T as [L T]. destruct (deliver_below _ _ _ _ _ _ _ _ F L E1) as [L1 F1]. split; [exact L1|].
      replace (Datatypes.S j) with (j + 1) in E2 by lia. eapply IH; [exact E2|exact F1|exact T].
  Qed.

  Lemma level_tower v v' o g i : k_content v' = k_content v -> forall ls j b b' r ls' ts r',
    at_level A_dec lt (do_op A_dec lt o) g j i ls r = (ls', ts, r') -> tower v j b ls ->
    (forall k, k <> j + i -> same_at v v' k) -> (i = 0 \/ b' = b) ->
    (forall s, nth_error ls i = Some s -> lev v s (j + i) (base v j b ls i) -> lev v' (fst (do_op A_dec lt o s)) (j + i) (base v' j b' ls i)) ->
    tower v' j b' ls'.
  Proof.
    intros Hc. induction i as [|i IH]; intros ls j b b' r ls' ts r' E T Hs Hb Ho; (destruct ls as [|s ls]; [injection E as <- <- <-; exact I|]);
      cbn [at_level] in E; destruct T as [L T].
    - destruct (do_op A_dec lt o s) as [s1 t1] eqn:E1. destruct (flow _ _ _ _ _ _) as [[ls2 ts2] r2] eqn:E2. injection E as <- <- <-.
      specialize (Ho s eq_refl). rewrite E1 in Ho. cbn [fst] in Ho. rewrite Nat.add_0_r in Ho. specialize (Ho L). cbn [base] in Ho. split; [exact Ho|].
      assert (F : feeds (fs_items s) t1 (fs_items s1)).
      { unfold do_op in E1. destruct (f_step A_dec lt s o) as [[s2 t2] e2] eqn:E3. cbn [fst] in E1. injection E1 as <- <-.
        eapply step_feeds; [exact E3|]. apply inv_nodup, Ho. }
      replace (Datatypes.S j) with (j + 1) in E2 by lia. eapply flow_tower; [exact E2|exact F|].
      assert (Hb1 : below v' (j + 1) (fs_items s) = below v (j + 1) (fs_items s)).
      { unfold below. rewrite (proj2 (Hs (j + 1) ltac:(lia))). reflexivity. }
      rewrite Hb1. apply (tower_same v v'); [|exact Hc|exact T]. intros i Hi. apply Hs. lia.
    - destruct (at_level _ _ _ _ _ _ _ _) as [[ls2 ts2] r2] eqn:E2. injection E as <- <- <-.
      destruct Hb as [Hb|Hb]; [discriminate|]. subst b'. split.
      + apply (lev_same v v'); [apply (Hs j); lia|exact Hc|exact L].
      + replace (Datatypes.S j) with (j + 1) in E2 by lia. eapply IH; [exact E2|exact T| | |].
        * intros k Hk. apply Hs. lia.
        * destruct i as [|i]; [left; reflexivity|right]. unfold below. rewrite (proj2 (Hs (j + 1) ltac:(lia))). reflexivity.
        * intros s0 E0 L0. replace (j + 1 + i) with (j + Datatypes.S i) in * by lia. specialize (Ho s0 E0). rewrite !base_cons in Ho. apply Ho. exact L0.
  Qed.

  (** ** an item changes: [x] gets the content [c] *)
  Section Content.
    Variables (v : kview) (x : A) (c : C).
    Hypothesis keeps : forall j, S j -> k_keeps_key j v (KContent x c).
    Let v' : kview := k_step A_dec v (KContent x c).
    Let w' : A -> C := k_content v'.

    (** a list that listens to x and has not heard of the change yet *)
    Definition dirty (s : fstate) (j : nat) (b : option (list A)) : Prop :=
      exists s0, s = with_content s0 w' /\ lev v s0 j b /\ In x (fs_master s0).

    Lemma content_lev s j b s' t e : f_step A_dec lt s (FContent x c) = (s', t, e) -> lev v s j b -> lev v' s' j b.
    Proof.
      intros E (I & Ec & (B1 & B2 & B3 & B4 & B5) & Hu & Hs).
      destruct (content_kept A_dec lt _ _ _ _ _ _ E I) as (I' & (D1 & D2 & D3 & D4 & D5) & Ec' & Hu' & Hs'). cbn in D1, D2, D3, D4.
      split; [exact I'|]. split; [congruence|]. split.
      - unfold agree. rewrite D1, D2, D3, D4, D5, B1, B2, B3, B4, B5. repeat split.
      - split; [auto|]. intros H. apply Hs'; [apply (S_swo j H)| |auto]. intros k Hk _. rewrite B5. apply (keeps j H). congruence.
    Qed.
    Lemma unlisted_lev s j b : lev v s j b -> ~ In x (fs_master s) -> lev v' (with_content s w') j b.
    Proof.
      intros L Hx. pose proof (unlisted_content A_dec lt s x c (proj1 L) Hx) as E.
      assert (Hw : update_content A_dec (fs_content s) x c = w').
      { destruct L as (_ & _ & (_ & _ & _ & _ & ->) & _). reflexivity. }
      rewrite Hw in E. eapply content_lev; eassumption.
    Qed.

    Lemma dirty_cont s j b : dirty s j b -> exists l, b = Some l /\ In x l /\ NoDup l.
    Proof.
      intros (s0 & _ & (I & Ec & _) & Hx). destruct (fs_cont s0) as [l|] eqn:E.
      - destruct (inv_conn _ _ I E) as [_ Hm]. exists l. rewrite <- Hm. split; [congruence|]. split; [exact Hx|apply I].
      - destruct I as [_ Hl]. unfold link in Hl. rewrite E in Hl. rewrite Hl in Hx. destruct Hx.
    Qed.

    Lemma removed_clean s0 j l1 l2 s1 t1 : lev v s0 j (Some (l1 ++ x :: l2)) -> deliver1 s0 (FRem x (length l1)) = (s1, t1) ->
      deliver1 (with_content s0 w') (FRem x (length l1)) = (with_content s1 w', t1) /\ lev v' (with_content s1 w') j (Some (l1 ++ l2)) /\
      feeds (fs_items s0) t1 (fs_items s1).
    Proof.
      intros L E. split; [rewrite deliver1_content by reflexivity; rewrite E; reflexivity|].
      destruct (deliver_rem A_dec lt _ _ _ _ _ _ E (proj1 L) (proj1 (proj2 L))) as [KK EC].
      pose proof (kept_lev _ _ _ _ _ _ L KK EC) as L1.
      assert (Hx : ~ In x (fs_master s1)).
      { destruct (inv_conn _ _ (proj1 L1) EC) as [_ ->]. apply in_split_unique.
        destruct L as (I & Ec & _). destruct (inv_conn _ _ I Ec) as [_ Hm]. rewrite <- Hm. apply I. }
      split; [apply unlisted_lev; assumption|]. eapply deliver1_out; [exact E|apply inv_nodup, L1].
    Qed.

    Lemma deliver_dirty l tr l' : feeds l tr l' -> Forall (xonly x) tr -> forall s j s' t,
      dirty s j (Some l) -> deliver s tr = (s', t) ->
      (if existsb (removes A_dec x) tr then lev v' s' j (Some l') else dirty s' j (Some l')) /\ feeds (fs_items s) t (fs_items s').
    Proof.
      assert (RR : forall k, removes A_dec x (FRem x k) = true) by (intros k; cbn; destruct (A_dec x x); congruence).
      assert (Rem : forall l1 l2 tr l' s j s' t, dirty s j (Some (l1 ++ x :: l2)) -> feeds (l1 ++ l2) tr l' ->
        deliver s (FRem x (length l1) :: tr) = (s', t) -> lev v' s' j (Some l') /\ feeds (fs_items s) t (fs_items s')).
      { intros l1 l2 tr0 l0 s j s' t (s0 & -> & L & Hx) F E. cbn [Chain_Model.deliver] in E. destruct (deliver1 s0 (FRem x (length l1))) as [s1 t1] eqn:E1.
        destruct (removed_clean _ _ _ _ _ _ L E1) as (E2 & L2 & F2). rewrite E2 in E.
        destruct (deliver (with_content s1 w') tr0) as [s2 t2] eqn:E3. injection E as <- <-.
        destruct (deliver_lev _ _ _ _ _ _ _ _ F L2 E3) as [L3 F3]. split; [exact L3|]. eapply feeds_app; [exact F2|exact F3]. }
      induction 1 as [l|l e tr l' Hq _ IH|l y k tr l' Hy _ IH|l l1 y l2 tr l' -> F IH|l tr l' F IH]; intros Hx s j s' t D E.
      - injection E as <- <-. split; [exact D|constructor].
      - inversion Hx as [|? ? He Hx']; subst. cbn in E. destruct (deliver1 s e) as [s1 t1] eqn:E1. destruct (deliver s1 tr) as [s2 t2] eqn:E2. injection E as <- <-.
        destruct (dirty_cont _ _ _ D) as (l0 & [= <-] & Hl & _). destruct D as (s0 & -> & L & Hm).
        assert (Hn : not_ins e = true /\ removes A_dec x e = false) by (destruct e; try discriminate; split; reflexivity).
        rewrite (deliver1_content A_dec lt) in E1 by apply Hn. destruct (deliver1 s0 e) as [s01 t01] eqn:E0. injection E1 as <- <-.
        destruct (deliver_quiet A_dec lt _ _ _ _ _ E0 Hq (proj1 L) (proj1 (proj2 L))) as [KK EC].
        pose proof (kept_lev _ _ _ _ _ _ L KK EC) as L1.
        assert (D1 : dirty (with_content s01 w') j (Some l)).
        { exists s01. split; [reflexivity|]. split; [exact L1|]. destruct (inv_conn _ _ (proj1 L1) EC) as [_ ->]. exact Hl. }
        destruct (IH Hx' _ _ _ _ D1 E2) as [G1 G2]. cbn [existsb]. rewrite (proj2 Hn). split; [exact G1|].
        eapply feeds_app; [|exact G2]. exact (deliver1_out A_dec lt s0 e s01 t01 E0 (inv_nodup _ (proj1 L1))).
      - inversion Hx as [|? ? He Hx']; subst. cbn in He. subst y. destruct (dirty_cont _ _ _ D) as (l0 & [= <-] & Hl & _). contradiction.
      - inversion Hx as [|? ? He Hx']; subst. cbn in He. subst y. cbn [existsb]. rewrite RR. eapply Rem; eassumption.
      - apply Forall_app in Hx as [Hp Hx]. destruct (dirty_cont _ _ _ D) as (l0 & [= <-] & Hl & Hd).
        assert (l = [x]) by (apply only_one; [eapply pop_xonly; exact Hp|exact Hd|exact Hl]). subst l. cbn [pop_loop removelast length app existsb] in *.
        rewrite RR. apply (Rem [] [] tr l' s j s' t D F E).
    Qed.

    Fixpoint dtower (P : nat -> bool) (j : nat) (b : option (list A)) (ls : list fstate) : Prop :=
      match ls with
      | [] => True
      | s :: r => (if P j then dirty s j b else lev v' s j b) /\ dtower P (j + 1) (below v (j + 1) (fs_items s)) r
      end.
    Lemma dtower_ext P P' ls : forall j b, (forall k, P (j + k) = P' (j + k)) -> dtower P j b ls -> dtower P' j b ls.
    Proof.
      induction ls as [|s ls IH]; intros j b H T; [exact T|]. destruct T as [L T]. split.
      - specialize (H 0). rewrite Nat.add_0_r in H. rewrite <- H. exact L.
      - apply IH; [|exact T]. intros k. replace (j + 1 + k) with (j + Datatypes.S k) by lia. apply H.
    Qed.

    Definition told (tr : list (fev A)) : bool := existsb (removes A_dec x) tr.
    Lemma dflow P P' ls : forall j l tr l' r ls' ts r',
      flow A_dec lt j ls tr r = (ls', ts, r') -> feeds l tr l' -> Forall (xonly x) tr -> dtower P j (below v j l) ls ->
      (forall k, k < length ls -> P' (j + k) = P (j + k) && negb (told (nth k (tr :: ts) []))) ->
      dtower P' j (below v j l') ls'.
    Proof.
      induction ls as [|s ls IH]; intros j l tr l' r ls' ts r' E F Hx T HP.
      - injection E as <- <- <-. exact I.
      - cbn [flow] in E. destruct (deliver s tr) as [s1 t1] eqn:E1. destruct (flow _ _ _ _ _ _) as [[ls2 ts2] r2] eqn:E2. injection E as <- <- <-.
        destruct T as [L T]. pose proof (HP 0 ltac:(cbn; lia)) as H0. rewrite Nat.add_0_r in H0. cbn [nth] in H0.
        assert (G : (if P' j then dirty s1 j (below v j l') else lev v' s1 j (below v j l')) /\ feeds (fs_items s) t1 (fs_items s1)).
        { rewrite H0. destruct (P j).
          - destruct (dirty_cont _ _ _ L) as (l0 & E0 & _). unfold below in *. destruct (k_att v j); [|discriminate].
            destruct (deliver_dirty _ _ _ F Hx _ _ _ _ L E1) as [G1 G2]. split; [|exact G2].
            unfold told in *. destruct (existsb _ tr); cbn [andb negb]; exact G1.
          - cbn [andb]. apply (deliver_below v' s j l tr l' s1 t1 F L E1). }
        destruct G as [G1 G2]. split; [exact G1|]. replace (Datatypes.S j) with (j + 1) in E2 by lia.
        eapply IH; [exact E2|exact G2|eapply deliver_xonly; eassumption|exact T|].
        intros k Hk. replace (j + 1 + k) with (j + Datatypes.S k) by lia. apply (HP (Datatypes.S k)). cbn. lia.
    Qed.

    Lemma dlevel P P' i : forall ls j b r ls' ts r',
      at_level A_dec lt (heard A_dec lt x) (fun _ _ _ r => r) j i ls r = (ls', ts, r') -> dtower P j b ls -> i < length ls -> P (j + i) = true ->
      (forall k, k < length ls -> P' (j + k) = P (j + k) && negb (k =? i) && negb (match k with O => false | Datatypes.S k' => told (nth k' ts []) end)) ->
      dtower P' j b ls'.
    Proof.
      induction i as [|i IH]; intros ls j b r ls' ts r' E T Hi HPi HP; (destruct ls as [|s ls]; [cbn in Hi; lia|]); cbn [at_level] in E; destruct T as [L T].
      - destruct (heard A_dec lt x s) as [s1 t1] eqn:E1. destruct (flow _ _ _ _ _ _) as [[ls2 ts2] r2] eqn:E2. injection E as <- <- <-.
        rewrite Nat.add_0_r in HPi. rewrite HPi in L. destruct L as (s0 & -> & L & Hm).
        assert (Es : f_step A_dec lt s0 (FContent x c) = (s1, t1, None)).
        { cbn [f_step]. destruct L as (I & _ & (_ & _ & _ & _ & Ew) & _). rewrite Ew. change (update_content A_dec (k_content v) x c) with w'.
          rewrite (proj2 (inb_spec A_dec x (fs_listen s0))) by (apply (proj1 (proj2 (proj1 (proj1 I)))); exact Hm).
          rewrite (proj2 (inb_spec A_dec x (fs_master s0))) by exact Hm. unfold heard in E1. rewrite E1. reflexivity. }
        pose proof (content_lev _ _ _ _ _ _ Es L) as L1. pose proof (HP 0 ltac:(cbn; lia)) as H0. rewrite Nat.add_0_r in H0. cbn in H0. rewrite andb_false_r in H0. cbn in H0.
        split; [rewrite H0; exact L1|]. replace (Datatypes.S j) with (j + 1) in E2 by lia.
        eapply (dflow P); [exact E2|eapply step_feeds; [exact Es|apply inv_nodup, L1]|apply content_trace_xonly; eapply content_step_trace; exact Es|exact T|].
        intros k Hk. replace (j + 1 + k) with (j + Datatypes.S k) by lia. rewrite (HP (Datatypes.S k)) by (cbn; lia). cbn [Nat.eqb negb]. rewrite andb_true_r. reflexivity.
      - destruct (at_level _ _ _ _ _ _ _ _) as [[ls2 ts2] r2] eqn:E2. injection E as <- <- <-.
        pose proof (HP 0 ltac:(cbn; lia)) as H0. rewrite Nat.add_0_r in H0. cbn in H0. rewrite !andb_true_r in H0.
        split; [rewrite H0; exact L|]. replace (Datatypes.S j) with (j + 1) in E2 by lia.
        eapply (IH); [exact E2|exact T|cbn in Hi; lia|replace (j + 1 + i) with (j + Datatypes.S i) by lia; exact HPi|].
        intros k Hk. replace (j + 1 + k) with (j + Datatypes.S k) by lia. rewrite (HP (Datatypes.S k)) by (cbn; lia). cbn [Nat.eqb].
        destruct k as [|k]; [cbn [nth told existsb]; reflexivity|]. reflexivity.
    Qed.

    Definition mem (k : nat) (l : list nat) : bool := existsb (Nat.eqb k) l.
    Lemma mem_spec k l : mem k l = true <-> In k l.
    Proof. unfold mem. rewrite existsb_exists. split; [intros (y & Hy & E); apply Nat.eqb_eq in E; subst; exact Hy|intros H; exists k; split; [exact H|apply Nat.eqb_refl]]. Qed.
    Lemma mem_app k l1 l2 : mem k (l1 ++ l2) = mem k l1 || mem k l2.
    Proof. apply existsb_app. Qed.
    Lemma closed_in_spec k ts : mem k (closed_in A_dec x ts) = match k with O => false | Datatypes.S k' => told (nth k' ts []) end.
    Proof.
      apply eq_iff_eq_true. rewrite mem_spec. unfold closed_in. rewrite in_map_iff. split.
      - intros (k' & <- & H). apply filter_In in H as [_ H]. exact H.
      - destruct k as [|k']; [discriminate|]. intros H. exists k'. split; [reflexivity|]. apply filter_In. split; [|exact H].
        apply in_seq. split; [lia|]. cbn. destruct (Nat.lt_ge_cases k' (length ts)) as [Hl|Hl]; [exact Hl|].
        rewrite nth_overflow in H by exact Hl. discriminate.
    Qed.

    Lemma dtower_asserts P ls : forall j b i, dtower P j b ls -> i < length ls -> P (j + i) = true -> asserts A_dec x ls i = true.
    Proof.
      induction ls as [|s ls IH]; intros j b i T Hi HP; [cbn in Hi; lia|]. destruct T as [L T]. destruct i as [|i].
      - rewrite Nat.add_0_r in HP. rewrite HP in L. destruct L as (s0 & -> & _ & Hm). unfold asserts. cbn [nth_error]. apply (inb_spec A_dec). exact Hm.
      - unfold asserts. cbn [nth_error]. apply (IH (j + 1) (below v (j + 1) (fs_items s))); [exact T|cbn in Hi; lia|].
        replace (j + 1 + i) with (j + Datatypes.S i) by lia. exact HP.
    Qed.

    Lemma fire_tower b snap : forall closed ls r ls' ts r',
      fire A_dec lt x snap closed ls r = (ls', ts, r') -> NoDup snap -> (forall k, In k snap -> k < length ls) ->
      regs_ok 0 ls r -> NoDup r ->
      dtower (fun k => mem k snap && negb (mem k closed)) 0 b ls -> dtower (fun _ => false) 0 b ls'.
    Proof.
      induction snap as [|i snap IH]; intros closed ls r ls' ts r' E Hn Hl Hr Hd T; cbn [fire] in E.
      - injection E as <- <- <-. eapply dtower_ext; [|exact T]. reflexivity.
      - inversion Hn as [|? ? Hi Hn']; subst. change (existsb (Nat.eqb i) closed) with (mem i closed) in E. destruct (mem i closed) eqn:Ei.
        + eapply IH; [exact E|exact Hn'|intros k Hk; apply Hl; right; exact Hk|exact Hr|exact Hd|].
          eapply dtower_ext; [|exact T]. intros k. cbn [plus]. cbn [mem existsb]. destruct (k =? i) eqn:Ek; [|reflexivity].
          apply Nat.eqb_eq in Ek. subst k. rewrite Ei, !andb_false_r. reflexivity.
        + assert (Hil : i < length ls) by (apply Hl; left; reflexivity).
          assert (HPi : (fun k => mem k (i :: snap) && negb (mem k closed)) (0 + i) = true).
          { cbn. rewrite Nat.eqb_refl, Ei. reflexivity. }
          rewrite (dtower_asserts _ _ _ _ _ T Hil HPi) in E. cbn [negb] in E.
          destruct (at_level _ _ _ _ _ _ _ _) as [[ls1 t1] r1] eqn:E1. destruct (fire _ _ _ _ _ _ _) as [[ls2 t2] r2] eqn:E2. injection E as <- <- <-.
          destruct (at_level_regs A_dec lt _ _ i (heard_good A_dec lt x) _ _ _ _ _ _ E1 Hr Hd) as (R1 & _ & D1 & L1 & _).
          eapply IH; [exact E2|exact Hn'|intros k Hk; rewrite L1; apply Hl; right; exact Hk|exact R1|exact D1|].
          eapply (dlevel _ _ i ls 0 b); [exact E1|exact T|exact Hil|exact HPi|].
          intros k Hk. cbn [plus]. rewrite mem_app, closed_in_spec, negb_orb. cbn [mem existsb].
          destruct (Nat.eqb_spec k i) as [->|Hne].
          * replace (mem i snap) with false; [cbn; rewrite andb_false_r; reflexivity|]. symmetry. apply not_true_iff_false. rewrite mem_spec. exact Hi.
          * cbn [orb negb]. rewrite andb_true_r, andb_assoc. reflexivity.
    Qed.

    Lemma dtower_tower ls : forall j b, dtower (fun _ => false) j b ls -> tower v' j b ls.
    Proof. induction ls as [|s ls IH]; intros j b T; [exact I|]. destruct T as [L T]. split; [exact L|]. apply IH. exact T. Qed.

    Lemma tower_dtower (P : nat -> bool) ls : forall j b, tower v j b ls ->
      (forall i s, nth_error ls i = Some s -> (P (j + i) = true <-> In x (fs_listen s))) ->
      dtower P j b (map (fun s => with_content s (update_content A_dec (fs_content s) x c)) ls).
    Proof.
      induction ls as [|s ls IH]; intros j b T H; [exact I|]. destruct T as [L T]. cbn [map dtower].
      assert (Hw : update_content A_dec (fs_content s) x c = w').
      { destruct L as (_ & _ & (_ & _ & _ & _ & ->) & _). reflexivity. }
      rewrite Hw. split.
      - specialize (H 0 s eq_refl). rewrite Nat.add_0_r in H. assert (Hm : In x (fs_listen s) <-> In x (fs_master s)) by apply L.
        destruct (P j).
        + exists s. split; [reflexivity|]. split; [exact L|]. apply Hm, H. reflexivity.
        + apply unlisted_lev; [exact L|]. intros Hx. apply Hm, H in Hx. discriminate.
      - apply IH; [exact T|]. intros i s0 E. replace (j + 1 + i) with (j + Datatypes.S i) by lia. apply H. exact E.
    Qed.

    Lemma change_tower b (cc cc' : casc A C K) ts : on_change A_dec lt cc x c = (cc', ts) -> tower v 0 b (cs_lists cc) ->
      regs_ok 0 (cs_lists cc) (cs_regs cc) -> NoDup (cs_regs cc) ->
      tower v' 0 b (cs_lists cc') /\ regs_ok 0 (cs_lists cc') (cs_regs cc') /\ NoDup (cs_regs cc') /\ length (cs_lists cc') = length (cs_lists cc).
    Proof.
      unfold on_change. intros E T Hr Hd. set (snap := map fst _) in E. set (ls0 := map _ (cs_lists cc)) in E.
      destruct (fire _ _ _ _ _ _ _) as [[ls1 t1] r1] eqn:E1. injection E as <- <-. cbn [cs_lists cs_regs].
      assert (Hsnap : forall k, In k snap <-> exists s, nth_error (cs_lists cc) k = Some s /\ In x (fs_listen s)).
      { intros k. unfold snap. rewrite in_map_iff. rewrite <- (Hr k x). cbn [plus]. split.
        - intros ([k' y] & <- & H). apply filter_In in H as [H Hy]. cbn [fst snd] in *. destruct (A_dec y x); [subst; exact H|discriminate].
        - intros H. exists (k, x). split; [reflexivity|]. apply filter_In. split; [exact H|]. cbn. destruct (A_dec x x); [reflexivity|congruence]. }
      assert (Hns : NoDup snap).
      { unfold snap. clear - Hd A_dec. induction (cs_regs cc) as [|[k y] r IH]; [constructor|]. inversion Hd; subst. cbn [filter snd].
        destruct (A_dec y x) as [->|]; [|apply IH; assumption]. cbn [map fst]. constructor; [|apply IH; assumption].
        intros Hk. apply in_map_iff in Hk as ([k' y'] & E & H). apply filter_In in H as [H Hy]. cbn [fst snd] in *. subst k'.
        destruct (A_dec y' x); [subst; contradiction|discriminate]. }
      assert (Hr0 : regs_ok 0 ls0 (cs_regs cc)).
      { intros k y. rewrite (Hr k y). unfold ls0. rewrite nth_error_map. destruct (nth_error (cs_lists cc) k) as [s|]; cbn [option_map].
        - split; intros (s' & [= <-] & H); eexists; (split; [reflexivity|exact H]).
        - split; intros (s' & E & _); discriminate. }
      destruct (fire_regs A_dec lt _ _ _ _ _ _ _ _ E1 Hr0 Hd) as (R1 & D1 & L1). unfold ls0 in L1. rewrite map_length in L1.
      split; [|auto]. apply dtower_tower. eapply fire_tower; [exact E1|exact Hns| |exact Hr0|exact Hd|].
      - intros k Hk. unfold ls0. rewrite map_length. apply Hsnap in Hk as (s & E & _). apply nth_error_Some. congruence.
      - apply (tower_dtower (fun k => mem k snap && negb (mem k []))); [exact T|]. intros i s E. cbn [plus mem existsb negb]. rewrite andb_true_r. rewrite mem_spec, Hsnap.
        split; [intros (s' & E' & H); congruence|eauto].
    Qed.
  End Content.
End P.
