From Coq Require Import List ZArith Bool Arith Permutation Sorted Lia.
From Verif Require Import PyBase Filtered_Model Filtered_Spec Filtered_Proofs Filtered_Proofs2.
Import ListNotations.

Section F3.
  Context {A C K : Type} (A_dec : forall a b : A, {a = b} + {a <> b}) (lt : K -> K -> bool).
  Notation inb := (inb A_dec).
  Notation index_of := (index_of A_dec).
  Notation fstate := (fstate A C K).
  Notation sor := (sor lt).
  Notation blk := (blk A_dec).

  Lemma last_index n : py_index (S n) (Z.of_nat (S n) - 1) = Some n.
  Proof. replace (Z.of_nat (S n) - 1)%Z with (Z.of_nat n) by lia. apply py_index_nat. lia. Qed.

  Lemma remove_loop_inv xs : forall (s : fstate) s' tr e,
    remove_loop A_dec xs s = (s', tr, e) -> lists s -> fs_master s = rev xs ->
    e = None /\ lists s' /\ fs_master s' = [] /\ frame s s' /\ (uns s -> uns s') /\ (sor s -> sor s') /\
    ((0 < fs_level s)%Z -> fs_items s' = fs_items s).
  Proof.
    induction xs as [|x xs IH]; intros s s' tr e; simpl.
    - intros [= <- <- <-] H Hm. repeat split; try apply H; auto.
    - intros E H Hm. destruct (item_removed A_dec s x _) as [[s1 t1] e1] eqn:E1.
      destruct (item_removed_inv A_dec lt s x _ (rev xs) [] _ _ _ E1 H Hm) as (-> & H1 & Hm1 & F1 & U1 & S1 & I1).
      { rewrite Hm, app_length. simpl. rewrite Nat.add_1_r. apply last_index. }
      rewrite app_nil_r in Hm1. destruct (remove_loop A_dec xs s1) as [[s2 t2] e2] eqn:E2.
      injection E as <- <- <-. destruct (IH _ _ _ _ E2 H1 Hm1) as (-> & H2 & Hm2 & F2 & U2 & S2 & I2).
      split; [reflexivity|]. split; [exact H2|]. split; [exact Hm2|]. split; [eapply frame_trans; eassumption|].
      split; [auto|]. split; [auto|]. intros Hl. rewrite I2, I1; [reflexivity|exact Hl|].
      destruct F1 as (_ & _ & _ & _ & _ & _ & -> & _). exact Hl.
  Qed.

  Lemma insert_loop_inv xs : forall idx (s : fstate) s' tr e,
    insert_loop A_dec lt xs idx s = (s', tr, e) -> lists s -> length (fs_master s) = idx -> NoDup (fs_master s ++ xs) ->
    e = None /\ lists s' /\ fs_master s' = fs_master s ++ xs /\ frame s s' /\
    (uns s -> uns s') /\ (strict_weak_order lt -> sor s -> sor s').
  Proof.
    induction xs as [|x xs IH]; intros idx s s' tr e; simpl.
    - intros [= <- <- <-] H Hm _. rewrite app_nil_r. repeat split; try apply H; auto.
    - intros E H Hm Hnd. destruct (item_inserted A_dec lt s x _) as [[s1 t1] e1] eqn:E1.
      assert (Hx : ~ In x (fs_master s)) by (apply nodup_app_parts in Hnd; tauto).
      destruct (item_inserted_inv A_dec lt s x _ _ _ _ E1 H Hx) as (-> & H1 & Hm1 & F1 & U1 & S1 & _).
      assert (Em : fs_master s1 = fs_master s ++ [x]).
      { rewrite Hm1. unfold py_insert. rewrite py_insert_pos_nat by lia. rewrite <- Hm.
        rewrite <- (app_nil_r (fs_master s)) at 2. rewrite insert_at_app. reflexivity. }
      destruct (insert_loop A_dec lt xs (S idx) s1) as [[s2 t2] e2] eqn:E2. injection E as <- <- <-.
      destruct (IH _ _ _ _ _ E2 H1) as (-> & H2 & Hm2 & F2 & U2 & S2).
      { rewrite Em, app_length. simpl. lia. }
      { rewrite Em, <- app_assoc. exact Hnd. }
      split; [reflexivity|]. split; [exact H2|]. split; [rewrite Hm2, Em, <- app_assoc; reflexivity|].
      split; [eapply frame_trans; eassumption|]. auto.
  Qed.

  Definition inv (s : fstate) : Prop := lists s /\ link s.

  Lemma attach_inv (s : fstate) c s' tr e :
    attach A_dec lt s c = (s', tr, e) -> lists s -> fs_master s = [] ->
    match c with Some l => NoDup l | None => True end ->
    e = None /\ inv s' /\ fs_cont s' = c /\ fs_sorted s' = false /\
    (uns s -> uns s') /\ (strict_weak_order lt -> sor s -> sor s').
  Proof.
    unfold attach. intros E H Hm Hc.
    assert (T : forall k (op : (C -> K) -> Prop), sor s -> sor (with_sorted (with_cont s k (match k with Some _ => true | None => false end)) false)).
    { intros k _ Hs k0 Hk [Hl|Hl]; [apply Hs; auto|discriminate]. }
    destruct c as [l|].
    - destruct (insert_loop A_dec lt l 0 _) as [[s2 t2] e2] eqn:E2. injection E as <- <- <-.
      destruct (insert_loop_inv _ _ _ _ _ _ E2) as (-> & H2 & Hm2 & F2 & U2 & S2).
      + exact H.
      + simpl. rewrite Hm. reflexivity.
      + simpl. rewrite Hm. exact Hc.
      + destruct F2 as (Fc & Fn & Fs & _). simpl in *. rewrite Hm in Hm2. simpl in Hm2.
        split; [reflexivity|]. split; [split; [exact H2|]|].
        * unfold link. rewrite Fc, Fn, Hm2. auto.
        * split; [exact Fc|]. split; [exact Fs|]. split; [auto|]. intros Hswo Hs. apply (S2 Hswo).
          intros k0 Hk [Hl|Hl]; [apply Hs; auto|discriminate].
    - injection E as <- <- <-. split; [reflexivity|]. split; [split; [exact H|exact Hm]|].
      split; [reflexivity|]. split; [reflexivity|]. split; [auto|]. intros _ Hs.
      intros k0 Hk [Hl|Hl]; [apply Hs; auto|discriminate].
  Qed.

  Lemma set_container_inv (s : fstate) c s' tr e :
    set_container A_dec lt s c = (s', tr, e) -> inv s ->
    match c with Some l => NoDup l | None => True end ->
    e = None /\ inv s' /\ fs_cont s' = c /\ fs_sorted s' = false /\
    (uns s -> uns s') /\ (strict_weak_order lt -> sor s -> sor s').
  Proof.
    unfold set_container. intros E [H Hlink] Hc. unfold link in Hlink. destruct (fs_cont s) as [old|] eqn:Ec.
    - destruct Hlink as [Hconn Hm]. rewrite Hconn in E.
      destruct (remove_loop A_dec (rev old) _) as [[s1 t1] e1] eqn:E1.
      destruct (remove_loop_inv _ _ _ _ _ E1) as (-> & H1 & Hm1 & F1 & U1 & S1 & _).
      + exact H.
      + simpl. rewrite rev_involutive. exact Hm.
      + destruct (attach A_dec lt s1 c) as [[s2 t2] e2] eqn:E2. injection E as <- <- <-.
        destruct (attach_inv _ _ _ _ _ E2 H1 Hm1 Hc) as (-> & H2 & Hc2 & Hs2 & U2 & S2).
        split; [reflexivity|]. split; [exact H2|]. split; [exact Hc2|]. split; [exact Hs2|].
        split; [intros Hu; apply U2, U1; exact Hu|intros Hw Hs; apply (S2 Hw), S1; exact Hs].
    - eapply attach_inv; eassumption.
  Qed.

  (** update_items *)
  Lemma build_perm (s : fstate) : Permutation (build_items lt s) (filter (matching s) (fs_master s)).
  Proof.
    unfold build_items. apply filter_perm. destruct (fs_key s); [apply py_sorted_perm|reflexivity].
  Qed.
  Lemma build_nodup (s : fstate) : NoDup (fs_master s) -> NoDup (build_items lt s).
  Proof. intros H. eapply Permutation_NoDup; [symmetry; apply build_perm|]. apply NoDup_filter. exact H. Qed.
  Lemma build_srt (s : fstate) k :
    strict_weak_order lt -> fs_key s = Some k ->
    srt (sort_op lt (fs_rev s)) (fun y => k (fs_content s y)) (build_items lt s).
  Proof.
    intros Hw Hk. unfold build_items. rewrite Hk. apply ss_filter.
    apply (py_sorted_srt (sort_op lt (fs_rev s)) (fun y => k (fs_content s y))). apply swo_op. exact Hw.
  Qed.

  Definition set_iteration (ord : list A -> list A) : Prop := forall l, Permutation (ord l) l.

  Definition retained (s : fstate) : list A := filter (fun x => inb x (build_items lt s)) (fs_items s).

  Lemma retained_perm (s : fstate) :
    NoDup (fs_master s) -> NoDup (fs_items s) ->
    Permutation (filter (fun x => negb (inb x (fs_items s))) (build_items lt s) ++ retained s) (build_items lt s).
  Proof.
    intros Hm Hi. apply NoDup_Permutation.
    - apply NoDup_app_intro; [apply NoDup_filter, build_nodup; exact Hm|apply NoDup_filter; exact Hi|].
      intros x H1 H2. apply filter_In in H1 as [_ H1]. apply filter_In in H2 as [H2 _]. apply negb_inb in H1. contradiction.
    - apply build_nodup. exact Hm.
    - intros x. rewrite in_app_iff. unfold retained. rewrite !filter_In, negb_inb, inb_spec.
      destruct (in_dec A_dec x (fs_items s)); tauto.
  Qed.

  Lemma update_items_inv ord (s : fstate) s' tr e :
    update_items A_dec lt ord s = (s', tr, e) -> (fs_level s <= 0)%Z -> lists0 s -> set_iteration ord ->
    e = None /\ s' = with_sorted (with_items s (fs_items s')) true /\
    Permutation (fs_items s') (filter (matching s) (fs_master s)) /\
    (fs_sorted s = false -> fs_items s' = build_items lt s) /\
    (forall k, fs_sorted s = true -> fs_key s = Some k -> strict_weak_order lt ->
       srt (sort_op lt (fs_rev s)) (fun y => k (fs_content s y)) (retained s) ->
       srt (sort_op lt (fs_rev s)) (fun y => k (fs_content s y)) (fs_items s')) /\
    (fs_sorted s = true -> fs_key s = None -> fs_rev s = false ->
       retained s = filter (fun x => inb x (fs_items s)) (build_items lt s) ->
       fs_items s' = build_items lt s).
  Proof.
    unfold update_items. intros E Hlev (Hm & Hl & Hi) Hord. unfold set_iteration in Hord.
    destruct (Z.ltb_spec 0 (fs_level s)); [lia|].
    rewrite (proj2 (nodupb_spec A_dec (fs_master s)) Hm) in E. simpl negb in E. cbv iota in E.
    destruct (fs_sorted s) eqn:Es.
    - destruct (rem_loop _ (fs_items s) 0 0 (fs_items s)) as [it1 t1] eqn:E1.
      assert (Hit1 : it1 = retained s).
      { pose proof (rem_loop_spec (fun x => negb (inb x (build_items lt s))) (fs_items s) [] 0 0 eq_refl (le_n 0)) as R.
        simpl in R. rewrite E1 in R. simpl in R. rewrite R. unfold retained. apply filter_ext_in'.
        intros x _. rewrite negb_involutive. reflexivity. }
      subst it1.
      destruct (ins_loop _ _ (retained s)) as [it2 t2] eqn:E2. injection E as <- <- <-.
      split; [reflexivity|]. split; [simpl; reflexivity|]. cbn [fs_items with_sorted with_items].
      assert (Hp : Permutation it2 (build_items lt s)).
      { match type of E2 with ins_loop ?p ?xs ?l = _ => pose proof (ins_loop_perm p xs l) as R end.
        rewrite E2 in R. cbn [fst] in R. rewrite R, (Hord _). apply retained_perm; assumption. }
      split; [rewrite Hp; apply build_perm|]. split; [discriminate|]. split.
      + intros k _ Hk Hw Hs. rewrite Hk in E2.
        match type of E2 with ins_loop (find_sorted ?op ?key) ?xs ?l = _ => pose proof (ins_loop_srt op key xs (swo_op lt (fs_rev s) Hw) l Hs) as R end.
        rewrite E2 in R. exact R.
      + intros _ Hk Hr Hret. rewrite Hk, Hr in E2.
        match type of E2 with ins_loop (find_sorted ?op ?key) ?xs ?l = _ => pose proof (ins_loop_srt op key xs (swo_op _ false nat_swo) l) as R end.
        rewrite E2 in R. cbn [fst] in R.
        assert (Hsn : srt (sort_op Nat.ltb false) (index_in A_dec (build_items lt s)) (build_items lt s)).
        { apply index_in_srt, build_nodup. exact Hm. }
        eapply ss_perm_eq; [| |exact Hsn|exact Hp].
        * intros a b Ha Hb H1 H2. apply (index_in_inj A_dec (build_items lt s)); [rewrite <- Hp; exact Ha|rewrite <- Hp; exact Hb|].
          unfold sort_op in H1, H2. apply Nat.ltb_ge in H1, H2. lia.
        * apply R. rewrite Hret. apply ss_filter. exact Hsn.
    - destruct (append_loop (build_items lt s) []) as [it2 t2] eqn:E2. injection E as <- <- <-.
      pose proof (append_loop_spec (build_items lt s) []) as R. rewrite E2 in R. simpl in R. subst it2.
      split; [reflexivity|]. split; [reflexivity|]. cbn [fs_items with_sorted with_items].
      split; [apply build_perm|]. split; [reflexivity|]. split; [discriminate|discriminate].
  Qed.

  (** a content change of an item *)
  Lemma content_matching (s : fstate) x c y :
    y <> x -> matching (with_content s (update_content A_dec (fs_content s) x c)) y = matching s y.
  Proof. intros H. unfold matching, update_content. simpl. destruct (A_dec y x); [contradiction|reflexivity]. Qed.
  Lemma content_filter (s : fstate) x c l :
    ~ In x l -> filter (matching (with_content s (update_content A_dec (fs_content s) x c))) l = filter (matching s) l.
  Proof. intros H. apply filter_ext_in'. intros y Hy. apply content_matching. intros ->. contradiction. Qed.
  Lemma content_srt (s : fstate) (k : C -> K) op x c l :
    ~ In x l -> srt op (fun y => k (fs_content s y)) l ->
    srt op (fun y => k (update_content A_dec (fs_content s) x c y)) l.
  Proof.
    intros H. apply ss_weaken. intros a b Ha Hb Hop. unfold update_content.
    destruct (A_dec a x) as [->|]; [contradiction|]. destruct (A_dec b x) as [->|]; [contradiction|]. exact Hop.
  Qed.
  Lemma content_srt_keep (s : fstate) (k : C -> K) op x c l :
    (In x l -> k c = k (fs_content s x)) -> srt op (fun y => k (fs_content s y)) l ->
    srt op (fun y => k (update_content A_dec (fs_content s) x c y)) l.
  Proof.
    intros H. apply ss_weaken. intros a b Ha Hb Hop. unfold update_content.
    destruct (A_dec a x) as [->|]; destruct (A_dec b x) as [->|]; rewrite ?(H Ha), ?(H Hb); exact Hop.
  Qed.

  (** all outcomes of updated_master at level <= 0, in terms of the lists *)
  Lemma inserted_master_level (s : fstate) x s' tr :
    inserted_master A_dec lt s x = (s', tr) -> (fs_level s <= 0)%Z ->
    s' = if matching s x then with_items s (insert_at (insert_pos A_dec lt s x) x (fs_items s)) else s.
  Proof.
    unfold inserted_master, do_insert. intros E H. destruct (Z.ltb_spec 0 (fs_level s)); [lia|].
    destruct (matching s x); injection E as <- <-; reflexivity.
  Qed.

  (** what updated_master leaves, when the list was right apart from x *)
  Inductive moved (s : fstate) (x : A) : fstate -> Prop :=
  | m_absent : matching s x = false -> ~ In x (fs_items s) -> moved s x s
  | m_removed i1 i2 : matching s x = false -> fs_items s = i1 ++ x :: i2 -> moved s x (with_items s (i1 ++ i2))
  | m_inserted : matching s x = true -> ~ In x (fs_items s) ->
      moved s x (with_items s (insert_at (insert_pos A_dec lt s x) x (fs_items s)))
  | m_kept : matching s x = true -> In x (fs_items s) ->
      (forall k, fs_key s = Some k ->
         index_of x (fs_items s) = Some (find_sorted (sort_op lt (fs_rev s)) (fun y => k (fs_content s y)) (fs_items s) x)) ->
      moved s x s
  | m_moved i1 i2 k : matching s x = true -> fs_items s = i1 ++ x :: i2 -> fs_key s = Some k ->
      index_of x (fs_items s) <> Some (find_sorted (sort_op lt (fs_rev s)) (fun y => k (fs_content s y)) (fs_items s) x) ->
      moved s x (with_items s (insert_at (find_sorted (sort_op lt (fs_rev s)) (fun y => k (fs_content s y)) (i1 ++ i2) x) x (i1 ++ i2))).

  Lemma updated_master_moved (s : fstate) x s' tr :
    updated_master A_dec lt s x = (s', tr) -> (fs_level s <= 0)%Z -> moved s x s'.
  Proof.
    unfold updated_master. intros E Hlev. destruct (Z.ltb_spec 0 (fs_level s)); [lia|].
    destruct (matching s x) eqn:Em.
    - destruct (fs_key s) as [k|] eqn:Ek.
      + set (b := find_sorted _ _ _ _) in E. destruct (index_of x (fs_items s)) as [i|] eqn:Ei.
        * assert (R : remove_then_insert A_dec lt s x = (s', tr) -> b <> i -> moved s x s').
          { unfold remove_then_insert. destruct (removed_master A_dec s x) as [s1 t1] eqn:E1.
            destruct (inserted_master A_dec lt s1 x) as [s2 t2] eqn:E2. intros [= <- <-] Hne.
            destruct (removed_master_cases _ _ _ _ _ E1) as [[-> [Hc|Hc]]|(i1 & i2 & Ei2 & Hni & -> & _)]; [lia| |].
            - apply (index_of_none A_dec) in Hc. congruence.
            - apply inserted_master_level in E2; [|exact Hlev].
              change (matching (with_items s (i1 ++ i2)) x) with (matching s x) in E2. rewrite Em in E2.
              unfold insert_pos in E2. simpl in E2. rewrite Ek in E2.
              match type of E2 with _ = with_items (with_items s _) ?z => change (s2 = with_items s z) in E2 end.
              rewrite E2. apply m_moved; [exact Em|exact Ei2|exact Ek|]. fold b. congruence. }
          destruct (Nat.ltb_spec b i); [apply R; [exact E|lia]|].
          destruct (Nat.ltb_spec i b); [apply R; [exact E|lia]|].
          injection E as <- <-. apply m_kept; [exact Em| |].
          -- apply index_of_some in Ei as (l1 & l2 & -> & _). apply in_app_iff. right; left; reflexivity.
          -- intros k' Hk'. assert (k' = k) as -> by congruence. fold b. rewrite Ei. f_equal. lia.
        * apply inserted_master_level in E; [|exact Hlev]. rewrite Em in E. subst s'.
          apply m_inserted; [exact Em|]. apply (index_of_none A_dec). exact Ei.
      + destruct (inb x (fs_items s)) eqn:Ei.
        * injection E as <- <-. apply m_kept; [exact Em|apply (inb_spec A_dec); exact Ei|congruence].
        * apply inserted_master_level in E; [|exact Hlev]. rewrite Em in E. subst s'.
          apply m_inserted; [exact Em|]. apply (inb_false A_dec). exact Ei.
    - destruct (removed_master_cases _ _ _ _ _ E) as [[-> [Hc|Hc]]|(i1 & i2 & Ei2 & Hni & -> & _)]; [lia| |].
      + apply m_absent; assumption.
      + apply m_removed; assumption.
  Qed.

  Lemma content_step_inv (s : fstate) x c s' tr e :
    f_step A_dec lt s (FContent x c) = (s', tr, e) -> inv s ->
    e = None /\ inv s' /\ fs_master s' = fs_master s /\
    frame (with_content s (update_content A_dec (fs_content s) x c)) s' /\
    (uns s -> uns s') /\
    (strict_weak_order lt -> (forall k, fs_key s = Some k -> In x (fs_items s) -> k c = k (fs_content s x)) -> sor s -> sor s') /\
    ((0 < fs_level s)%Z -> fs_items s' = fs_items s).
  Proof.
    cbn [f_step]. intros E [[(Hm & Hl & Hi) Hp] Hlink].
    set (s1 := with_content s (update_content A_dec (fs_content s) x c)) in *.
    assert (SK : (forall k, fs_key s = Some k -> In x (fs_items s) -> k c = k (fs_content s x)) -> sor s -> sor s1).
    { intros Hkk Hs k Hk Hor. simpl. apply content_srt_keep; [intros; apply Hkk; auto|]. apply (Hs k Hk Hor). }
    destruct (inb x (fs_listen s)) eqn:Exl.
    2:{ injection E as <- <- <-. apply (inb_false A_dec) in Exl. rewrite Hl in Exl.
        assert (F : filter (matching s1) (fs_master s) = filter (matching s) (fs_master s)) by (apply content_filter; exact Exl).
        split; [reflexivity|]. split; [split; [split; [split; [exact Hm|split; [exact Hl|exact Hi]]|]|exact Hlink]|].
        { intros Hlev. cbn [fs_master fs_items s1 with_content]. rewrite F. apply Hp. exact Hlev. }
        split; [reflexivity|]. split; [apply frame_refl|]. split; [|split; [auto|reflexivity]].
        intros Hu Hlev Hk. cbn [fs_master fs_items s1 with_content]. rewrite F. apply Hu; assumption. }
    apply (inb_spec A_dec) in Exl. rewrite Hl in Exl.
    rewrite (proj2 (inb_spec A_dec x _) Exl) in E.
    destruct (updated_master A_dec lt s1 x) as [s2 t2] eqn:E2. injection E as <- <- <-.
    destruct (Z_le_gt_dec (fs_level s) 0) as [Hlev|Hlev].
    2:{ unfold updated_master in E2. cbn [fs_level s1 with_content] in E2. destruct (Z.ltb_spec 0 (fs_level s)); [|lia].
        injection E2 as <- <-. split; [reflexivity|].
        split; [split; [split; [split; [exact Hm|split; [exact Hl|exact Hi]]|]|exact Hlink]|].
        { cbn [fs_level s1 with_content]. lia. }
        split; [reflexivity|]. split; [apply frame_refl|]. split; [|split; [auto|reflexivity]].
        intros _ H1. cbn [fs_level s1 with_content] in H1. lia. }
    specialize (Hp Hlev). apply in_split in Exl as (l1 & l2 & Em). rewrite Em in Hm, Hp.
    apply nodup_app_parts in Hm as Hx. destruct Hx as (Hx1 & Hx2 & _ & _).
    assert (FF : filter (matching s1) (fs_master s) = filter (matching s) l1 ++ (if matching s1 x then [x] else []) ++ filter (matching s) l2).
    { rewrite Em, filter_app_cons. unfold s1 at 1 3. rewrite !content_filter by assumption. reflexivity. }
    rewrite filter_app_cons in Hp.
    assert (UU : uns s -> fs_key s = None -> fs_items s = filter (matching s) l1 ++ (if matching s x then [x] else []) ++ filter (matching s) l2).
    { intros Hu Hk. rewrite (Hu Hlev Hk), Em, filter_app_cons. reflexivity. }
    assert (Hxi : In x (fs_items s) <-> matching s x = true).
    { rewrite Hp, !in_app_iff, !filter_In. destruct (matching s x); simpl; [tauto|]. split; [tauto|discriminate]. }
    rewrite <- Em in Hm.
    destruct (updated_master_moved _ _ _ _ E2 Hlev) as [Hmx Hni|i1 i2 Hmx Ei|Hmx Hni|Hmx Hin Hpos|i1 i2 k Hmx Ei Hk Hpos]; cbn [fs_items fs_key fs_rev fs_content s1 with_content] in *.
    - (* absent *) assert (Hmo : matching s x = false) by (destruct (matching s x); [tauto|reflexivity]).
      rewrite Hmx in FF. rewrite Hmo in *.
      split; [reflexivity|]. split; [split; [split; [split; [exact Hm|split; [exact Hl|exact Hi]]|]|exact Hlink]|].
      { intros _. cbn [fs_items fs_master s1 with_content]. rewrite FF. exact Hp. }
      split; [reflexivity|]. split; [apply frame_refl|]. split; [|split; [auto|reflexivity]].
      intros Hu _ Hk. cbn [fs_items fs_master s1 with_content]. rewrite FF. apply UU; assumption.
    - (* removed *) assert (Hmo : matching s x = true) by (apply Hxi; rewrite Ei, in_app_iff; right; left; reflexivity).
      rewrite Hmx in FF. rewrite Hmo in *. rewrite Ei in Hi, Hp. apply nodup_app_parts in Hi as (Hn1 & Hn2 & Hi12 & _).
      split; [reflexivity|]. split; [split; [split; [split; [exact Hm|split; [exact Hl|exact Hi12]]|]|exact Hlink]|].
      { intros _. cbn [fs_items fs_master s1 with_content with_items]. change (matching _) with (matching s1). rewrite FF.
        apply Permutation_app_inv in Hp. exact Hp. }
      split; [reflexivity|]. split; [repeat split|]. split; [|split].
      + intros Hu _ Hk. cbn [fs_items fs_master s1 with_content with_items fs_key] in *. change (matching _) with (matching s1). rewrite FF.
        specialize (UU Hu Hk). rewrite Ei in UU. simpl in UU.
        assert (N1 : ~ In x (filter (matching s) l1)) by (rewrite filter_In; tauto).
        assert (Hlen : length i1 = length (filter (matching s) l1)).
        { pose proof (index_of_app A_dec x i1 i2 Hn1) as I1. rewrite UU, index_of_app in I1 by exact N1. congruence. }
        destruct (app_inj_pivot_len _ _ _ _ _ UU Hlen) as [-> ->]. reflexivity.
      + intros Hw Hkk Hs k Hk Hor. specialize (SK Hkk Hs k Hk Hor). cbn [fs_items s1 with_content with_items] in *.
        rewrite Ei in SK. eapply ss_delete. exact SK.
      + intros. lia.
    - (* inserted *) assert (Hmo : matching s x = false) by (destruct (matching s x); [tauto|reflexivity]).
      rewrite Hmx in FF. rewrite Hmo in *.
      assert (Hp2 : Permutation (insert_at (insert_pos A_dec lt s1 x) x (fs_items s)) (filter (matching s1) (fs_master s))).
      { rewrite insert_at_perm, FF, Hp. simpl. apply Permutation_middle. }
      split; [reflexivity|]. split; [split; [split; [split; [exact Hm|split; [exact Hl|]]|]|exact Hlink]|].
      { cbn [fs_items with_items]. eapply Permutation_NoDup; [symmetry; exact Hp2|]. apply NoDup_filter. exact Hm. }
      { intros _. exact Hp2. }
      split; [reflexivity|]. split; [repeat split|]. split; [|split].
      + intros Hu _ Hk. cbn [fs_items fs_master with_items]. change (fs_items s) with (fs_items s1).
        apply (insert_pos_uns A_dec lt s1 x l1 l2); [exact Hk|exact Hx1|exact Em| |exact Hmx].
        cbn [fs_items s1 with_content]. rewrite (UU Hu Hk), filter_app. unfold s1. rewrite !content_filter by assumption. reflexivity.
      + intros Hw Hkk Hs k Hk Hor. cbn [fs_items with_items fs_rev fs_content]. unfold insert_pos.
        cbn [fs_key with_items] in Hk. rewrite Hk. apply find_sorted_insert; [apply swo_op; exact Hw|].
        apply (SK Hkk Hs k Hk Hor).
      + intros. lia.
    - (* kept *) apply Hxi in Hin as Hmo. rewrite Hmx in FF. rewrite Hmo in *.
      split; [reflexivity|]. split; [split; [split; [split; [exact Hm|split; [exact Hl|exact Hi]]|]|exact Hlink]|].
      { intros _. cbn [fs_items fs_master s1 with_content]. rewrite FF. exact Hp. }
      split; [reflexivity|]. split; [apply frame_refl|]. split; [|split; [auto|reflexivity]].
      intros Hu _ Hk. cbn [fs_items fs_master s1 with_content]. rewrite FF. apply UU; assumption.
    - (* moved *) assert (Hmo : matching s x = true) by (apply Hxi; rewrite Ei, in_app_iff; right; left; reflexivity).
      rewrite Hmx in FF. rewrite Hmo in *. rewrite Ei in Hi, Hp. apply nodup_app_parts in Hi as (Hn1 & Hn2 & Hi12 & Hx12).
      match goal with |- context [insert_at ?b x (i1 ++ i2)] =>
        assert (Hp2 : Permutation (insert_at b x (i1 ++ i2)) (filter (matching s1) (fs_master s))) end.
      { rewrite insert_at_perm, FF. rewrite <- Hp. apply Permutation_middle. }
      split; [reflexivity|]. split; [split; [split; [split; [exact Hm|split; [exact Hl|]]|]|exact Hlink]|].
      { cbn [fs_items with_items]. eapply Permutation_NoDup; [symmetry; exact Hp2|]. apply NoDup_filter. exact Hm. }
      { intros _. exact Hp2. }
      split; [reflexivity|]. split; [repeat split|]. split; [|split].
      + intros _ _ Hk'. cbn [fs_key with_items s1 with_content] in Hk'. congruence.
      + intros Hw Hkk Hs k' Hk' Hor. cbn [fs_key with_items s1 with_content] in Hk'. assert (k' = k) as -> by congruence.
        cbn [fs_items with_items fs_rev fs_content s1 with_content]. apply find_sorted_insert; [apply swo_op; exact Hw|].
        apply content_srt; [exact Hx12|]. assert (Hs0 : srt (sort_op lt (fs_rev s)) (fun y => k (fs_content s y)) (fs_items s)) by (apply Hs; auto).
        rewrite Ei in Hs0. eapply ss_delete. exact Hs0.
      + intros. lia.
  Qed.

  Lemma py_get_split (l : list A) i x :
    py_get l i = Ok x -> exists l1 l2, l = l1 ++ x :: l2 /\ py_index (length l) i = Some (length l1) /\ py_del l i = Ok (l1 ++ l2).
  Proof.
    unfold py_get, py_del. destruct (py_index (length l) i) as [k|] eqn:E; [|discriminate].
    destruct (nth_error l k) as [y|] eqn:N; [|discriminate]. intros [= ->].
    apply nth_error_split in N as (l1 & l2 & -> & <-). exists l1, l2. rewrite delete_at_app. auto.
  Qed.

  (** items inserted in, removed from the container *)
  Lemma insert_step_inv (s : fstate) i x s' tr e :
    f_step A_dec lt s (FInsert i x) = (s', tr, e) -> inv s -> ~ In x (contents s) ->
    inv s' /\ fs_key s' = fs_key s /\ fs_level s' = fs_level s /\ fs_sorted s' = fs_sorted s /\
    (fs_cont s = None -> s' = s) /\ (fs_cont s <> None -> fs_master s' = py_insert i x (fs_master s)) /\
    (uns s -> uns s') /\ (strict_weak_order lt -> sor s -> sor s') /\ ((0 < fs_level s)%Z -> fs_items s' = fs_items s).
  Proof.
    cbn [f_step]. unfold contents. intros E [H Hl] Hx. unfold link in Hl. destruct (fs_cont s) as [l|] eqn:Ec.
    - destruct Hl as [Hconn Hm]. rewrite Hconn in E.
      destruct (item_inserted_inv A_dec lt _ _ _ _ _ _ E) as (-> & H1 & Hm1 & F1 & U1 & S1 & I1); [exact H|cbn; rewrite Hm; exact Hx|].
      cbn in Hm1. destruct F1 as (Fc & Fn & Fso & Ff & Fk & Fr & Fl & Fw). cbn in *.
      split; [split; [exact H1|unfold link; rewrite Fc, Hm1, Hm; auto]|].
      split; [exact Fk|]. split; [exact Fl|]. split; [exact Fso|]. split; [discriminate|]. split; [auto|].
      split; [exact U1|]. split; [exact S1|]. exact I1.
    - injection E as <- <- <-. split; [split; [exact H|unfold link; rewrite Ec; exact Hl]|].
      do 4 (split; [auto|]). split; [congruence|]. auto.
  Qed.

  Lemma remove_step_inv (s : fstate) i s' tr e :
    f_step A_dec lt s (FRemove i) = (s', tr, e) -> inv s ->
    inv s' /\ fs_key s' = fs_key s /\ fs_level s' = fs_level s /\ fs_sorted s' = fs_sorted s /\
    (s' = s \/ exists x l1 l2, py_get (contents s) i = Ok x /\ fs_master s = l1 ++ x :: l2 /\ fs_master s' = l1 ++ l2) /\
    (uns s -> uns s') /\ (sor s -> sor s') /\ ((0 < fs_level s)%Z -> fs_items s' = fs_items s).
  Proof.
    cbn [f_step]. intros E [H Hl]. assert (Hl0 := Hl). unfold link in Hl.
    assert (Stay : s' = s -> inv s' /\ fs_key s' = fs_key s /\ fs_level s' = fs_level s /\ fs_sorted s' = fs_sorted s /\
      (s' = s \/ exists x l1 l2, py_get (contents s) i = Ok x /\ fs_master s = l1 ++ x :: l2 /\ fs_master s' = l1 ++ l2) /\
      (uns s -> uns s') /\ (sor s -> sor s') /\ ((0 < fs_level s)%Z -> fs_items s' = fs_items s)).
    { intros ->. split; [split; assumption|]. repeat (split; [auto|]); auto. }
    unfold contents in *. destruct (fs_cont s) as [l|] eqn:Ec; [|injection E as <- <- <-; apply Stay; reflexivity].
    destruct (py_get l i) as [x|] eqn:Eg; [|injection E as <- <- <-; apply Stay; reflexivity].
    destruct (py_get_split _ _ _ Eg) as (l1 & l2 & El & Hidx & Hd). rewrite Hd in E. destruct Hl as [Hconn Hm]. rewrite Hconn in E.
    destruct (item_removed_inv A_dec lt _ _ _ l1 l2 _ _ _ E) as (-> & H1 & Hm1 & F1 & U1 & S1 & I1); [exact H|cbn; congruence|cbn; rewrite Hm; exact Hidx|].
    destruct F1 as (Fc & Fn & Fso & Ff & Fk & Fr & Fl & Fw). cbn in *.
    split; [split; [exact H1|unfold link; rewrite Fc, Hm1; auto]|].
    split; [exact Fk|]. split; [exact Fl|]. split; [exact Fso|].
    split; [right; exists x, l1, l2; repeat split; congruence|]. auto.
  Qed.

  Lemma settings_step_inv (s : fstate) f k r s' tr e :
    reset_and_update A_dec lt (with_settings s f k r) = (s', tr, e) -> inv s ->
    inv s' /\ fs_level s' = fs_level s /\ fs_key s' = k /\
    ((0 < fs_level s)%Z -> fs_sorted s' = false) /\ uns s' /\ (strict_weak_order lt -> sor s').
  Proof.
    unfold reset_and_update. intros E [[H0 Hp] Hl].
    destruct (update_items A_dec lt (fun l => l) (with_settings s f k r)) as [[s1 t1] e1] eqn:E1. injection E as <- <- <-.
    destruct (Z_le_gt_dec (fs_level s) 0) as [Hlev|Hlev].
    - destruct (update_items_inv (fun l => l) _ _ _ _ E1 Hlev H0) as (-> & Es & Hperm & Hbuild & _); [intros l; reflexivity|].
      specialize (Hbuild eq_refl). set (s0 := with_settings s f k r) in *.
      assert (Ei : forall it, s1 = with_sorted (with_items s0 it) true -> inv s1 /\ fs_level s1 = fs_level s /\ fs_key s1 = k /\
        ((0 < fs_level s)%Z -> fs_sorted s1 = false) /\ uns s1 /\ (strict_weak_order lt -> sor s1)).
      { intros it Eit. rewrite Eit in Hbuild, Hperm. cbn [fs_items with_sorted with_items] in Hbuild, Hperm. subst s1.
        split; [split; [split; [split; [apply H0|split; [apply H0|]]|]|]|].
        - cbn. eapply Permutation_NoDup; [symmetry; exact Hperm|]. apply NoDup_filter. apply H0.
        - intros _. exact Hperm.
        - exact Hl.
        - split; [reflexivity|]. split; [reflexivity|]. split; [lia|]. split.
          + intros _ Hk. cbn. rewrite Hbuild. unfold build_items. cbn in Hk. cbn [fs_key s0 with_settings]. rewrite Hk. reflexivity.
          + intros Hw k0 Hk0 _. cbn in Hk0 |- *. rewrite Hbuild. apply (build_srt s0); assumption. }
      eapply Ei. exact Es.
    - unfold update_items in E1. cbn [fs_level with_settings] in E1. destruct (Z.ltb_spec 0 (fs_level s)); [|lia].
      injection E1 as <- <- <-. split; [split; [split; [exact H0|cbn; lia]|exact Hl]|].
      split; [reflexivity|]. split; [reflexivity|]. split; [reflexivity|]. split; [intros H1; cbn in H1; lia|].
      intros _ k0 Hk0 [H1|H1]; cbn in H1; [lia|discriminate].
  Qed.

  Lemma sor_level (s : fstate) n :
    (fs_sorted s = true -> forall k, fs_key s = Some k -> srt (sort_op lt (fs_rev s)) (fun y => k (fs_content s y)) (fs_items s)) ->
    ((n <= 0)%Z -> (fs_level s <= 0)%Z) -> sor s -> sor (with_level s n).
  Proof. intros H1 H2 Hs k Hk [H|H]; cbn in *; [apply Hs; auto|apply Hs; auto]. Qed.

  Lemma end_step_inv (s : fstate) ord s' tr e :
    f_step A_dec lt s (FEndChange ord) = (s', tr, e) -> inv s -> set_iteration ord ->
    inv s' /\
    (strict_weak_order lt -> sor s -> sor s') /\
    (forall gone, (fs_level s = 1%Z -> fs_key s = None -> fs_rev s = false) -> uns s -> blk gone s -> uns s' /\
       blk (gone_after A_dec lt gone s (FEndChange ord)) s').
  Proof.
    intros E. assert (E0 := E). cbn [f_step] in E. cbn [fs_level with_level] in E. intros Hinv Hord.
    destruct Hinv as [[H0 Hp] Hl].
    destruct (Z.eqb_spec (fs_level s - 1) 0) as [Hz|Hz].
    - destruct (update_items_inv ord _ _ _ _ E) as (-> & Es & Hperm & Hbuild & Hsrt & Huns); [cbn; lia|exact H0|exact Hord|].
      set (s0 := with_level s (fs_level s - 1)) in *.
      remember (fs_items s') as it eqn:Eit. clear Eit. subst s'. cbn [fs_items with_sorted with_items] in *.
      split; [split; [split; [split; [apply H0|split; [apply H0|]]|]|exact Hl]|].
      { cbn. eapply Permutation_NoDup; [symmetry; exact Hperm|]. apply NoDup_filter. apply H0. }
      { intros _. exact Hperm. }
      split.
      + intros Hw Hs k Hk _. cbn in Hk |- *. destruct (fs_sorted s) eqn:Eso.
        * apply (Hsrt k); [exact Eso|exact Hk|exact Hw|]. apply ss_filter. apply Hs; auto.
        * rewrite (Hbuild Eso). apply (build_srt s0); assumption.
      + intros gone Hrev Hu Hb. split; [|intros Hlt; cbn in Hlt; lia].
        intros _ Hk. cbn in Hk |- *.
        assert (Bu : build_items lt s0 = filter (matching s) (fs_master s)).
        { unfold build_items. cbn [fs_key s0 with_level]. rewrite Hk. reflexivity. }
        destruct (fs_sorted s) eqn:Eso.
        * change (filter _ _) with (filter (matching s) (fs_master s)). rewrite <- Bu.
          apply Huns; [exact Eso|exact Hk|apply Hrev; [lia|exact Hk]|].
          destruct (Hb ltac:(lia) Eso Hk) as [Hb1 _]. unfold retained. cbn [fs_items s0 with_level]. rewrite Bu.
          transitivity (filter (matching s) (filter (fun x => inb x (fs_master s)) (fs_items s))).
          -- rewrite filter_filter. apply filter_ext_in'. intros y _.
             apply eq_true_iff_eq. rewrite (inb_spec A_dec), filter_In, andb_true_iff, (inb_spec A_dec). tauto.
          -- rewrite Hb1, !filter_filter. apply filter_ext_in'. intros y _. apply andb_comm.
        * rewrite (Hbuild Eso), Bu. reflexivity.
    - injection E as <- <- <-. split; [split; [split; [exact H0|]|exact Hl]|].
      { intros Hlev. cbn in Hlev |- *. apply Hp. lia. }
      split.
      + intros Hw Hs. apply sor_level; [auto|cbn; lia|exact Hs].
      + intros gone _ Hu Hb. split.
        * intros Hlev Hk. cbn in *. apply Hu; [lia|exact Hk].
        * intros Hlev Hso Hk. cbn [fs_level with_level fs_sorted fs_key] in Hlev, Hso, Hk. cbn [fs_items fs_master with_level].
          unfold gone_after. rewrite E0. cbn [fst fs_level with_level]. destruct (Z.ltb_spec 0 (fs_level s - 1)); [|lia].
          apply Hb; [lia|exact Hso|exact Hk].
  Qed.

  Lemma step_inv (s : fstate) o s' tr e :
    f_step A_dec lt s o = (s', tr, e) -> inv s -> no_duplicates s o -> set_order s o ->
    inv s' /\ (strict_weak_order lt -> keeps_keys s o -> sor s -> sor s').
  Proof.
    destruct o as [i x|i|x c|f|k|b| |ord|c| | |]; intros E H Hd Ho.
    - destruct (insert_step_inv _ _ _ _ _ _ E H Hd) as (H1 & _ & _ & _ & _ & _ & _ & H2 & _). auto.
    - destruct (remove_step_inv _ _ _ _ _ E H) as (H1 & _ & _ & _ & _ & _ & H2 & _). auto.
    - destruct (content_step_inv _ _ _ _ _ _ E H) as (_ & H1 & _ & _ & _ & H2 & _). auto.
    - destruct (settings_step_inv _ _ _ _ _ _ _ E H) as (H1 & _ & _ & _ & _ & H2). auto.
    - destruct (settings_step_inv _ _ _ _ _ _ _ E H) as (H1 & _ & _ & _ & _ & H2). auto.
    - destruct (settings_step_inv _ _ _ _ _ _ _ E H) as (H1 & _ & _ & _ & _ & H2). auto.
    - cbn [f_step] in E. injection E as <- <- <-. destruct H as [[H0 Hp] Hl].
      split; [split; [split; [exact H0|intros Hlev; apply Hp; cbn in Hlev; lia]|exact Hl]|].
      intros _ _ Hs. apply sor_level; [auto|lia|exact Hs].
    - destruct (end_step_inv _ _ _ _ _ E H Ho) as (H1 & H2 & _). auto.
    - cbn [f_step] in E. destruct (set_container_inv _ _ _ _ _ E H) as (_ & H1 & _ & _ & _ & H2); [destruct c; [exact Hd|exact I]|]. auto.
    - cbn [f_step] in E. injection E as <- <- <-. split; [exact H|]. intros _ _ Hs k Hk [Hor|Hor]; [apply Hs; auto|discriminate].
    - cbn [f_step] in E. injection E as <- <- <-. auto.
    - cbn [f_step] in E. injection E as <- <- <-. auto.
  Qed.

  Definition reinserts (gone : list A) (s : fstate) (o : fop A C K) : Prop :=
    match o with FInsert _ x => block_open s -> fs_key s = None -> ~ In x gone | _ => True end.

  Lemma filter_pivot_out (f : A -> bool) l1 x l2 : f x = false -> filter f (l1 ++ x :: l2) = filter f (l1 ++ l2).
  Proof. intros H. rewrite filter_app_cons, filter_app, H. reflexivity. Qed.

  Lemma step_uns gone (s : fstate) o s' tr e :
    f_step A_dec lt s o = (s', tr, e) -> inv s -> no_duplicates s o -> set_order s o ->
    no_reverse_without_key s o -> reinserts gone s o ->
    uns s -> blk gone s -> uns s' /\ blk (gone_after A_dec lt gone s o) s'.
  Proof.
    assert (Settings : forall f k r, reset_and_update A_dec lt (with_settings s f k r) = (s', tr, e) -> inv s ->
      uns s' /\ blk (gone_after A_dec lt gone s o) s').
    { intros f k r E H. destruct (settings_step_inv _ _ _ _ _ _ _ E H) as (_ & Hl & _ & Hso & Hu & _). split; [exact Hu|].
      intros Hlev Hso' _. rewrite Hso in Hso'; [discriminate|]. rewrite <- Hl. exact Hlev. }
    destruct o as [i x|i|x c|f|k|b| |ord|c| | |]; intros E H Hd Ho Hr Hre Hu Hb.
    - destruct (insert_step_inv _ _ _ _ _ _ E H Hd) as (H1 & Fk & Fl & Fso & Hn & Hm & HU & _ & HI).
      split; [apply HU; exact Hu|]. unfold gone_after. rewrite E. cbn [fst]. intros Hlev Hso Hk.
      destruct (Z.ltb_spec 0 (fs_level s')); [|lia]. rewrite Fl in Hlev. rewrite Fso in Hso. rewrite Fk in Hk.
      destruct (Hb Hlev Hso Hk) as [Hb1 Hb2]. rewrite (HI Hlev).
      destruct (fs_cont s) as [l|] eqn:Ec; [|rewrite (Hn eq_refl); auto].
      rewrite Hm by discriminate. destruct (py_insert_split i x (fs_master s)) as (l1 & l2 & E1 & E2).
      assert (Hxm : ~ In x (fs_master s)).
      { destruct H as [_ Hl]. unfold link in Hl. rewrite Ec in Hl. destruct Hl as [_ ->]. unfold no_duplicates, contents in Hd. rewrite Ec in Hd. exact Hd. }
      assert (Hxi : ~ In x (fs_items s)).
      { intros Hin. destruct (Hb2 x Hin) as [?|Hg]; [contradiction|]. exact (Hre Hlev Hk Hg). }
      split.
      + rewrite E2, filter_pivot_out by (apply (inb_false A_dec); exact Hxi). rewrite <- E1, <- Hb1.
        apply filter_ext_in'. intros y Hy. apply eq_true_iff_eq. rewrite !(inb_spec A_dec), E1, !in_app_iff. simpl.
        split; [intros [?|[->|?]]; tauto|tauto].
      + intros y Hy. rewrite E2, in_app_iff. simpl. destruct (Hb2 y Hy) as [Hin|Hin]; [|tauto]. rewrite E1, in_app_iff in Hin. tauto.
    - destruct (remove_step_inv _ _ _ _ _ E H) as (H1 & Fk & Fl & Fso & Hm & HU & _ & HI).
      split; [apply HU; exact Hu|]. unfold gone_after. rewrite E. cbn [fst]. intros Hlev Hso Hk.
      destruct (Z.ltb_spec 0 (fs_level s')); [|lia]. rewrite Fl in Hlev. rewrite Fso in Hso. rewrite Fk in Hk.
      destruct (Hb Hlev Hso Hk) as [Hb1 Hb2]. rewrite (HI Hlev).
      destruct Hm as [->|(x & l1 & l2 & Hg & Em & Em')].
      + split; [exact Hb1|]. intros y Hy. destruct (Hb2 y Hy); [auto|]. right. destruct (py_get _ _); simpl; auto.
      + rewrite Hg, Em'. destruct H as [[(Hnd & _) _] _]. rewrite Em in Hnd. apply nodup_app_parts in Hnd as (Hx1 & Hx2 & _ & Hx12).
        split.
        * transitivity (filter (fun y => negb (if A_dec y x then true else false)) (filter (fun y => inb y (fs_master s)) (fs_items s))).
          -- rewrite filter_filter. apply filter_ext_in'. intros y _. apply eq_true_iff_eq.
             rewrite andb_true_iff, negb_true_iff, !(inb_spec A_dec), Em, !in_app_iff. simpl.
             destruct (A_dec y x) as [->|Hne]; [rewrite in_app_iff in Hx12; split; [tauto|intros []; discriminate]|].
             split; [intros [?|?]; auto|intros [[?|[?|?]] _]; auto; congruence].
          -- rewrite Hb1, filter_filter, Em, filter_pivot_out.
             ++ apply filter_ext_in'. intros y Hy. destruct (A_dec y x) as [->|]; [contradiction|]. rewrite andb_true_r. reflexivity.
             ++ destruct (A_dec x x); [|congruence]. apply andb_false_r.
        * intros y Hy. destruct (Hb2 y Hy) as [Hin|Hin]; [|right; right; exact Hin].
          rewrite Em, in_app_iff in Hin. rewrite in_app_iff. simpl in *. destruct Hin as [?|[?|?]]; auto.
    - destruct (content_step_inv _ _ _ _ _ _ E H) as (_ & H1 & Hm & F & HU & _ & HI).
      destruct F as (_ & _ & Fso & _ & Fk & _ & Fl & _). cbn in Fso, Fk, Fl.
      split; [apply HU; exact Hu|]. unfold gone_after. rewrite E. cbn [fst]. intros Hlev Hso Hk.
      destruct (Z.ltb_spec 0 (fs_level s')); [|lia]. rewrite Fl in Hlev. rewrite Fso in Hso. rewrite Fk in Hk.
      rewrite Hm, (HI Hlev). apply Hb; assumption.
    - eapply Settings; [exact E|exact H].
    - eapply Settings; [exact E|exact H].
    - eapply Settings; [exact E|exact H].
    - unfold gone_after. cbn [f_step] in E |- *. injection E as <- <- <-. cbn [fst fs_level with_level].
      split; [intros Hlev Hk; cbn in *; apply Hu; [lia|exact Hk]|].
      intros Hlev Hso Hk. cbn [fs_level with_level fs_sorted fs_key fs_items fs_master] in *.
      destruct (Z.ltb_spec 0 (fs_level s + 1)); [|lia].
      destruct (Z_le_gt_dec (fs_level s) 0) as [Hl|Hl].
      + assert (Hi := Hu Hl Hk).
        assert (Hin : forall y, In y (fs_items s) <-> In y (fs_master s) /\ matching s y = true) by (intros y; rewrite Hi; apply filter_In).
        split; [|intros y Hy; apply Hin in Hy; tauto].
        rewrite filter_all by (intros y Hy; apply (inb_spec A_dec); apply Hin in Hy; tauto). rewrite Hi at 1.
        apply filter_ext_in'. intros y Hy. apply eq_true_iff_eq. rewrite (inb_spec A_dec), Hin. tauto.
      + apply Hb; [lia|exact Hso|exact Hk].
    - destruct (end_step_inv _ _ _ _ _ E H Ho) as (_ & _ & HH). apply HH; assumption.
    - cbn [f_step] in E. destruct (set_container_inv _ _ _ _ _ E H) as (_ & H1 & _ & Hso & HU & _); [destruct c; [exact Hd|exact I]|].
      split; [auto|]. intros _ Hs'. congruence.
    - cbn [f_step] in E. injection E as <- <- <-. split; [exact Hu|]. intros _ Hs'. discriminate.
    - unfold gone_after. cbn [f_step] in E |- *. injection E as <- <- <-. split; [exact Hu|]. intros Hlev Hso Hk. cbn [fst].
      destruct (Z.ltb_spec 0 (fs_level s)); [|lia]. apply Hb; assumption.
    - unfold gone_after. cbn [f_step] in E |- *. injection E as <- <- <-. split; [exact Hu|]. intros Hlev Hso Hk. cbn [fst].
      destruct (Z.ltb_spec 0 (fs_level s)); [|lia]. apply Hb; assumption.
  Qed.

  (** runs *)
  Lemma run_inv h : forall s : fstate,
    inv s -> along A_dec lt no_duplicates s h -> along A_dec lt set_order s h ->
    inv (fst (f_run A_dec lt s h)) /\
    (strict_weak_order lt -> along A_dec lt keeps_keys s h -> sor s -> sor (fst (f_run A_dec lt s h))).
  Proof.
    induction h as [|o h IH]; intros s H Hd Ho; simpl in *; [auto|].
    destruct (f_step A_dec lt s o) as [[s1 t1] e1] eqn:E. destruct Hd as [Hd1 Hd2]. destruct Ho as [Ho1 Ho2].
    destruct (step_inv _ _ _ _ _ E H Hd1 Ho1) as [H1 HS]. cbn [fst] in *. destruct (IH s1 H1 Hd2 Ho2) as [H2 HS2].
    destruct (f_run A_dec lt s1 h) as [s2 t2]. cbn [fst] in *. split; [exact H2|]. intros Hw [Hk1 Hk2] Hs. auto.
  Qed.

  Lemma run_uns h : forall gone (s : fstate),
    inv s -> along A_dec lt no_duplicates s h -> along A_dec lt set_order s h ->
    along A_dec lt no_reverse_without_key s h -> no_reinsertion A_dec lt gone s h ->
    uns s -> blk gone s -> uns (fst (f_run A_dec lt s h)).
  Proof.
    induction h as [|o h IH]; intros gone s H Hd Ho Hr Hre Hu Hb; simpl in *; [auto|].
    destruct Hre as [Hre1 Hre2].
    destruct (f_step A_dec lt s o) as [[s1 t1] e1] eqn:E. destruct Hd as [Hd1 Hd2]. destruct Ho as [Ho1 Ho2]. destruct Hr as [Hr1 Hr2].
    destruct (step_inv _ _ _ _ _ E H Hd1 Ho1) as [H1 _].
    destruct (step_uns gone _ _ _ _ _ E H Hd1 Ho1 Hr1 Hre1 Hu Hb) as [Hu1 Hb1]. cbn [fst] in *.
    specialize (IH _ s1 H1 Hd2 Ho2 Hr2 Hre2 Hu1 Hb1). destruct (f_run A_dec lt s1 h) as [s2 t2]. exact IH.
  Qed.

  Lemma new_inv w : inv (f_new (A := A) (C := C) (K := K) w) /\ uns (f_new (A := A) (K := K) w) /\ sor (f_new w) /\ (forall gone, blk gone (f_new (A := A) (K := K) w)).
  Proof.
    split; [split; [split; [split; [constructor|split; [intros x; simpl; tauto|constructor]]|simpl; constructor]|reflexivity]|].
    split; [intros _ _; reflexivity|]. split; [intros k Hk; discriminate|]. intros gone H; cbn in H; lia.
  Qed.

  Lemma inv_master (s : fstate) : inv s -> fs_master s = contents s.
  Proof. intros [_ Hl]. unfold link, contents in *. destruct (fs_cont s); tauto. Qed.

  Lemma key_change_lemma (s : fstate) x c k s' tr e :
    f_step A_dec lt s (FContent x c) = (s', tr, e) -> inv s -> sor s -> strict_weak_order lt ->
    (fs_level s <= 0)%Z -> fs_key s = Some k -> In x (fs_items s) -> fs_filter s c = true ->
    let pos := find_sorted (sort_op lt (fs_rev s)) (fun y => k (update_content A_dec (fs_content s) x c y)) (fs_items s) x in
    (index_of x (fs_items s) = Some pos -> fs_items s' = fs_items s /\ tr = []) /\
    (index_of x (fs_items s) <> Some pos -> srt (sort_op lt (fs_rev s)) (fun y => k (fs_content s' y)) (fs_items s')).
  Proof.
    cbv zeta. intros E [[(Hm & Hl & Hi) Hp] Hlink] Hs Hw Hlev Hk Hx Hc. cbn [f_step] in E. set (pos := find_sorted _ _ _ _).
    assert (Hxm : In x (fs_master s)). { apply (Permutation_in _ (Hp Hlev)) in Hx. apply filter_In in Hx. tauto. }
    rewrite (proj2 (inb_spec A_dec x (fs_listen s)) (proj2 (Hl x) Hxm)) in E.
    rewrite (proj2 (inb_spec A_dec x _) Hxm) in E.
    set (s1 := with_content s (update_content A_dec (fs_content s) x c)) in *.
    destruct (updated_master A_dec lt s1 x) as [s2 t2] eqn:E2. injection E as <- <- <-.
    assert (Hmx : matching s1 x = true). { unfold matching, s1, update_content. simpl. destruct (A_dec x x); [exact Hc|congruence]. }
    split.
    - intros Hpos. unfold updated_master in E2. cbn [fs_level s1 with_content] in E2. destruct (Z.ltb_spec 0 (fs_level s)); [lia|].
      fold s1 in E2. rewrite Hmx in E2. cbn [fs_key fs_items fs_rev fs_content s1 with_content] in E2. rewrite Hk, Hpos in E2.
      fold pos in E2. rewrite !Nat.ltb_irrefl in E2. injection E2 as <- <-. auto.
    - intros Hpos. destruct (updated_master_moved _ _ _ _ E2 Hlev) as [Hmx' _|? ? Hmx' _|_ Hni|_ _ Hkeep|i1 i2 k' _ Ei Hk' _]; try congruence.
      + contradiction.
      + exfalso. apply Hpos. apply (Hkeep k). exact Hk.
      + cbn [fs_key s1 with_content] in Hk'. assert (k' = k) as -> by congruence.
        cbn [fs_items with_items fs_content s1 with_content fs_rev] in *. apply find_sorted_insert; [apply swo_op; exact Hw|].
        rewrite Ei in Hi. apply nodup_app_parts in Hi as (_ & _ & _ & Hx12).
        apply content_srt; [exact Hx12|]. assert (Hs0 : srt (sort_op lt (fs_rev s)) (fun y => k (fs_content s y)) (fs_items s)) by (apply Hs; auto).
        rewrite Ei in Hs0. eapply ss_delete. exact Hs0.
  Qed.

  (** closing the outermost block *)
  Lemma end_block_lemma (s : fstate) ord s' tr e :
    f_step A_dec lt s (FEndChange ord) = (s', tr, e) -> inv s -> set_iteration ord -> fs_level s = 1%Z ->
    Permutation (fs_items s') (filter (accepts s) (contents s)) /\
    (forall k, fs_key s = Some k -> strict_weak_order lt ->
       ordered_by lt (fs_rev s) (fun y => k (fs_content s y)) (filter (fun x => inb x (contents s) && accepts s x) (fs_items s)) ->
       ordered_by lt (fs_rev s) (fun y => k (fs_content s y)) (fs_items s')) /\
    (fs_key s = None -> fs_rev s = false ->
       filter (fun x => inb x (contents s) && accepts s x) (fs_items s) =
       filter (fun x => inb x (fs_items s) && accepts s x) (contents s) ->
       fs_items s' = filter (accepts s) (contents s)) /\
    (fs_sorted s = false -> fs_items s' = build_items lt s).
  Proof.
    intros E Hinv Hord Hlev. rewrite <- (inv_master s Hinv). destruct Hinv as [[H0 _] _].
    cbn [f_step fs_level with_level] in E. rewrite Hlev in E. cbn [Z.eqb Z.sub Z.opp Z.add Z.pos_sub] in E.
    destruct (update_items_inv ord _ _ _ _ E) as (-> & Es & Hperm & Hbuild & Hsrt & Huns); [cbn; lia|exact H0|exact Hord|].
    change (1 - 1)%Z with 0%Z in *. set (s0 := with_level s 0) in *. clear Es.
    assert (Hret : forall m, build_items lt s0 = m -> retained s0 = filter (fun x => inb x (fs_master s) && accepts s x) (fs_items s)).
    { intros m _. unfold retained. apply filter_ext_in'. intros y _. apply eq_true_iff_eq.
      rewrite (inb_spec A_dec), andb_true_iff, (inb_spec A_dec).
      change (accepts s y) with (matching s0 y). change (fs_master s) with (fs_master s0). rewrite <- filter_In.
      split; apply Permutation_in; [|symmetry]; apply build_perm. }
    specialize (Hret _ eq_refl).
    split; [exact Hperm|]. split; [|split].
    - intros k Hk Hw Ho. apply ordered_by_srt. apply ordered_by_srt in Ho.
      destruct (fs_sorted s) eqn:Eso.
      + apply (Hsrt k Eso Hk Hw). rewrite Hret. exact Ho.
      + rewrite (Hbuild Eso). apply (build_srt s0); assumption.
    - intros Hk Hr Hret2.
      assert (Bu : build_items lt s0 = filter (accepts s) (fs_master s)).
      { unfold build_items. cbn [fs_key s0 with_level]. rewrite Hk. reflexivity. }
      rewrite <- Bu. destruct (fs_sorted s) eqn:Eso; [|apply Hbuild; exact Eso].
      apply Huns; [exact Eso|exact Hk|exact Hr|]. rewrite Hret, Hret2, Bu, filter_filter. apply filter_ext_in'.
      intros y _. apply andb_comm.
    - intros Hso. apply Hbuild. exact Hso.
  Qed.

  (** full rebuild: removal notifications *)
  Lemma removals_app {X} (t1 t2 : list (fev X)) : removals (t1 ++ t2) = removals t1 ++ removals t2.
  Proof. induction t1 as [|e t1 IH]; simpl; [reflexivity|]. destruct e; simpl; rewrite IH; reflexivity. Qed.
  Lemma append_loop_removals (new : list A) : forall items, removals (snd (append_loop new items)) = [].
  Proof.
    induction new as [|x new IH]; intros items; simpl; [reflexivity|]. specialize (IH (items ++ [x])).
    destruct (append_loop new _) as [it tr]. exact IH.
  Qed.
  Lemma pop_loop_removals (old : list A) : forall items, length old = length items ->
    removals (pop_loop old items) = combine old (rev (seq 0 (length old))).
  Proof.
    induction old as [|x old IH]; intros items Hl; [reflexivity|].
    assert (Hne : items <> []) by (destruct items; [discriminate|congruence]).
    assert (Hlen : length (removelast items) = length old).
    { destruct (exists_last Hne) as (l0 & y & ->). rewrite removelast_last. rewrite app_length in Hl. simpl in Hl. lia. }
    cbn [pop_loop removals]. rewrite IH by auto. rewrite Hlen.
    change (length (x :: old)) with (S (length old)). rewrite seq_S, rev_app_distr. reflexivity.
  Qed.
  Lemma rebuild_lemma (s : fstate) f k r s' tr e :
    reset_and_update A_dec lt (with_settings s f k r) = (s', tr, e) -> inv s -> (fs_level s <= 0)%Z ->
    removals tr = combine (fs_items s) (rev (seq 0 (length (fs_items s)))).
  Proof.
    unfold reset_and_update, update_items. intros E [[(Hm & _) _] _] Hlev. cbn [fs_level with_settings fs_master fs_sorted fs_items] in E.
    destruct (Z.ltb_spec 0 (fs_level s)); [lia|]. rewrite (proj2 (nodupb_spec A_dec (fs_master s)) Hm) in E. simpl negb in E. cbv iota in E.
    pose proof (append_loop_removals (build_items lt (with_settings s f k r)) []) as R.
    destruct (append_loop (build_items lt (with_settings s f k r)) []) as [it2 t2]. injection E as <- <- <-.
    cbn [removals]. rewrite !removals_app. cbn [snd] in R. rewrite R. simpl. rewrite !app_nil_r. apply pop_loop_removals. reflexivity.
  Qed.
  Lemma combine_rev_seq (l : list A) j :
    nth_error (combine l (rev (seq 0 (length l)))) j =
    match nth_error l j with Some x => Some (x, length l - 1 - j) | None => None end.
  Proof.
    revert j. induction l as [|x l IH]; intros j; [destruct j; reflexivity|].
    change (length (x :: l)) with (S (length l)). rewrite seq_S, rev_app_distr. simpl rev. simpl app. simpl combine.
    destruct j as [|j]; simpl; [rewrite ?Nat.sub_0_r; reflexivity|]. rewrite IH. destruct (nth_error l j) as [y|] eqn:E; [|reflexivity].
    assert (j < length l) by (apply nth_error_Some; congruence). do 2 f_equal. lia.
  Qed.
  Lemma middle_only (l : list A) j x :
    NoDup l -> nth_error l j = Some x -> (nth_error l (length l - 1 - j) = Some x <-> 2 * j + 1 = length l).
  Proof.
    intros Hnd Hj. assert (Hlt : j < length l) by (apply nth_error_Some; congruence). split.
    - intros H. assert (length l - 1 - j = j); [|lia].
      eapply NoDup_nth_error; [exact Hnd|lia|congruence].
    - intros H. replace (length l - 1 - j) with j by lia. exact Hj.
  Qed.
End F3.
