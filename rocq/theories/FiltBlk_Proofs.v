From Coq Require Import List ZArith Bool Arith Permutation Sorted Lia.
From Verif Require Import PyBase Filtered_Model Filtered_Spec Filtered_Proofs Filtered_Proofs2 Filtered_Proofs3
  FiltBlk_Model FiltBlk_Spec.
Import ListNotations.

Section FB.
  Context {A C K : Type} (A_dec : forall a b : A, {a = b} + {a <> b}) (lt : K -> K -> bool).
  Notation inb := (inb A_dec).
  Notation bst := (bst A C K).
  Notation bact := (bact A C K).
  Notation bpc := (bpc A C K).
  Notation bsh := (bsh A C K).
  Notation b_step := (b_step A_dec lt).
  Notation b_move := (b_move A_dec lt).

  (** -- changing the items to a list that has been built -- *)
  Lemma apply_perm ord (h : bsh) new it tr :
    b_apply A_dec lt ord h new = (it, tr) -> (forall l, Permutation (ord l) l) -> NoDup (b_items h) -> NoDup new ->
    Permutation it new.
  Proof.
    unfold b_apply. intros E Hord Hi Hn. destruct (b_flag h) eqn:Ef.
    - destruct (rem_loop _ (b_items h) 0 0 (b_items h)) as [it1 t1] eqn:E1.
      set (ret := filter (fun x => inb x new) (b_items h)) in *.
      assert (Hit1 : it1 = ret).
      { pose proof (rem_loop_spec (fun x => negb (inb x new)) (b_items h) [] 0 0 eq_refl (le_n 0)) as R.
        cbn [app] in R. rewrite E1 in R. cbn in R. rewrite R. unfold ret. apply filter_ext_in'.
        intros x _. rewrite negb_involutive. reflexivity. }
      subst it1. destruct (ins_loop _ _ ret) as [it2 t2] eqn:E2. injection E as <- <-.
      match type of E2 with ins_loop ?p ?xs ?l = _ => pose proof (ins_loop_perm p xs l) as R end.
      rewrite E2 in R. cbn [fst] in R. rewrite R, (Hord _). apply NoDup_Permutation.
      + apply NoDup_app_intro; [apply NoDup_filter; exact Hn|apply NoDup_filter; exact Hi|].
        intros x H1 H2. apply filter_In in H1 as [_ H1]. apply filter_In in H2 as [H2 _]. apply negb_inb in H1. contradiction.
      + exact Hn.
      + intros x. rewrite in_app_iff. unfold ret. rewrite !filter_In, negb_inb, inb_spec.
        destruct (in_dec A_dec x (b_items h)); tauto.
    - destruct (append_loop new []) as [it2 t2] eqn:E2. injection E as <- <-.
      pose proof (append_loop_spec new []) as R. rewrite E2 in R. cbn in R. subst it2. reflexivity.
  Qed.
  Lemma apply_trace ord (h : bsh) new it tr :
    b_apply A_dec lt ord h new = (it, tr) -> f_follows (b_items h) tr it /\ nesting 0 tr = Some 1.
  Proof.
    unfold b_apply. destruct (b_flag h).
    - destruct (rem_loop _ (b_items h) 0 0 (b_items h)) as [it1 t1] eqn:E1.
      destruct (ins_loop _ _ it1) as [it2 t2] eqn:E2. intros [= <- <-].
      destruct (rem_loop_names _ (b_items h) [] 0 0 it1 t1 eq_refl (le_n 0) E1) as [H1 H2].
      destruct (ins_loop_names _ _ _ _ _ E2) as [H3 H4]. split.
      + apply f_names_follows. cbn [f_names]. eapply f_names_app; eassumption.
      + cbn [nesting]. rewrite (nesting_app _ _ _ 1) by apply H2. apply H4.
    - destruct (append_loop new []) as [it2 t2] eqn:E2. intros [= <- <-].
      destruct (pop_loop_follows (b_items h) (b_items h) eq_refl) as [H1 H2].
      destruct (append_loop_follows _ _ _ _ E2) as [H3 H4]. split.
      + cbn [f_follows]. eapply f_follows_app; [exact H1|apply f_names_follows; exact H3].
      + cbn [nesting]. rewrite (nesting_app _ _ _ 1) by apply H2. apply H4.
  Qed.

  (** -- dropping an item -- *)
  Lemma drop_spec (h : bsh) x h1 tr : b_drop A_dec h x = (h1, tr) -> NoDup (b_items h) ->
    h1 = put_items h (b_items h1) /\ NoDup (b_items h1) /\ (forall y, In y (b_items h1) <-> In y (b_items h) /\ y <> x).
  Proof.
    unfold b_drop. intros E Hn. destruct (index_of A_dec x (b_items h)) as [k|] eqn:Ei; injection E as <- <-.
    - apply index_of_some in Ei as (i1 & i2 & Hi & <- & Hx). rewrite Hi in *. cbn [put_items b_items].
      rewrite delete_at_app. apply nodup_app_parts in Hn as (H1 & H2 & H3 & H4). split; [reflexivity|].
      split; [exact H3|].
      intros y. rewrite !in_app_iff. rewrite in_app_iff in H4. cbn. split; [|intros [[Q|[Q|Q]] Q1]; [left; exact Q|congruence|right; exact Q]].
      intros H. split; [tauto|]. intros ->. tauto.
    - apply index_of_none in Ei. destruct h; cbn. split; [reflexivity|]. split; [exact Hn|].
      intros y. split; [|tauto]. intros H. split; [exact H|]. intros ->. contradiction.
  Qed.
  Lemma drop_trace (h : bsh) x h1 tr : b_drop A_dec h x = (h1, tr) ->
    f_follows (b_items h) tr (b_items h1) /\ nesting 0 tr = Some 0.
  Proof.
    unfold b_drop. intros E. destruct (index_of A_dec x (b_items h)) as [k|] eqn:Ei; injection E as <- <-.
    - apply index_of_some in Ei as (i1 & i2 & Hi & <- & Hx). cbn. rewrite Hi. rewrite app_length. cbn. split; [|reflexivity].
      split; [lia|reflexivity].
    - split; reflexivity.
  Qed.

  (** -- one move -- *)
  Definition p_ok (h : bsh) (p : bpc) : Prop :=
    match p with
    | BMatch x | BPlace x => In x (b_master h) /\ ~ In x (b_items h)
    | BCheck x | BDrop x _ => In x (b_master h)
    | BAgain x => In x (b_master h) /\ (In x (b_items h) -> (0 < b_level h)%Z)
    | BBuild acc rest => NoDup (acc ++ rest) /\ incl (acc ++ rest) (b_master h)
    | BApply new => NoDup new /\ incl new (b_master h)
    | _ => True
    end.
  Record h_ok (h : bsh) : Prop := Hok { k_master : NoDup (b_master h); k_items : NoDup (b_items h) }.
  (** in a block items may be listed that have left the master list *)
  Definition ending (p : bpc) : bool :=
    match p with BEndC | BEndU | BBuild _ _ | BApply _ => true | _ => false end.
  Definition clean (h : bsh) (p : bpc) : Prop := incl (b_items h) (b_master h) \/ (0 < b_level h)%Z \/ ending p = true.
  Definition hright (h : bsh) (y : A) : Prop := In y (b_items h) <-> In y (b_master h) /\ b_passes h y = true.
  Definition fixes (h : bsh) (p : bpc) (y : A) : Prop :=
    match p with
    | BSetFlag | BUpd | BOpen | BEnd | BEndW _ | BEndC | BEndU => True
    | BBuild acc rest => In y rest \/ (In y acc <-> In y (b_master h) /\ b_passes h y = true)
    | BApply new => In y new <-> In y (b_master h) /\ b_passes h y = true
    | BTell x | BCheck x | BMatch x | BAgain x | BDrop x true => x = y
    | BPlace x => x = y /\ b_passes h y = true
    | BDrop x false => x = y /\ b_passes h y = false
    | _ => False
    end.

  Lemma py_insert_in i (x y : A) l : In y (py_insert i x l) <-> y = x \/ In y l.
  Proof.
    destruct (py_insert_split i x l) as (l1 & l2 & -> & ->). rewrite !in_app_iff. cbn. intuition.
  Qed.
  Lemma in_insert_at k (x y : A) l : In y (insert_at k x l) <-> y = x \/ In y l.
  Proof.
    pose proof (insert_at_perm k x l) as P. split; intros H.
    - apply (Permutation_in _ P) in H. cbn in H. intuition.
    - apply (Permutation_in _ (Permutation_sym P)). cbn. intuition.
  Qed.
  Lemma sorted_master_perm (h : bsh) : Permutation (sorted_master lt h) (b_master h).
  Proof. unfold sorted_master. destruct (b_key h); [apply py_sorted_perm|reflexivity]. Qed.
  Lemma held_spec (h : bsh) : b_held h = true <-> (0 < b_level h)%Z.
  Proof. unfold b_held. apply Z.ltb_lt. Qed.

  Lemma held_false (h : bsh) : b_held h = false -> ~ (0 < b_level h)%Z.
  Proof. intros H Q. apply held_spec in Q. congruence. Qed.

  Ltac triv := split; [constructor; assumption|exact I].
  Lemma move_ok ord h p h1 p1 tr : b_move ord h p = (h1, p1, tr) -> (forall l, Permutation (ord l) l) ->
    h_ok h -> clean h p -> p_ok h p -> h_ok h1 /\ p_ok h1 p1.
  Proof.
    intros E Hord [Hm Hi] Hin Hp.
    assert (Hup : forall tr', (h, if b_held h then BRel else BBuild [] (sorted_master lt h), tr') = (h1, p1, tr) -> h_ok h1 /\ p_ok h1 p1).
    { intros tr' Q. injection Q as <- <- <-. split; [constructor; assumption|]. destruct (b_held h); [exact I|]. cbn. split.
      - eapply Permutation_NoDup; [symmetry; apply sorted_master_perm|exact Hm].
      - intros y Hy. apply (Permutation_in _ (sorted_master_perm h)), Hy. }
    destruct p; cbn [FiltBlk_Model.b_move] in E; cbn [p_ok] in Hp; try (injection E as <- <- <-; triv); try (apply (Hup _ E)).
    - destruct (inb x (b_master h)) eqn:Ex; injection E as <- <- <-; [triv|].
      apply inb_false in Ex. split; [constructor; cbn|].
      + destruct (py_insert_split i x (b_master h)) as (l1 & l2 & E & ->). rewrite E in *. apply nodup_insert; assumption.
      + exact Hi.
      + destruct (b_held h) eqn:Eh; [exact I|]. cbn. split; [apply py_insert_in; auto|]. intros Q.
        destruct Hin as [Hin|[Hin|Hin]]; [apply Ex, Hin, Q|exact (held_false h Eh Hin)|discriminate].
    - injection E as <- <- <-. split; [constructor; assumption|]. destruct (b_passes h x); [exact Hp|exact I].
    - injection E as <- <- <-. split; [|exact I]. destruct Hp as [H1 H2]. constructor; cbn.
      + exact Hm.
      + eapply Permutation_NoDup; [symmetry; apply insert_at_perm|]. constructor; assumption.
    - destruct (py_get (b_master h) i) as [x|] eqn:Eg; [|injection E as <- <- <-; triv].
      destruct (py_get_split _ _ _ Eg) as (l1 & l2 & El & _ & Ed). rewrite Ed in E.
      assert (Hm1 : NoDup (l1 ++ l2)) by (rewrite El in Hm; apply nodup_app_parts in Hm; tauto).
      destruct (b_held h) eqn:Eh; [injection E as <- <- <-; triv|].
      destruct (b_drop _ _ _) as [h2 t2] eqn:E2. injection E as <- <- <-. split; [|exact I].
      destruct (drop_spec _ _ _ _ E2 Hi) as (F1 & F2 & F3). rewrite F1. constructor; cbn; assumption.
    - injection E as <- <- <-. split; [constructor; assumption|]. destruct (inb x (b_master h)) eqn:Ex; [|exact I].
      destruct (b_held h); [exact I|]. apply inb_spec in Ex. exact Ex.
    - injection E as <- <- <-. split; [constructor; assumption|]. unfold check_next.
      destruct (b_passes h x), (index_of A_dec x (b_items h)) as [k|] eqn:Ei.
      + destruct (b_key h); [|exact I]. destruct (_ =? _); [exact I|exact Hp].
      + apply index_of_none in Ei. cbn. tauto.
      + exact Hp.
      + exact I.
    - destruct (b_held h) eqn:Eh.
      + injection E as <- <- <-. split; [constructor; assumption|]. destruct again; [|exact I]. split; [exact Hp|].
        intros _. apply held_spec, Eh.
      + destruct (b_drop _ _ _) as [h2 t2] eqn:E2. injection E as <- <- <-.
        destruct (drop_spec _ _ _ _ E2 Hi) as (F1 & F2 & F3). split; [rewrite F1; constructor; cbn; assumption|].
        destruct again; [|exact I]. cbn. split; [rewrite F1; exact Hp|]. intros Q. apply F3 in Q. destruct Q. congruence.
    - injection E as <- <- <-. split; [constructor; assumption|]. destruct (b_held h) eqn:Eh; [exact I|]. cbn.
      destruct Hp as [H1 H2]. split; [exact H1|]. intros Q. exact (held_false h Eh (H2 Q)).
    - injection E as <- <- <-. split; [constructor; assumption|]. destruct (_ =? _)%Z; exact I.
    - destruct Hp as [H1 H2]. destruct rest as [|x rest]; injection E as <- <- <-; (split; [constructor; assumption|]).
      + cbn. rewrite app_nil_r in *. auto.
      + cbn. apply nodup_app_parts in H1 as G. destruct G as (G1 & G2 & G3 & G4). destruct (b_passes h x).
        * rewrite <- app_assoc. auto.
        * split; [exact G3|]. intros y Hy. apply H2. rewrite in_app_iff in *. cbn. tauto.
    - destruct Hp as [H1 H2]. destruct (b_apply A_dec lt ord h new) as [it t] eqn:E2. injection E as <- <- <-. split; [|exact I].
      pose proof (apply_perm ord h new it t E2 Hord Hi H1) as P. constructor; cbn.
      + exact Hm.
      + eapply Permutation_NoDup; [symmetry; exact P|exact H1].
  Qed.

  Definition b_reads (h : bsh) (p : bpc) : Prop := match p with BBeginW r | BEndW r => r = b_level h | _ => True end.

  Lemma move_clean ord h p h1 p1 tr : b_move ord h p = (h1, p1, tr) -> (forall l, Permutation (ord l) l) ->
    h_ok h -> clean h p -> p_ok h p -> b_reads h p -> (0 <= b_level h)%Z -> clean h1 p1.
  Proof.
    unfold clean. intros E Hord [Hm Hi] Hin Hp Hr Hl.
    assert (Hst : ending p = false -> h1 = h -> incl (b_items h1) (b_master h1) \/ (0 < b_level h1)%Z \/ ending p1 = true).
    { intros Q ->. rewrite Q in Hin. destruct Hin as [Hin|[Hin|Hin]]; [auto|auto|discriminate]. }
    assert (Hin' : ending p = false -> b_held h = false -> incl (b_items h) (b_master h)).
    { intros Q1 Q2. destruct Hin as [Hin|[Hin|Hin]]; [exact Hin|destruct (held_false h Q2 Hin)|congruence]. }
    destruct p; cbn [FiltBlk_Model.b_move] in E; cbn [p_ok b_reads] in *;
      try (injection E as <- <- <-; apply Hst; reflexivity).
    - destruct (inb x (b_master h)); injection E as <- <- <-; [apply Hst; reflexivity|].
      destruct (b_held h) eqn:Eh; [right; left; apply held_spec in Eh; exact Eh|]. left. cbn.
      intros y Hy. apply py_insert_in. right. apply (Hin' eq_refl eq_refl), Hy.
    - injection E as <- <- <-. cbn. destruct Hin as [Hin|[Hin|Hin]]; [left|auto|discriminate].
      intros y Hy. apply in_insert_at in Hy as [->|Hy]; [tauto|apply Hin, Hy].
    - destruct (py_get (b_master h) i) as [x|] eqn:Eg; [|injection E as <- <- <-; apply Hst; reflexivity].
      destruct (py_get_split _ _ _ Eg) as (l1 & l2 & El & _ & Ed). rewrite Ed in E.
      destruct (b_held h) eqn:Eh; [injection E as <- <- <-; right; left; apply held_spec in Eh; exact Eh|].
      destruct (b_drop _ _ _) as [h2 t2] eqn:E2. injection E as <- <- <-. left.
      destruct (drop_spec _ _ _ _ E2 Hi) as (F1 & F2 & F3). intros y Hy. apply F3 in Hy as [Hy Hne]. rewrite F1. cbn in *.
      apply (Hin' eq_refl eq_refl) in Hy. rewrite El in Hy. rewrite in_app_iff in *. cbn in Hy. intuition congruence.
    - injection E as <- <- <-. cbn. destruct Hin as [Hin|[Hin|Hin]]; [auto|auto|discriminate].
    - destruct (b_held h) eqn:Eh; [injection E as <- <- <-; apply Hst; reflexivity|].
      destruct (b_drop _ _ _) as [h2 t2] eqn:E2. injection E as <- <- <-. left.
      destruct (drop_spec _ _ _ _ E2 Hi) as (F1 & F2 & F3). intros y Hy. apply F3 in Hy as [Hy Hne]. rewrite F1. cbn.
      apply (Hin' eq_refl eq_refl), Hy.
    - injection E as <- <- <-. cbn. destruct Hin as [Hin|[Hin|Hin]]; [auto|auto|discriminate].
    - injection E as <- <- <-. cbn. destruct Hin as [Hin|[Hin|Hin]]; [auto|auto|discriminate].
    - injection E as <- <- <-. cbn. destruct Hin as [Hin|[Hin|Hin]]; [auto|auto|discriminate].
    - injection E as <- <- <-. cbn. destruct Hin as [Hin|[Hin|Hin]]; [auto|auto|discriminate].
    - injection E as <- <- <-. cbn. destruct Hin as [Hin|[Hin|Hin]]; [auto|auto|discriminate].
    - injection E as <- <- <-. right. left. cbn. lia.
    - injection E as <- <- <-. right. right. reflexivity.
    - injection E as <- <- <-. destruct (b_level h =? 0)%Z eqn:Ez; [right; right; reflexivity|]. right. left. apply Z.eqb_neq in Ez. lia.
    - injection E as <- <- <-. destruct (b_held h) eqn:Eh; [right; left; apply held_spec, Eh|right; right; reflexivity].
    - destruct rest as [|x rest]; injection E as <- <- <-; right; right; reflexivity.
    - destruct Hp as [H1 H2]. destruct (b_apply A_dec lt ord h new) as [it t] eqn:E2. injection E as <- <- <-. left.
      pose proof (apply_perm ord h new it t E2 Hord Hi H1) as P. intros y Hy. cbn in *. apply H2, (Permutation_in _ P), Hy.
    - injection E as <- <- <-. cbn. destruct Hin as [Hin|[Hin|Hin]]; [auto|auto|discriminate].
  Qed.

  (** what a call would spoil if nobody else did anything *)
  Definition breaks (h : bsh) (p : bpc) (y : A) : Prop :=
    match p with
    | BBuild acc rest => ~ In y rest /\ ~ (In y acc <-> In y (b_master h) /\ b_passes h y = true)
    | BApply new => ~ (In y new <-> In y (b_master h) /\ b_passes h y = true)
    | BPlace x => x = y /\ b_passes h y = false
    | BDrop x false => x = y /\ b_passes h y = true
    | _ => False
    end.
  Definition fine (h : bsh) (p : bpc) (y : A) : Prop := fixes h p y \/ hright h y /\ ~ breaks h p y.

  Lemma list_dec (h : bsh) (l : list A) (y : A) :
    {In y l <-> In y (b_master h) /\ b_passes h y = true} + {~ (In y l <-> In y (b_master h) /\ b_passes h y = true)}.
  Proof.
    destruct (in_dec A_dec y l), (in_dec A_dec y (b_master h)), (b_passes h y); solve [left; intuition congruence|right; intuition congruence].
  Qed.

  Lemma move_right ord h p h1 p1 tr y : b_move ord h p = (h1, p1, tr) -> (forall l, Permutation (ord l) l) ->
    h_ok h -> clean h p -> p_ok h p -> (0 <= b_level h)%Z -> fine h p y -> fine h1 p1 y \/ (0 < b_level h1)%Z.
  Proof.
    unfold fine. intros E Hord [Hm Hi] Hin Hp Hl Hy.
    assert (Hup : forall tr', (h, if b_held h then BRel else BBuild [] (sorted_master lt h), tr') = (h1, p1, tr) ->
              (fixes h1 p1 y \/ hright h1 y /\ ~ breaks h1 p1 y) \/ (0 < b_level h1)%Z).
    { intros tr' Q. injection Q as <- <- <-. destruct (b_held h) eqn:Eh; [right; apply held_spec, Eh|]. left. left. cbn.
      destruct (in_dec A_dec y (b_master h)) as [Q|Q]; [left|right; tauto].
      apply (Permutation_in _ (Permutation_sym (sorted_master_perm h))), Q. }
    assert (Hin' : ending p = false -> ~ (0 < b_level h)%Z -> incl (b_items h) (b_master h)).
    { intros Q1 Q2. destruct Hin as [Hin|[Hin|Hin]]; [exact Hin|contradiction|congruence]. }
    destruct p; cbn [FiltBlk_Model.b_move] in E; cbn [p_ok] in Hp; cbn [fixes breaks] in Hy; try (apply (Hup _ E));
      try (injection E as <- <- <-; left; first [left; exact I|destruct Hy as [[]|[Hy _]]; right; split; [exact Hy|intros []]]; fail).
    - destruct Hy as [[]|[Hy _]].
      destruct (inb x (b_master h)) eqn:Ex; injection E as <- <- <-; [left; right; split; [exact Hy|intros []]|].
      destruct (b_held h) eqn:Eh; [right; apply held_spec, Eh|left].
      destruct (A_dec x y) as [->|Hne]; [left; reflexivity|]. right. split; [|intros []].
      unfold hright, b_passes in *. cbn. rewrite py_insert_in. split; [intros H; apply Hy in H; tauto|].
      intros [[->|H] Q]; [congruence|]. apply Hy. auto.
    - injection E as <- <- <-. left. destruct (b_passes h x) eqn:Ep.
      + destruct (A_dec x y) as [->|Hne]; [left; cbn; auto|]. destruct Hy as [Hy|[Hy _]]; [contradiction|].
        right. split; [exact Hy|]. cbn. tauto.
      + right. split; [|intros []]. destruct Hy as [->|[Hy _]]; [|exact Hy].
        unfold hright. rewrite Ep. split; [intros Q; destruct Hp; contradiction|intros [_ Q]; discriminate].
    - injection E as <- <- <-. left. right. split; [|intros []]. unfold hright, b_passes in *. cbn. rewrite in_insert_at. destruct Hp as [H1 H2].
      destruct (A_dec y x) as [->|Hne].
      + destruct (b_filter h (b_content h x)) eqn:Ep; [tauto|]. exfalso. destruct Hy as [[_ Hy]|[_ Hy]]; [discriminate|]. apply Hy. auto.
      + destruct Hy as [[Hy _]|[Hy _]]; [congruence|]. split; [intros [Q|Q]; [congruence|apply Hy, Q]|]. intros Q. right. apply Hy, Q.
    - destruct Hy as [[]|[Hy _]].
      destruct (py_get (b_master h) i) as [x|] eqn:Eg; [|injection E as <- <- <-; left; right; split; [exact Hy|intros []]].
      destruct (py_get_split _ _ _ Eg) as (l1 & l2 & El & _ & Ed). rewrite Ed in E.
      destruct (b_held h) eqn:Eh; [injection E as <- <- <-; right; apply held_spec in Eh; exact Eh|].
      destruct (b_drop _ _ _) as [h2 t2] eqn:E2. injection E as <- <- <-. left. right. split; [|intros []].
      destruct (drop_spec _ _ _ _ E2 Hi) as (F1 & F2 & F3). unfold hright, b_passes in *. rewrite F3, F1.
      cbn [b_items b_master put_items put_master b_filter b_content] in *. rewrite Hy, El.
      rewrite El in Hm. apply nodup_app_parts in Hm as (G1 & G2 & G3 & G4). rewrite !in_app_iff. cbn [In].
      rewrite in_app_iff in G4. split; [intros [[[Q|[Q|Q]] Q1] Q2]; split; solve [tauto|congruence]|].
      intros [Q1 Q2]. split; [tauto|]. intros ->. tauto.
    - injection E as <- <- <-. left. destruct (A_dec x y) as [->|Hne]; [left; reflexivity|]. destruct Hy as [[]|[Hy _]].
      right. split; [|intros []]. unfold hright, b_passes in *. cbn. unfold update_content. destruct (A_dec y x); [congruence|]. exact Hy.
    - injection E as <- <- <-. destruct (b_held h) eqn:Eh; [right; apply held_spec, Eh|left].
      destruct (inb x (b_master h)) eqn:Ex.
      + destruct Hy as [Hy|[Hy _]]; [left; exact Hy|right; split; [exact Hy|intros []]].
      + right. split; [|intros []]. destruct Hy as [->|[Hy _]]; [|exact Hy]. apply inb_false in Ex.
        split; [intros Q; exfalso; apply Ex, (Hin' eq_refl (held_false h Eh)), Q|tauto].
    - injection E as <- <- <-. left. unfold check_next.
      destruct (b_passes h x) eqn:Ep, (index_of A_dec x (b_items h)) as [k|] eqn:Ei.
      + assert (Hx : In x (b_items h)).
        { apply index_of_some in Ei as (i1 & i2 & Ei & _). rewrite Ei. apply in_elt. }
        assert (R : hright h x) by (split; auto).
        assert (R' : hright h y) by (destruct Hy as [->|[Hy _]]; assumption).
        destruct (b_key h); [|right; split; [exact R'|intros []]]. destruct (_ =? _); right; (split; [exact R'|intros []]).
      + destruct Hy as [Hy|[Hy _]]; [left; exact Hy|right; split; [exact Hy|intros []]].
      + destruct Hy as [->|[Hy _]]; [left; cbn; auto|].
        right. split; [exact Hy|]. cbn. intros [-> Q]. congruence.
      + right. split; [|intros []]. destruct Hy as [->|[Hy _]]; [|exact Hy]. apply index_of_none in Ei.
        split; [contradiction|]. rewrite Ep. intros [_ Q]. discriminate.
    - destruct (b_held h) eqn:Eh; [injection E as <- <- <-; right; apply held_spec, Eh|left].
      destruct (b_drop _ _ _) as [h2 t2] eqn:E2. injection E as <- <- <-.
      destruct (drop_spec _ _ _ _ E2 Hi) as (F1 & F2 & F3).
      assert (G : y <> x -> hright h y -> hright h2 y).
      { intros Hne Q. unfold hright, b_passes in *. rewrite F3, F1. cbn. tauto. }
      destruct again.
      + destruct (A_dec x y) as [->|Hne]; [left; reflexivity|]. destruct Hy as [Hy|[Hy _]]; [contradiction|].
        right. split; [apply G; [congruence|exact Hy]|intros []].
      + right. split; [|intros []]. destruct (A_dec x y) as [->|Hne].
        * assert (Ep : b_passes h y = false).
          { destruct Hy as [[_ Hy]|[_ Hy]]; [exact Hy|]. destruct (b_passes h y); [exfalso; apply Hy; auto|reflexivity]. }
          unfold hright, b_passes in *. rewrite F3, F1. cbn. rewrite Ep. split; [tauto|intros [_ Q]; discriminate].
        * destruct Hy as [[Hy _]|[Hy _]]; [contradiction|]. apply G; [congruence|exact Hy].
    - injection E as <- <- <-. destruct (b_held h) eqn:Eh; [right; apply held_spec, Eh|left].
      destruct Hy as [Hy|[Hy _]]; [left; exact Hy|right; split; [exact Hy|intros []]].
    - injection E as <- <- <-. destruct (b_level h =? 0)%Z eqn:Ez; [left; left; exact I|]. right. apply Z.eqb_neq in Ez. lia.
    - left. destruct rest as [|x rest]; injection E as <- <- <-; cbn [fixes breaks]; destruct Hp as (Hn & Hs).
      + cbn in Hy. destruct Hy as [[[]|Hy]|[Hy Q]]; [left; exact Hy|]. right. split; [exact Hy|]. tauto.
      + apply nodup_app_parts in Hn as (N1 & N2 & _ & _).
        assert (D : (In y rest \/ (In y (if b_passes h x then acc ++ [x] else acc) <-> In y (b_master h) /\ b_passes h y = true)) \/
                    (y <> x /\ ~ In y rest /\ hright h y /\ ~ (In y acc <-> In y (b_master h) /\ b_passes h y = true))).
        { destruct (in_dec A_dec y rest) as [Q|Q]; [left; left; exact Q|].
          destruct (A_dec y x) as [->|Hne].
          - left. right. assert (Hx : In x (b_master h)) by (apply Hs, in_elt). destruct (b_passes h x) eqn:Ep.
            + rewrite in_app_iff. cbn. tauto.
            + split; [|intros [_ ?]; discriminate]. intros F. contradiction.
          - assert (F : In y (if b_passes h x then acc ++ [x] else acc) <-> In y acc).
            { destruct (b_passes h x); [|tauto]. rewrite in_app_iff. cbn [In]. split; [intros [R|[R|[]]]; [exact R|congruence]|auto]. }
            destruct Hy as [[[Hy|Hy]|Hy]|[Hy Q1]]; [congruence|contradiction|left; right; rewrite F; exact Hy|].
            destruct (list_dec h acc y) as [G|G]; [left; right; rewrite F; exact G|right; auto]. }
        destruct D as [D|(D1 & D2 & D3 & D4)]; [left; exact D|].
        exfalso. destruct Hy as [[[Q|Q]|Q]|[_ Q]]; [congruence|contradiction|contradiction|].
        apply Q. split; [|exact D4]. intros [R|R]; [congruence|contradiction].
    - destruct (b_apply A_dec lt ord h new) as [it t] eqn:E2. injection E as <- <- <-. left. right. split; [|intros []].
      destruct Hp as [H1 H2]. pose proof (apply_perm ord h new it t E2 Hord Hi H1) as P.
      assert (G : In y new <-> In y (b_master h) /\ b_passes h y = true).
      { destruct Hy as [Hy|[_ Hy]]; [exact Hy|].
        destruct (list_dec h new y); [assumption|contradiction]. }
      unfold hright, b_passes in *. cbn. rewrite <- G. split; intros Q; [apply (Permutation_in _ P), Q|apply (Permutation_in _ (Permutation_sym P)), Q].
  Qed.
End FB.
