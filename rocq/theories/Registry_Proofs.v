From stdpp Require Import gmap sets list.
From Verif Require Import PyBase Registry_Model Registry_Spec.

Section Proofs.
  Context {C T : Type} `{Countable C} `{Countable T}.
  Implicit Types (r : @registry C T _ _ _ _).

  Lemma add_all_spec c ts (m : gmap T (gset C)) d t :
    d ∈ default ∅ (reg_add_all c ts m !! t) <-> (d = c /\ t ∈ ts) \/ d ∈ default ∅ (m !! t).
  Proof.
    revert m. induction ts as [|u ts IH]; intros m; simpl; [set_solver|].
    rewrite IH. destruct (decide (u = t)) as [->|Hne].
    - rewrite lookup_insert. simpl. set_solver.
    - rewrite lookup_insert_ne by done. set_solver.
  Qed.

  Lemma remove_all_spec c ts (m : gmap T (gset C)) :
    NoDup ts -> Forall (fun t => c ∈ default ∅ (m !! t)) ts ->
    exists m', reg_remove_all c ts m = (m', None) /\
      forall d t, d ∈ default ∅ (m' !! t) <-> d ∈ default ∅ (m !! t) /\ ~ (d = c /\ t ∈ ts).
  Proof.
    revert m. induction ts as [|u ts IH]; intros m Hnd Hall; simpl.
    - exists m. split; [done|]. set_solver.
    - apply NoDup_cons in Hnd as [Hu Hnd]. apply Forall_cons in Hall as [Hc Hall].
      destruct (m !! u) as [X|] eqn:Eu; simpl in Hc; [|set_solver].
      rewrite decide_True by done.
      destruct (IH (<[u := X ∖ {[c]}]> m)) as (m' & E & Hm'); [done| |].
      + eapply Forall_impl; [apply Forall_and; split; [exact Hall|]|].
        * apply Forall_forall. intros x Hx. exact Hx.
        * simpl. intros x [Hx Hxin]. assert (u <> x) by (intros ->; done).
          rewrite lookup_insert_ne by done. done.
      + exists m'. split; [done|]. intros d t. rewrite Hm'.
        destruct (decide (u = t)) as [->|Hne].
        * rewrite lookup_insert, Eu. simpl. rewrite elem_of_difference, elem_of_singleton, elem_of_cons.
          split; [intros [[? ?] ?]; split; [done|]; tauto|]. intros [? Hn]. split; [split; [done|]|].
          -- intros ->. apply Hn. tauto.
          -- intros [-> ?]. done.
        * rewrite lookup_insert_ne by done. rewrite elem_of_cons.
          split; intros [? Hn]; (split; [done|]); intros [-> Hin]; apply Hn; [|tauto].
          destruct Hin as [->|?]; done.
  Qed.

  Definition views_agree r : Prop := forall c t, listed r c t <-> recorded r c t.

  Lemma register_ok c ts r :
    (forall t, t ∈ ts -> ~ listed r c t) ->
    exists r', register c ts r = (r', None) /\
      (forall d t, listed r' d t <-> listed r d t \/ (d = c /\ t ∈ ts)) /\
      (forall d t, recorded r' d t <-> recorded r d t \/ (d = c /\ t ∈ ts)) /\
      r_notes r' = r_notes r ++ [NRegistered c (list_to_set ts)].
  Proof.
    intros Hn. unfold register. rewrite decide_True by (apply Forall_forall; intros t Ht; apply Hn; done).
    eexists. split; [reflexivity|]. simpl. split; [|split; [|done]].
    - intros d t. unfold listed, components_by_type. simpl. rewrite add_all_spec. tauto.
    - intros d t. unfold recorded. simpl. destruct (decide (d = c)) as [->|Hne].
      + rewrite lookup_insert. split.
        * intros (X & [= <-] & Ht). apply elem_of_union in Ht as [Ht|Ht]; [|set_solver].
          left. destruct (r_types r !! c) as [X|]; [eauto|set_solver].
        * intros [(X & E & Ht)|[_ Ht]]; eexists; (split; [done|]).
          -- rewrite E. simpl. set_solver.
          -- set_solver.
      + rewrite lookup_insert_ne by done. split; [tauto|]. intros [?|[-> _]]; done.
  Qed.

  Lemma register_fail c ts r :
    (exists t, t ∈ ts /\ listed r c t) -> register c ts r = (r, Some AssertionError).
  Proof.
    intros (t & Ht & Hl). unfold register. rewrite decide_False; [done|].
    intros Hf. rewrite Forall_forall in Hf. apply (Hf t Ht). exact Hl.
  Qed.

  Lemma unregister_some_ok c ts r :
    views_agree r -> NoDup ts -> (forall t, t ∈ ts -> listed r c t) -> (exists t, recorded r c t) \/ is_Some (r_types r !! c) ->
    exists r', unregister c (Some ts) r = (r', None) /\
      (forall d t, listed r' d t <-> listed r d t /\ ~ (d = c /\ t ∈ ts)) /\
      (forall d t, recorded r' d t <-> recorded r d t /\ ~ (d = c /\ t ∈ ts)) /\
      r_notes r' = r_notes r ++ [NUnregistered c (list_to_set ts)].
  Proof.
    intros Hv Hnd Hl Hk. unfold unregister.
    rewrite decide_True by (apply Forall_forall; intros t Ht; apply Hl; done).
    destruct (remove_all_spec c ts (r_by_type r) Hnd) as (m' & E & Hm').
    { apply Forall_forall. intros t Ht. apply Hl. done. }
    rewrite E.
    assert (Hs : is_Some (r_types r !! c)).
    { destruct Hk as [(t & X & EX & _)|]; [eauto|done]. }
    destruct Hs as [X EX]. rewrite EX.
    eexists. split; [reflexivity|]. simpl. split; [|split; [|done]].
    - intros d t. unfold listed, components_by_type. simpl. rewrite Hm'. done.
    - intros d t. unfold recorded. simpl. destruct (decide (d = c)) as [->|Hne].
      + rewrite EX. case_decide as He.
        * rewrite lookup_delete. split; [intros (? & ? & ?); done|].
          intros [(? & [= <-] & Ht) Hn]. exfalso. assert (Hx : t ∈ X ∖ list_to_set ts) by set_solver.
          rewrite He in Hx. set_solver.
        * rewrite lookup_insert. split.
          -- intros (? & [= <-] & Ht). apply elem_of_difference in Ht as [Ht1 Ht2].
             rewrite elem_of_list_to_set in Ht2. split; [eauto|]. tauto.
          -- intros [(? & [= <-] & Ht) Hn]. eexists. split; [done|]. apply elem_of_difference.
             rewrite elem_of_list_to_set. tauto.
      + case_decide.
        * rewrite lookup_delete_ne by done. split; [|tauto]. intros ?. split; [done|]. intros [-> _]; done.
        * rewrite lookup_insert_ne by done. split; [|tauto]. intros ?. split; [done|]. intros [-> _]; done.
  Qed.

  Lemma unregister_all_ok c r :
    views_agree r -> is_Some (r_types r !! c) ->
    exists r', unregister c None r = (r', None) /\
      (forall d t, listed r' d t <-> listed r d t /\ d <> c) /\
      (forall d t, recorded r' d t <-> recorded r d t /\ d <> c) /\
      r_notes r' = r_notes r ++ [NUnregistered c ∅].
  Proof.
    intros Hv [X EX]. unfold unregister. rewrite EX.
    assert (Hl : forall t, t ∈ elements X -> c ∈ components_by_type r t).
    { intros t Ht. apply (Hv c t). exists X. split; [done|]. set_solver. }
    rewrite decide_True by (apply Forall_forall; exact Hl).
    destruct (remove_all_spec c (elements X) (r_by_type r) (NoDup_elements X)) as (m' & E & Hm').
    { apply Forall_forall. exact Hl. }
    rewrite E.
    assert (He : X ∖ list_to_set (elements X) = ∅) by (apply set_eq; intros t; rewrite list_to_set_elements_L; set_solver).
    rewrite He, decide_True by done.
    eexists. split; [reflexivity|]. simpl.
    assert (Hrc : forall t, recorded r c t <-> t ∈ elements X).
    { intros t. unfold recorded. rewrite EX. rewrite elem_of_elements. split; [intros (? & [= <-] & ?); done|eauto]. }
    split; [|split; [|done]].
    - intros d t. unfold listed, components_by_type in *. simpl. rewrite Hm'.
      destruct (decide (d = c)) as [->|Hne].
      + split; [|tauto]. intros [H1 H2]. exfalso. apply H2. split; [done|]. apply Hrc, Hv. exact H1.
      + tauto.
    - intros d t. unfold recorded. simpl. destruct (decide (d = c)) as [->|Hne].
      + rewrite lookup_delete. split; [intros (? & ? & ?); done|tauto].
      + rewrite lookup_delete_ne by done. tauto.
  Qed.

  Lemma unregister_lacking c ts r :
    (exists t, t ∈ ts /\ ~ listed r c t) -> unregister c (Some ts) r = (r, Some AssertionError).
  Proof.
    intros (t & Ht & Hl). unfold unregister. rewrite decide_False; [done|].
    intros Hf. rewrite Forall_forall in Hf. apply Hl, (Hf t Ht).
  Qed.

  Lemma unregister_unknown c r :
    r_types r !! c = None -> unregister c None r = (r, Some KeyError).
  Proof. intros E. unfold unregister. rewrite E. done. Qed.

  Lemma unregister_unknown_empty c r :
    r_types r !! c = None -> unregister c (Some []) r = (r, Some KeyError).
  Proof. intros E. unfold unregister. rewrite decide_True by constructor. simpl. rewrite E. destruct r; done. Qed.

  (** one call, classified *)
  Lemma reg_step_cases r o :
    views_agree r -> set_args o ->
    (exists e, reg_step r o = (r, Some e)) \/
    (exists r', reg_step r o = (r', None) /\ views_agree r' /\
       forall c t, listed r' c t <-> (adds c t (o, None) \/ listed r c t) /\ ~ drops c t (o, None)).
  Proof.
    intros Hv Ha. destruct o as [c ts|c [ts|]]; simpl in *.
    - destruct (decide (Exists (fun t => c ∈ components_by_type r t) ts)) as [He|He].
      + left. eexists. apply register_fail. apply Exists_exists in He as (t & ? & ?). eauto.
      + right. destruct (register_ok c ts r) as (r' & E & H1 & H2 & _).
        { intros t Ht Hl. apply He. apply Exists_exists. eauto. }
        exists r'. split; [done|]. split.
        * intros d t. rewrite H1, H2, (Hv d t). done.
        * intros d t. rewrite H1. unfold adds, drops. split.
          -- intros Hor. split; [|intros [?|(? & ? & ?)]; done].
             destruct Hor as [?|[-> ?]]; [tauto|]. left. eauto.
          -- intros [[(? & [= -> ->] & ?)|?] _]; tauto.
    - destruct (decide (Exists (fun t => c ∉ components_by_type r t) ts)) as [He|He].
      { left. eexists. apply unregister_lacking. apply Exists_exists in He as (t & ? & ?). eauto. }
      assert (Hl : forall t, t ∈ ts -> listed r c t).
      { intros t Ht. destruct (decide (c ∈ components_by_type r t)) as [?|Hn]; [done|].
        exfalso. apply He, Exists_exists. eauto. }
      destruct (r_types r !! c) as [X|] eqn:EX.
      + right. destruct (unregister_some_ok c ts r) as (r' & E & H1 & H2 & _); [done|done|done|right; eauto|].
        exists r'. split; [done|]. split.
        * intros d t. rewrite H1, H2, (Hv d t). done.
        * intros d t. rewrite H1. unfold adds, drops. split.
          -- intros [? Hn]. split; [tauto|]. intros [?|(? & [= -> ->] & ?)]; [done|tauto].
          -- intros [[(? & ? & ?)|?] Hn]; [done|]. split; [done|]. intros [-> ?]. apply Hn. right. eauto.
      + left. destruct ts as [|t ts].
        * eexists. apply unregister_unknown_empty. done.
        * exfalso. destruct (Hv c t) as [Hv1 _]. destruct Hv1 as (X & E & _); [apply Hl; left|]. congruence.
    - destruct (r_types r !! c) as [X|] eqn:EX.
      + right. destruct (unregister_all_ok c r) as (r' & E & H1 & H2 & _); [done|eauto|].
        exists r'. split; [done|]. split.
        * intros d t. rewrite H1, H2, (Hv d t). done.
        * intros d t. rewrite H1. unfold adds, drops. split.
          -- intros [? Hn]. split; [tauto|]. intros [[= ->]|(? & ? & ?)]; done.
          -- intros [[(? & ? & ?)|?] Hn]; [done|]. split; [done|]. intros ->. apply Hn. left. done.
      + left. eexists. apply unregister_unknown. done.
  Qed.

  Lemma adds_failed c t o e : ~ adds c t (o : rop C T, Some e).
  Proof. intros (? & [=] & _). Qed.
  Lemma drops_failed c t o e : ~ drops c t (o : rop C T, Some e).
  Proof. intros [[=]|(? & [=] & _)]. Qed.

  Lemma registered_since_snoc (l : list (rop C T * option exn)) e c t :
    registered_since (l ++ [e]) c t <-> (adds c t e \/ registered_since l c t) /\ ~ drops c t e \/ (adds c t e /\ True).
  Proof.
    split.
    - intros (l1 & e' & l2 & E & Ha & Hf). destruct l2 as [|x l2] using rev_ind.
      + apply app_inj_tail in E as [-> ->]. right. done.
      + clear IHl2. rewrite app_comm_cons, app_assoc in E. apply app_inj_tail in E as [-> ->].
        apply Forall_app in Hf as [Hf Hx]. rewrite Forall_singleton in Hx. left. split; [|exact Hx].
        right. exists l1, e', l2. done.
    - intros [[[Ha|(l1 & e' & l2 & -> & Ha & Hf)] Hd]|[Ha _]].
      + exists l, e, []. done.
      + exists l1, e', (l2 ++ [e]). split; [by rewrite <- app_assoc|]. split; [done|].
        apply Forall_app. split; [done|]. rewrite Forall_singleton. done.
      + exists l, e, []. done.
  Qed.

  Lemma adds_not_drops c t (e : rop C T * option exn) : adds c t e -> ~ drops c t e.
  Proof. intros (? & -> & _) [[=]|(? & [=] & _)]. Qed.

  Lemma reg_run_snoc h o r :
    reg_run r (h ++ [o]) =
    let '(r1, l) := reg_run r h in let '(r2, e) := reg_step r1 o in (r2, l ++ [(o, e)]).
  Proof.
    revert r. induction h as [|o' h IH]; intros r; simpl.
    - destruct (reg_step r o). done.
    - destruct (reg_step r o') as [r1 e1]. rewrite IH. destruct (reg_run r1 h) as [r2 l]. destruct (reg_step r2 o). done.
  Qed.

  Lemma registry_history_lemma (h : list (rop C T)) :
    Forall set_args h ->
    forall c t, let '(r, l) := reg_run reg_new h in
      (listed r c t <-> registered_since l c t) /\ (recorded r c t <-> registered_since l c t).
  Proof.
    intros Hh.
    assert (G : views_agree (reg_run reg_new h).1 /\
      forall c t, listed (reg_run reg_new h).1 c t <-> registered_since (reg_run reg_new h).2 c t).
    { induction h as [|o h IH] using rev_ind.
      - simpl. split.
        + intros c t. unfold listed, recorded, components_by_type. simpl. rewrite !lookup_empty. simpl.
          split; [set_solver|intros (? & ? & ?); done].
        + intros c t. unfold listed, components_by_type. simpl. rewrite lookup_empty. simpl.
          split; [set_solver|]. intros (l1 & ? & ? & E & _). destruct l1; done.
      - apply Forall_app in Hh as [Hh Ho]. rewrite Forall_singleton in Ho.
        specialize (IH Hh) as [IH1 IH2]. rewrite reg_run_snoc. destruct (reg_run reg_new h) as [r l]. simpl in *.
        destruct (reg_step_cases r o IH1 Ho) as [(e & E)|(r' & E & Hv' & Hl')]; rewrite E; simpl.
        + split; [done|]. intros c t. rewrite registered_since_snoc, IH2. split.
          * intros Hr. left. split; [tauto|]. apply drops_failed.
          * intros [[[Ha|Hr] _]|[Ha _]]; [|done|]; apply adds_failed in Ha; done.
        + split; [done|]. intros c t. rewrite registered_since_snoc, Hl', IH2. split.
          * tauto.
          * intros [?|[Ha _]]; [done|]. split; [tauto|]. apply adds_not_drops. done. }
    destruct G as [G1 G2]. intros c t. specialize (G2 c t). specialize (G1 c t).
    destruct (reg_run reg_new h) as [r l]. simpl in *. rewrite <- G1, G2. done.
  Qed.

  (** reachable states have agreeing views *)
  Lemma reachable_views h : Forall set_args h -> views_agree (reg_run reg_new h).1.
  Proof.
    intros Hh c t. pose proof (registry_history_lemma h Hh c t) as Hc.
    destruct (reg_run reg_new h) as [r l]. simpl. destruct Hc as [-> ->]. done.
  Qed.

  Lemma get_component_lemma prio (order : gset C -> list C) r (t : T) :
    (forall X, order X ≡ₚ elements X) ->
    (get_component prio order r t = None <-> forall c, ~ listed r c t) /\
    (forall c, get_component prio order r t = Some c -> listed r c t /\ head (order (components_by_type r t)) = Some c).
  Proof.
    intros Ho. unfold get_component. specialize (Ho (components_by_type r t)).
    set (l := order (components_by_type r t)) in *.
    assert (Hlen : length (py_sorted (fun a b => Z.ltb (prio b) (prio a)) l) = length l).
    { apply Permutation_length, py_sorted_perm. }
    rewrite Hlen.
    assert (Hin : forall c, c ∈ l <-> listed r c t).
    { intros c. rewrite Ho. apply elem_of_elements. }
    destruct l as [|x l']; simpl.
    - split; [|done]. split; [|done]. intros _ c Hc. apply Hin in Hc. set_solver.
    - split.
      + split; [done|]. intros Hn. exfalso. apply (Hn x). apply Hin. left.
      + intros c [= <-]. split; [|done]. apply Hin. left.
  Qed.

  Lemma fire_existing_lemma (order : gset C -> list C) r (t : T) :
    (forall X, order X ≡ₚ elements X) ->
    exists cs, NoDup cs /\ (forall c, c ∈ cs <-> listed r c t) /\
      r_notes (fire_existing order r t) = r_notes r ++ ((fun c => NRegistered c {[t]}) <$> cs) /\
      r_types (fire_existing order r t) = r_types r /\ r_by_type (fire_existing order r t) = r_by_type r.
  Proof.
    intros Ho. exists (order (components_by_type r t)). rewrite Ho at 1. split; [apply NoDup_elements|].
    split; [|done]. intros c. rewrite Ho. apply elem_of_elements.
  Qed.
End Proofs.
