From stdpp Require Import gmap sets list sorting.
From Verif Require Import PyBase Selection_Model Selection_Spec.
Open Scope Z_scope.

(** * Firing *)
Lemma finish_fires s s' : o_fires (finish s s').2 = (if decide (s_indexes s' = s_indexes s) then 0 else 1)%nat.
Proof. simpl. repeat case_decide; congruence. Qed.

Lemma finish_err s s' : o_err (finish s s').2 = None.
Proof. reflexivity. Qed.

Ltac break_sel :=
  repeat (match goal with
          | |- context [match s_style ?s with _ => _ end] => destruct (s_style s) eqn:?
          | |- context [decide ?P] => destruct (decide P)
          | |- context [match s_anchor ?s with _ => _ end] => destruct (s_anchor s) eqn:?
          end; simpl).

Lemma fires_exact_lemma s o :
  notifying o = true ->
  o_fires (sel_step s o).2 = (if decide (s_indexes (sel_step s o).1 = s_indexes s) then 0 else 1)%nat.
Proof.
  assert (Hfin : forall s', o_fires (finish s s').2 =
     (if decide (s_indexes (finish s s').1 = s_indexes s) then 0 else 1)%nat) by (intros; apply finish_fires).
  assert (Hclear : o_fires (clear s).2 = (if decide (s_indexes (clear s).1 = s_indexes s) then 0 else 1)%nat)
    by apply Hfin.
  assert (Hset : forall i, o_fires (set_ i s).2 =
     (if decide (s_indexes (set_ i s).1 = s_indexes s) then 0 else 1)%nat).
  { intros i. unfold set_. destruct (s_style s); auto. }
  assert (Hadd : forall i, o_fires (add i s).2 =
     (if decide (s_indexes (add i s).1 = s_indexes s) then 0 else 1)%nat).
  { intros i. unfold add. destruct (s_style s); auto. }
  assert (Hid : forall e, o_fires (s, Outcome 0 e).2 = (if decide (s_indexes (s, Outcome 0 e).1 = s_indexes s) then 0 else 1)%nat).
  { intros e. simpl. rewrite decide_True by done. done. }
  assert (Hrem : forall i, o_fires (remove i s).2 =
     (if decide (s_indexes (remove i s).1 = s_indexes s) then 0 else 1)%nat).
  { intros i. unfold remove. destruct (s_style s); auto; destruct (decide (i ∈ s_indexes s)); auto. }
  destruct o; simpl notifying; intros Hn; try discriminate; cbn [sel_step]; auto.
  - unfold set_multiple. destruct (s_style s); auto; destruct l as [|? [|? ?]]; auto.
  - unfold toggle. destruct (decide (i ∈ s_indexes s)); auto.
  - unfold extend. destruct (s_style s); auto.
Qed.

Lemma shift_silent_lemma s k :
  o_fires (insert_index k s).2 = 0%nat /\ o_fires (remove_index k s).2 = 0%nat.
Proof. done. Qed.

Lemma add_range_fires_lemma l s :
  s_indexes (add_range l s).1 <> s_indexes s -> (1 <= o_fires (add_range l s).2)%nat.
Proof.
  revert s. induction l as [|i l IH]; intros s; simpl; [done|].
  destruct (add i s) as [s1 o1] eqn:Ha. destruct (add_range l s1) as [s2 o2] eqn:Hr. simpl.
  intros Hne.
  pose proof (fires_exact_lemma s (OAdd i) eq_refl) as Hf. cbn [sel_step] in Hf. rewrite Ha in Hf. simpl in Hf.
  specialize (IH s1). rewrite Hr in IH. simpl in IH.
  case_decide as Hd; [|lia].
  rewrite <- Hd in Hne. specialize (IH Hne). lia.
Qed.

(** * Shifting *)
Lemma item_at_app1 {A} (L1 L2 : list A) i y :
  i < Z.of_nat (length L1) -> item_at (L1 ++ L2) i y <-> item_at L1 i y.
Proof.
  unfold item_at. intros Hi. split; intros [H0 H].
  - rewrite nth_error_app1 in H by lia. done.
  - split; [done|]. rewrite nth_error_app1 by lia. done.
Qed.
Lemma item_at_app2 {A} (L1 L2 : list A) i y :
  Z.of_nat (length L1) <= i -> item_at (L1 ++ L2) i y <-> item_at L2 (i - Z.of_nat (length L1)) y.
Proof.
  unfold item_at. intros Hi.
  rewrite nth_error_app2 by lia.
  replace (Z.to_nat (i - Z.of_nat (length L1))) with (Z.to_nat i - length L1)%nat by lia.
  split; intros [H0 H]; (split; [lia|done]).
Qed.
Lemma item_at_cons_0 {A} (x : A) L y : item_at (x :: L) 0 y <-> y = x.
Proof. unfold item_at. simpl. split; [intros [_ [= ->]]; done|intros ->; split; [lia|done]]. Qed.
Lemma item_at_cons_S {A} (x : A) L i y : 0 < i -> item_at (x :: L) i y <-> item_at L (i - 1) y.
Proof.
  unfold item_at. intros Hi. replace (Z.to_nat i) with (S (Z.to_nat (i - 1))) by lia. simpl.
  split; intros [H0 H]; (split; [lia|done]).
Qed.
Lemma item_at_elem {A} (L : list A) i y : item_at L i y -> y ∈ L.
Proof. intros [_ H]. apply elem_of_list_In, nth_error_In with (n := Z.to_nat i). done. Qed.

Lemma item_at_ins {A} (L1 L2 : list A) x i y :
  item_at (L1 ++ L2) i y <->
  item_at (L1 ++ x :: L2) (if i <? Z.of_nat (length L1) then i else i + 1) y.
Proof.
  destruct (Z.ltb_spec i (Z.of_nat (length L1))).
  - rewrite !item_at_app1 by lia. done.
  - rewrite !item_at_app2 by lia. rewrite item_at_cons_S by lia.
    replace (i + 1 - Z.of_nat (length L1) - 1) with (i - Z.of_nat (length L1)) by lia. done.
Qed.

Lemma item_at_at {A} (L1 L2 : list A) x y : item_at (L1 ++ x :: L2) (Z.of_nat (length L1)) y <-> y = x.
Proof. rewrite item_at_app2 by lia. rewrite Z.sub_diag. apply item_at_cons_0. Qed.

Lemma item_at_del {A} (L1 L2 : list A) x i y :
  i <> Z.of_nat (length L1) ->
  item_at (L1 ++ x :: L2) i y <->
  item_at (L1 ++ L2) (if Z.of_nat (length L1) <? i then i - 1 else i) y.
Proof.
  intros Hi. destruct (Z.ltb_spec (Z.of_nat (length L1)) i).
  - rewrite !item_at_app2 by lia. rewrite item_at_cons_S by lia.
    replace (i - 1 - Z.of_nat (length L1)) with (i - Z.of_nat (length L1) - 1) by lia. done.
  - rewrite !item_at_app1 by lia. done.
Qed.

Lemma insert_follows_lemma {A} (L1 L2 : list A) x s y :
  let s' := (insert_index (Z.of_nat (length L1)) s).1 in
  (selected (L1 ++ x :: L2) s' y <-> selected (L1 ++ L2) s y) /\
  (anchored (L1 ++ x :: L2) s' y <-> anchored (L1 ++ L2) s y) /\
  Z.of_nat (length L1) ∉ s_indexes s'.
Proof.
  simpl. split; [|split].
  - unfold selected. simpl. split.
    + intros (j & Hj & Hit). apply elem_of_map in Hj as (i & -> & Hi). exists i. split; [done|].
      apply (item_at_ins _ _ x). done.
    + intros (i & Hi & Hit). eexists. split; [apply elem_of_map; exists i; split; [reflexivity|done]|].
      apply item_at_ins. done.
  - unfold anchored. simpl. destruct (s_anchor s) as [a|] eqn:Ha; [|split; intros (? & ? & ?); done].
    assert (Heq : (if Z.of_nat (length L1) <=? a then Some (a + 1) else Some a)
            = Some (if a <? Z.of_nat (length L1) then a else a + 1)).
    { destruct (Z.leb_spec (Z.of_nat (length L1)) a), (Z.ltb_spec a (Z.of_nat (length L1))); try lia; done. }
    rewrite Heq. split; intros (b & [= <-] & Hit); eexists; (split; [reflexivity|]).
    + apply (item_at_ins _ _ x). done.
    + apply item_at_ins. done.
  - intros Hin. apply elem_of_map in Hin as (i & Hi & _).
    destruct (Z.ltb_spec i (Z.of_nat (length L1))); lia.
Qed.

Lemma remove_follows_lemma {A} (L1 L2 : list A) x s y :
  NoDup (L1 ++ x :: L2) ->
  let s' := (remove_index (Z.of_nat (length L1)) s).1 in
  (selected (L1 ++ L2) s' y <-> selected (L1 ++ x :: L2) s y /\ y <> x) /\
  (~ anchored (L1 ++ x :: L2) s x -> (anchored (L1 ++ L2) s' y <-> anchored (L1 ++ x :: L2) s y)).
Proof.
  intros Hnd. simpl.
  assert (Hx : x ∉ L1 ++ L2).
  { apply NoDup_app in Hnd as (? & Hd & Hnd2). apply NoDup_cons in Hnd2 as [? ?].
    rewrite elem_of_app. intros [Hx|Hx]; [|done]. apply (Hd x Hx). left. }
  split.
  - unfold selected. simpl. split.
    + intros (j & Hj & Hit). apply elem_of_map in Hj as (i & -> & Hi).
      apply elem_of_difference in Hi as [Hi Hne]. rewrite elem_of_singleton in Hne.
      split.
      * exists i. split; [done|]. apply item_at_del; [done|]. done.
      * intros ->. apply item_at_elem in Hit. done.
    + intros [(i & Hi & Hit) Hne].
      assert (Hik : i <> Z.of_nat (length L1)).
      { intros ->. apply item_at_at in Hit. done. }
      eexists. split; [apply elem_of_map; exists i; split; [reflexivity|set_solver]|].
      apply (item_at_del _ _ x); done.
  - intros Hna. unfold anchored. simpl.
    destruct (s_anchor s) as [a|] eqn:Ha; [|split; intros (? & ? & ?); done].
    destruct (Z.eqb_spec (Z.of_nat (length L1)) a) as [<-|Hne].
    { exfalso. apply Hna. exists (Z.of_nat (length L1)). split; [done|]. apply item_at_at. done. }
    assert (Heq : (if Z.of_nat (length L1) <? a then Some (a - 1) else Some a)
            = Some (if Z.of_nat (length L1) <? a then a - 1 else a)) by (destruct (_ <? a); done).
    rewrite Heq. split; intros (b & [= <-] & Hit); eexists; (split; [reflexivity|]).
    + apply item_at_del; [lia|]. done.
    + apply (item_at_del _ _ x); [lia|]. done.
Qed.

Lemma edits_follow_lemma {A} (L : list A) es r L' s y :
  NoDup L -> edits L es r L' ->
  NoDup L' /\
  (selected L' (sel_run s (accompany <$> es)) y <-> selected L s y /\ y ∉ r).
Proof.
  intros Hnd He. revert s Hnd.
  induction He as [L|L1 L2 x es r L' Hx He IH|L1 L2 x es r L' He IH]; intros s Hnd.
  - simpl. split; [done|]. split; [intros H; split; [done|apply not_elem_of_nil]|tauto].
  - assert (Hnd' : NoDup (L1 ++ x :: L2)).
    { apply NoDup_ListNoDup. apply NoDup_Add with (a := x) (l := L1 ++ L2).
      - apply Add_app.
      - split; [apply NoDup_ListNoDup; done|]. rewrite <- elem_of_list_In. done. }
    cbn [fmap list_fmap accompany]. unfold sel_run. cbn [fold_left sel_step].
    specialize (IH (insert_index (Z.of_nat (length L1)) s).1 Hnd') as [IH1 IH2].
    split; [done|]. etransitivity; [apply IH2|].
    destruct (insert_follows_lemma L1 L2 x s y) as [H _]. rewrite H. done.
  - assert (Hnd' : NoDup (L1 ++ L2)).
    { apply NoDup_ListNoDup. eapply NoDup_remove_1. apply NoDup_ListNoDup. done. }
    cbn [fmap list_fmap accompany]. unfold sel_run. cbn [fold_left sel_step].
    specialize (IH (remove_index (Z.of_nat (length L1)) s).1 Hnd') as [IH1 IH2].
    split; [done|]. etransitivity; [apply IH2|].
    destruct (remove_follows_lemma L1 L2 x s y Hnd) as [H _]. rewrite H.
    rewrite not_elem_of_cons. tauto.
Qed.

Lemma edits_follow_anchor_lemma {A} (L : list A) es r L' s y :
  NoDup L -> edits L es r L' -> anchored L s y -> y ∉ r ->
  anchored L' (sel_run s (accompany <$> es)) y.
Proof.
  intros Hnd He. revert s Hnd.
  induction He as [L|L1 L2 x es r L' Hx He IH|L1 L2 x es r L' He IH]; intros s Hnd Ha Hy.
  - done.
  - assert (Hnd' : NoDup (L1 ++ x :: L2)).
    { apply NoDup_ListNoDup. apply NoDup_Add with (a := x) (l := L1 ++ L2).
      - apply Add_app.
      - split; [apply NoDup_ListNoDup; done|]. rewrite <- elem_of_list_In. done. }
    cbn [fmap list_fmap accompany]. unfold sel_run. cbn [fold_left sel_step].
    apply (IH (insert_index (Z.of_nat (length L1)) s).1 Hnd'); [|done].
    apply insert_follows_lemma. done.
  - assert (Hnd' : NoDup (L1 ++ L2)).
    { apply NoDup_ListNoDup. eapply NoDup_remove_1. apply NoDup_ListNoDup. done. }
    apply not_elem_of_cons in Hy as [Hyx Hy].
    cbn [fmap list_fmap accompany]. unfold sel_run. cbn [fold_left sel_step].
    apply (IH (remove_index (Z.of_nat (length L1)) s).1 Hnd'); [|done].
    apply (remove_follows_lemma L1 L2 x s y Hnd); [|done].
    intros (a & Ha1 & Ha2). destruct Ha as (b & Hb1 & Hb2).
    rewrite Ha1 in Hb1. injection Hb1 as <-. destruct Ha2 as [_ Ha2], Hb2 as [_ Hb2]. congruence.
Qed.

(** * Style bounds *)
Lemma style_fixed s o : s_style (sel_step s o).1 = s_style s.
Proof.
  assert (Hc : forall s, s_style (clear s).1 = s_style s) by (intros s0; unfold clear; destruct (s_style s0) eqn:E; simpl; auto).
  assert (Hset : forall i s, s_style (set_ i s).1 = s_style s).
  { intros i s0. unfold set_. destruct (s_style s0) eqn:E; first [rewrite Hc; done | done]. }
  assert (Ha : forall i s, s_style (add i s).1 = s_style s).
  { intros i s0. unfold add. destruct (s_style s0) eqn:E; rewrite ?Hc, ?Hset; done. }
  assert (Hr : forall i s, s_style (remove i s).1 = s_style s).
  { intros i s0. unfold remove. destruct (s_style s0) eqn:E; [rewrite Hc; done|done| |];
    case_decide; simpl; auto. }
  destruct o; cbn [sel_step]; auto.
  - revert s. induction l as [|i l IH]; intros s; simpl; [done|].
    destruct (add i s) as [s1 o1] eqn:E1. specialize (IH s1). destruct (add_range l s1) as [s2 o2] eqn:E2. simpl in *.
    rewrite IH. specialize (Ha i s). rewrite E1 in Ha. done.
  - unfold set_multiple. destruct (s_style s) eqn:E; rewrite ?Hc; auto;
      destruct l as [|? [|? ?]]; rewrite ?Hc, ?Hset; done.
  - unfold toggle. case_decide; auto.
  - unfold extend. destruct (s_style s) eqn:E; rewrite ?Hc, ?Hset; auto. simpl.
    destruct (s_anchor s); [|done]. repeat destruct (_ <? _); done.
Qed.

Lemma run_style s h : s_style (sel_run s h) = s_style s.
Proof.
  revert s. induction h as [|o h IH]; intros s; [done|].
  change (sel_run s (o :: h)) with (sel_run (sel_step s o).1 h). rewrite IH, style_fixed. done.
Qed.

Lemma none_step s o : s_style s = SNone -> s_indexes s = ∅ -> s_indexes (sel_step s o).1 = ∅.
Proof.
  intros Hs He.
  assert (Hc : s_indexes (clear s).1 = ∅) by (unfold clear; rewrite Hs; done).
  destruct o; cbn [sel_step]; auto; unfold add, remove, set_multiple, set_, toggle, extend; rewrite ?Hs; auto.
  - clear Hc. revert s Hs He. induction l as [|i l IH]; intros s Hs He; simpl; [done|].
    destruct (add i s) as [s1 o1] eqn:E1. specialize (IH s1).
    pose proof (style_fixed s (OAdd i)) as Hst. cbn [sel_step] in Hst. rewrite E1 in Hst. simpl in Hst.
    unfold add in E1. rewrite Hs in E1. unfold clear in E1. rewrite Hs in E1. injection E1 as <- <-.
    specialize (IH eq_refl eq_refl). simpl in *. destruct (add_range l _) as [s2 o2] eqn:E2. done.
  - unfold add, remove. rewrite Hs. case_decide; done.
  - simpl. rewrite He. apply set_map_empty.
  - simpl. rewrite He. rewrite difference_empty_L || idtac. replace (∅ ∖ {[k]} : gset Z) with (∅ : gset Z) by set_solver.
    apply set_map_empty.
Qed.

Lemma none_empty_lemma h : s_indexes (sel_run (new_selection SNone) h) = ∅.
Proof.
  assert (H : forall h s, s_style s = SNone -> s_indexes s = ∅ -> s_indexes (sel_run s h) = ∅).
  { clear h. intros h. induction h as [|o h IH]; intros s Hs He; [done|].
    change (sel_run s (o :: h)) with (sel_run (sel_step s o).1 h). apply IH.
    - rewrite style_fixed. done.
    - apply none_step; done. }
  apply H; done.
Qed.

Lemma amo_empty : at_most_one ∅.
Proof. intros i j Hi; set_solver. Qed.
Lemma amo_singleton i : at_most_one {[i]}.
Proof. intros a b Ha Hb; set_solver. Qed.
Lemma amo_subset X Y : at_most_one Y -> X ⊆ Y -> at_most_one X.
Proof. intros H Hs i j Hi Hj. apply H; set_solver. Qed.
Lemma amo_map (f : Z -> Z) X : at_most_one X -> at_most_one (set_map f X).
Proof.
  intros H i j Hi Hj. apply elem_of_map in Hi as (a & -> & Ha). apply elem_of_map in Hj as (b & -> & Hb).
  f_equal. apply H; done.
Qed.

Definition is_single st := st = SSingle \/ st = SSingleOrNone.

Lemma single_set s i : is_single (s_style s) -> s_indexes (set_ i s).1 = {[i]}.
Proof. intros [H|H]; unfold set_; rewrite H; done. Qed.

Lemma single_add s i : is_single (s_style s) -> add i s = set_ i s.
Proof. intros [H|H]; unfold add; rewrite H; done. Qed.

Lemma single_remove s i : is_single (s_style s) -> s_indexes (remove i s).1 ⊆ s_indexes s.
Proof.
  intros [H|H]; unfold remove; rewrite H; [done|].
  case_decide; simpl; set_solver.
Qed.

Lemma single_add_range s l : is_single (s_style s) -> at_most_one (s_indexes s) -> at_most_one (s_indexes (add_range l s).1).
Proof.
  revert s. induction l as [|i l IH]; intros s Hs Ha; simpl; [done|].
  rewrite single_add by done.
  pose proof (style_fixed s (OSet i)) as Hst. cbn [sel_step] in Hst.
  pose proof (single_set s i Hs) as Hi.
  destruct (set_ i s) as [s1 o1]. simpl in *.
  specialize (IH s1). destruct (add_range l s1) as [s2 o2]. simpl in *.
  apply IH; [rewrite Hst; done|]. rewrite Hi. apply amo_singleton.
Qed.

Lemma single_step s o :
  is_single (s_style s) -> at_most_one (s_indexes s) ->
  (s_style s = SSingle -> clears_single o = true -> s_indexes s ⊆ {[0]}) ->
  at_most_one (s_indexes (sel_step s o).1).
Proof.
  intros Hs Ha Hc.
  assert (Hclear : (s_style s = SSingle -> s_indexes s ⊆ {[0]}) -> at_most_one (s_indexes (clear s).1)).
  { intros Hz. unfold clear. destruct Hs as [H|H]; rewrite H; simpl; [|apply amo_empty].
    apply amo_subset with (Y := {[0]}); [apply amo_singleton|]. specialize (Hz H). apply union_least; [reflexivity|exact Hz]. }
  assert (Hset : forall i, at_most_one (s_indexes (set_ i s).1)).
  { intros i. rewrite single_set by done. apply amo_singleton. }
  assert (Hadd : forall i, at_most_one (s_indexes (add i s).1)).
  { intros i. rewrite single_add by done. auto. }
  assert (Hrem : forall i, at_most_one (s_indexes (remove i s).1)).
  { intros i. eapply amo_subset; [exact Ha|]. apply single_remove. done. }
  destruct o; cbn [sel_step]; auto.
  - apply single_add_range; done.
  - unfold set_multiple.
    assert (at_most_one (s_indexes (match l with [i] => set_ i s | _ => clear s end).1)).
    { destruct l as [|i [|j l]]; auto; apply Hclear; intros Hss; apply Hc; done. }
    destruct Hs as [H'|H']; rewrite H'; done.
  - unfold toggle. case_decide; auto.
  - unfold extend. destruct Hs as [H'|H']; rewrite H'; auto.
  - simpl. apply amo_map. done.
  - simpl. apply amo_map. eapply amo_subset; [exact Ha|]. clear. set_solver.
Qed.

Lemma sel_run_snoc s h o : sel_run s (h ++ [o]) = (sel_step (sel_run s h) o).1.
Proof. unfold sel_run. rewrite fold_left_app. done. Qed.

Lemma single_or_none_lemma h : at_most_one (s_indexes (sel_run (new_selection SSingleOrNone) h)).
Proof.
  induction h as [|o h IH] using rev_ind; [apply amo_empty|].
  rewrite sel_run_snoc. apply single_step; [|done|].
  - rewrite run_style. right. done.
  - rewrite run_style. done.
Qed.

Lemma single_guarded_lemma h :
  (forall h1 o h2, h = h1 ++ o :: h2 -> clears_single o = true ->
     s_indexes (sel_run (new_selection SSingle) h1) ⊆ {[0]}) ->
  at_most_one (s_indexes (sel_run (new_selection SSingle) h)).
Proof.
  induction h as [|o h IH] using rev_ind; intros Hg; [apply amo_empty|].
  rewrite sel_run_snoc. apply single_step.
  - rewrite run_style. left. done.
  - apply IH. intros h1 o' h2 -> Hc. apply (Hg h1 o' (h2 ++ [o])); [|done].
    rewrite <- app_assoc. done.
  - intros _ Hc. apply (Hg h o []); done.
Qed.

Lemma single_clear_lemma s :
  s_style s = SSingle -> forall j, j ∈ s_indexes (clear s).1 <-> j = 0 \/ j ∈ s_indexes s.
Proof. intros H j. unfold clear. rewrite H. simpl. set_solver. Qed.

(** * Extend *)
Lemma elem_zrange lo hi j : j ∈ zrange lo hi <-> lo <= j < hi.
Proof.
  unfold zrange. rewrite elem_of_list_fmap. split.
  - intros (n & -> & Hn). apply elem_of_seq in Hn. lia.
  - intros H. exists (Z.to_nat (j - lo)). split; [lia|]. apply elem_of_seq. lia.
Qed.

Lemma extend_anchor_lemma s i a :
  s_style s = SMultiple -> s_anchor s = Some a ->
  s_anchor (extend i s).1 = Some a /\
  (i <> a -> forall j, j ∈ s_indexes (extend i s).1 <-> j ∈ s_indexes s \/ Z.min a i <= j <= Z.max a i) /\
  (i = a -> (extend i s).1 = s /\ o_fires (extend i s).2 = 0%nat).
Proof.
  intros Hs Ha. unfold extend. rewrite Hs, Ha.
  destruct (Z.ltb_spec a i); [|destruct (Z.ltb_spec i a)]; simpl.
  - split; [done|]. split; [|lia]. intros _ j. rewrite elem_of_union, elem_of_list_to_set, elem_zrange.
    rewrite Z.min_l, Z.max_r by lia. intuition lia.
  - split; [done|]. split; [|lia]. intros _ j. rewrite elem_of_union, elem_of_list_to_set, elem_zrange.
    rewrite Z.min_r, Z.max_l by lia. intuition lia.
  - split; [done|]. split; [lia|]. intros _. split; [done|]. rewrite decide_True by done. done.
Qed.

Lemma extend_no_anchor_lemma s i :
  s_style s = SMultiple -> s_anchor s = None ->
  s_anchor (extend i s).1 = Some i /\ forall j, j ∈ s_indexes (extend i s).1 <-> j ∈ s_indexes s \/ j = i.
Proof. intros Hs Ha. unfold extend. rewrite Hs, Ha. simpl. split; [done|]. set_solver. Qed.

(** * Anchor *)
Lemma update_anchor_some l a b :
  update_anchor l (Some a) = Some b <-> b <= a /\ (forall i, i ∈ l -> b <= i) /\ (b = a \/ b ∈ l).
Proof.
  revert a. induction l as [|x l IH]; intros a.
  - simpl. split.
    + intros [= <-]. split; [lia|]. split; [intros i Hi; set_solver|left; done].
    + intros (_ & _ & [->|H]); [done|set_solver].
  - replace (update_anchor (x :: l) (Some a)) with (update_anchor l (Some (if x <? a then x else a))).
    2:{ unfold update_anchor. simpl. destruct (x <? a); done. }
    rewrite IH. destruct (Z.ltb_spec x a).
    + split.
      * intros (H1 & H2 & H3). split; [lia|]. split.
        -- intros i [->|Hi]%elem_of_cons; [lia|auto].
        -- right. apply elem_of_cons. tauto.
      * intros (H1 & H2 & H3). split; [apply H2; left|]. split.
        -- intros i Hi. apply H2. right. done.
        -- destruct H3 as [->|H3].
           ++ assert (a <= x) by (apply H2; left). lia.
           ++ apply elem_of_cons in H3. tauto.
    + split.
      * intros (H1 & H2 & H3). split; [lia|]. split.
        -- intros i [->|Hi]%elem_of_cons; [lia|auto].
        -- destruct H3; [tauto|right; right; done].
      * intros (H1 & H2 & H3). split; [lia|]. split.
        -- intros i Hi. apply H2. right. done.
        -- destruct H3 as [->|H3]; [tauto|]. apply elem_of_cons in H3 as [->|H3]; [left; lia|tauto].
Qed.

Lemma update_anchor_total l a : exists b, update_anchor l (Some a) = Some b.
Proof.
  revert a. induction l as [|x l IH]; intros a; simpl; [eauto|].
  destruct (x <? a); apply IH.
Qed.

(** The result depends only on the set iterated, not on the iteration order. *)
Lemma update_anchor_order l1 l2 a :
  (forall i, i ∈ l1 <-> i ∈ l2) -> update_anchor l1 (Some a) = update_anchor l2 (Some a).
Proof.
  intros Heq. destruct (update_anchor_total l1 a) as [b Hb]. rewrite Hb. symmetry.
  apply update_anchor_some in Hb as (H1 & H2 & H3). apply update_anchor_some.
  split; [done|]. split; [intros i Hi; apply H2, Heq; done|]. destruct H3; [tauto|right; apply Heq; done].
Qed.

Lemma anchor_ok_step s o : anchor_ok s -> non_removing s o -> anchor_ok (sel_step s o).1.
Proof.
  intros Ha Hn.
  assert (Hclear : anchor_ok (clear s).1).
  { unfold clear, anchor_ok. destruct (s_style s); simpl; set_solver. }
  assert (Hset : forall i, anchor_ok (set_ i s).1).
  { intros i. unfold set_. destruct (s_style s); auto; unfold anchor_ok; simpl; set_solver. }
  assert (Hadd : forall s i, anchor_ok s -> anchor_ok (clear s).1 -> (forall i, anchor_ok (set_ i s).1) -> anchor_ok (add i s).1).
  { clear. intros s i Ha Hc Hs. unfold add. destruct (s_style s); auto. unfold anchor_ok in *. simpl. case_decide as He.
    - set_solver.
    - destruct (s_anchor s); set_solver. }
  destruct o; cbn [sel_step non_removing] in *; auto; try done.
  - clear Hn Hclear Hset. revert s Ha. induction l as [|i l IH]; intros s Ha; simpl; [done|].
    assert (Hclear : anchor_ok (clear s).1).
    { unfold clear, anchor_ok. destruct (s_style s); simpl; set_solver. }
    assert (Hset : forall i, anchor_ok (set_ i s).1).
    { intros i'. unfold set_. destruct (s_style s); auto; unfold anchor_ok; simpl; set_solver. }
    specialize (Hadd s i Ha Hclear Hset).
    destruct (add i s) as [s1 o1]. simpl in *. specialize (IH s1 Hadd). destruct (add_range l s1). done.
  - unfold set_multiple. destruct (s_style s); auto.
    + destruct l as [|? [|? ?]]; auto.
    + destruct l as [|? [|? ?]]; auto.
    + unfold anchor_ok. simpl. destruct l as [|x l]; simpl; set_solver.
  - unfold toggle. rewrite decide_False by done. auto.
  - unfold extend. destruct (s_style s); auto. unfold anchor_ok in *. simpl.
    destruct (s_anchor s) as [a|] eqn:E; [|simpl; set_solver].
    destruct (a <? i); [simpl; set_solver|]. destruct (i <? a); simpl; [set_solver|]. rewrite E. done.
  - unfold anchor_ok in *. simpl. destruct (s_anchor s) as [a|].
    + assert (Heq : (if k <=? a then Some (a + 1) else Some a) = Some (if a <? k then a else a + 1)).
      { destruct (Z.leb_spec k a), (Z.ltb_spec a k); try lia; done. }
      rewrite Heq. apply elem_of_map. exists a. done.
    + rewrite Ha. apply set_map_empty.
Qed.

Lemma anchor_history_lemma st h :
  (forall h1 o h2, h = h1 ++ o :: h2 -> non_removing (sel_run (new_selection st) h1) o) ->
  anchor_ok (sel_run (new_selection st) h).
Proof.
  induction h as [|o h IH] using rev_ind; intros Hg; [done|].
  rewrite sel_run_snoc. apply anchor_ok_step.
  - apply IH. intros h1 o' h2 ->. apply (Hg h1 o' (h2 ++ [o])). rewrite <- app_assoc. done.
  - apply (Hg h o []). done.
Qed.

Lemma remove_anchor_lemma s i a :
  (s_style s = SMultiple \/ s_style s = SSingleOrNone) -> i ∈ s_indexes s -> s_anchor s = Some a ->
  exists b, s_anchor (remove i s).1 = Some b /\
    (a <> i -> a ∈ s_indexes s -> b = a) /\
    (a = i -> b <= a /\ (forall j, j ∈ s_indexes s -> b <= j \/ j = i) /\ (b = a \/ b ∈ s_indexes s)).
Proof.
  intros Hs Hi Ha. unfold remove.
  assert (H : (finish s (Sel (s_style s) (s_indexes s ∖ {[i]})
     (match s_anchor s with
      | Some a => if decide (a ∈ s_indexes s ∖ {[i]}) then Some a
                  else update_anchor (elements (s_indexes s ∖ {[i]})) (Some a)
      | None => update_anchor (elements (s_indexes s ∖ {[i]})) None
      end))) = remove i s).
  { unfold remove. destruct Hs as [Hs|Hs]; rewrite Hs, decide_True by done; done. }
  unfold remove in H. rewrite <- H. clear H. rewrite Ha. simpl.
  case_decide as Hd.
  - exists a. split; [done|]. split; [done|]. intros ->. set_solver.
  - destruct (update_anchor_total (elements (s_indexes s ∖ {[i]})) a) as [b Hb]. exists b. split; [done|].
    apply update_anchor_some in Hb as (H1 & H2 & H3). split; [set_solver|]. intros ->.
    split; [done|]. split.
    + intros j Hj. destruct (decide (j = i)); [tauto|]. left. apply H2. set_solver.
    + destruct H3; [tauto|]. right. set_solver.
Qed.

Lemma remove_index_anchor_lemma s k :
  s_anchor s = Some k ->
  exists b, s_anchor (remove_index k s).1 = Some b /\ b <= k /\ (forall j, j ∈ s_indexes s -> b <= j) /\
    (b = k \/ b ∈ s_indexes s).
Proof.
  intros Ha. simpl. rewrite Ha, Z.eqb_refl.
  destruct (update_anchor_total (elements (s_indexes s)) k) as [b Hb]. exists b. split; [done|].
  apply update_anchor_some in Hb as (H1 & H2 & H3). split; [done|]. split.
  - intros j Hj. apply H2. set_solver.
  - destruct H3; [tauto|]. right. set_solver.
Qed.

(** * Ordered indexes *)
Lemma zsort_insert_sorted x l : StronglySorted Z.le l -> StronglySorted Z.le (sort_insert Z.ltb x l).
Proof.
  induction l as [|y l IH]; intros Hs; simpl; [repeat constructor|].
  inversion Hs as [|? ? Hs' Hf]; subst.
  destruct (Z.ltb_spec y x).
  - constructor; [auto|]. rewrite sort_insert_perm. constructor; [lia|done].
  - constructor; [done|]. constructor; [done|]. eapply Forall_impl; [exact Hf|]. simpl; lia.
Qed.

Lemma zsorted_sorted l : StronglySorted Z.le (py_sorted Z.ltb l).
Proof. induction l as [|x l IH]; simpl; [constructor|]. apply zsort_insert_sorted. done. Qed.

Lemma strongly_sorted_lt l : StronglySorted Z.le l -> NoDup l -> StronglySorted Z.lt l.
Proof.
  induction 1 as [|x l Hs IH Hf]; intros Hnd; [constructor|].
  apply NoDup_cons in Hnd as [Hx Hnd]. constructor; [auto|].
  rewrite Forall_forall in *. intros y Hy. specialize (Hf y Hy). assert (x <> y) by (intros ->; done). lia.
Qed.

Lemma list_remove1_perm a l : a ∈ l -> a :: list_remove1 a l ≡ₚ l.
Proof.
  induction l as [|y l IH]; intros Ha; simpl; [set_solver|].
  case_decide as Hd; [subst; done|].
  apply elem_of_cons in Ha as [->|Ha]; [done|]. rewrite Permutation_swap. rewrite IH; done.
Qed.

Lemma list_remove1_sorted a l : StronglySorted Z.lt l -> StronglySorted Z.lt (list_remove1 a l).
Proof.
  induction 1 as [|y l Hs IH Hf]; simpl; [constructor|].
  case_decide; [done|]. constructor; [done|].
  rewrite Forall_forall in *. intros z Hz. apply Hf.
  clear -Hz. induction l as [|w l IH]; simpl in *; [done|]. case_decide; [right; done|].
  apply elem_of_cons in Hz as [->|Hz]; [left|right; auto].
Qed.

Lemma ordered_lemma s :
  NoDup (ordered_indexes s) /\
  (forall i, i ∈ ordered_indexes s <-> i ∈ s_indexes s) /\
  exists front rest, ordered_indexes s = front ++ rest /\ StronglySorted Z.lt rest /\
    ((exists a, s_anchor s = Some a /\ a ∈ s_indexes s /\ front = [a]) \/
     ((forall a, s_anchor s = Some a -> a ∉ s_indexes s) /\ front = [])).
Proof.
  set (l := py_sorted Z.ltb (elements (s_indexes s))).
  assert (Hp : l ≡ₚ elements (s_indexes s)) by apply py_sorted_perm.
  assert (Hs : StronglySorted Z.lt l).
  { apply strongly_sorted_lt; [apply zsorted_sorted|]. rewrite Hp. apply NoDup_elements. }
  assert (Hel : forall i, i ∈ l <-> i ∈ s_indexes s).
  { intros i. rewrite Hp. apply elem_of_elements. }
  assert (Hord : ordered_indexes s ≡ₚ l).
  { unfold ordered_indexes. fold l. destruct (s_anchor s) as [a|]; [|done].
    case_decide; [|done]. apply list_remove1_perm. apply Hel. done. }
  split; [rewrite Hord, Hp; apply NoDup_elements|].
  split; [intros i; rewrite Hord; apply Hel|].
  unfold ordered_indexes. fold l. destruct (s_anchor s) as [a|] eqn:Ha.
  - case_decide as Hd.
    + exists [a], (list_remove1 a l). split; [done|]. split; [apply list_remove1_sorted; done|]. left. eauto.
    + exists [], l. split; [done|]. split; [done|]. right. split; [|done]. intros ? [= <-]. done.
  - exists [], l. split; [done|]. split; [done|]. right. split; [|done]. intros ? [=].
Qed.

(** * Set operations *)
Lemma multiple_ops_lemma s :
  s_style s = SMultiple ->
  (forall i j, j ∈ s_indexes (add i s).1 <-> j = i \/ j ∈ s_indexes s) /\
  (forall l j, j ∈ s_indexes (add_range l s).1 <-> j ∈ l \/ j ∈ s_indexes s) /\
  (forall i j, j ∈ s_indexes (set_ i s).1 <-> j = i) /\
  (forall l j, j ∈ s_indexes (set_multiple l s).1 <-> j ∈ l) /\
  (forall j, j ∉ s_indexes (clear s).1) /\
  (forall i, i ∈ s_indexes s -> o_err (remove i s).2 = None /\
       forall j, j ∈ s_indexes (remove i s).1 <-> j ∈ s_indexes s /\ j <> i) /\
  (forall i, i ∉ s_indexes s -> remove i s = (s, Outcome 0 (Some KeyError))).
Proof.
  intros Hs. split; [|split; [|split; [|split; [|split; [|split]]]]].
  - intros i j. unfold add. rewrite Hs. simpl. set_solver.
  - intros l. revert s Hs. induction l as [|i l IH]; intros s Hs j; simpl; [set_solver|].
    unfold add. rewrite Hs. simpl.
    specialize (IH (Sel SMultiple ({[i]} ∪ s_indexes s)
       (if decide (s_indexes s = ∅) then Some i else s_anchor s)) eq_refl j).
    destruct (add_range l _) as [s2 o2]. simpl in *. rewrite IH. set_solver.
  - intros i j. unfold set_. rewrite Hs. simpl. set_solver.
  - intros l j. unfold set_multiple. rewrite Hs. simpl. set_solver.
  - intros j. unfold clear. rewrite Hs. simpl. set_solver.
  - intros i Hi. unfold remove. rewrite Hs, decide_True by done. simpl. split; [done|]. set_solver.
  - intros i Hi. unfold remove. rewrite Hs, decide_False by done. done.
Qed.

Lemma toggle_twice_lemma s i :
  s_style s = SMultiple ->
  o_err (toggle i s).2 = None /\ o_err (toggle i (toggle i s).1).2 = None /\
  s_indexes (toggle i (toggle i s).1).1 = s_indexes s /\
  (i ∈ s_indexes (toggle i s).1 <-> i ∉ s_indexes s).
Proof.
  intros Hs.
  destruct (multiple_ops_lemma s Hs) as (Ha & _ & _ & _ & _ & Hr & _).
  assert (Hin : forall s, i ∈ s_indexes s -> toggle i s = remove i s).
  { intros s0 H0. unfold toggle. rewrite decide_True by done. done. }
  assert (Hout : forall s, i ∉ s_indexes s -> toggle i s = add i s).
  { intros s0 H0. unfold toggle. rewrite decide_False by done. done. }
  destruct (decide (i ∈ s_indexes s)) as [Hd|Hd].
  - rewrite (Hin s Hd). destruct (Hr i Hd) as [Hr1 Hr2].
    assert (Hni : i ∉ s_indexes (remove i s).1) by (rewrite Hr2; tauto).
    rewrite (Hout _ Hni).
    assert (Hst : s_style (remove i s).1 = SMultiple) by (rewrite <- Hs; apply (style_fixed s (ORemove i))).
    destruct (multiple_ops_lemma _ Hst) as (Ha' & _).
    split; [done|]. split; [unfold add; rewrite Hst; done|]. split; [|tauto].
    apply set_eq. intros j. rewrite Ha', Hr2. destruct (decide (j = i)) as [->|]; tauto.
  - rewrite (Hout s Hd).
    assert (Hi : i ∈ s_indexes (add i s).1) by (rewrite Ha; tauto).
    rewrite (Hin _ Hi).
    assert (Hst : s_style (add i s).1 = SMultiple) by (rewrite <- Hs; apply (style_fixed s (OAdd i))).
    destruct (multiple_ops_lemma _ Hst) as (_ & _ & _ & _ & _ & Hr' & _).
    destruct (Hr' i Hi) as [H1 H2].
    split; [unfold add; rewrite Hs; done|]. split; [done|]. split; [|tauto].
    apply set_eq. intros j. rewrite H2, Ha. destruct (decide (j = i)) as [->|]; tauto.
Qed.
