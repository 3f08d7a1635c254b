(** Selections attached to a flattened list. *)
From stdpp Require Import list sets gmap.
From Coq Require Import ZArith Bool Arith Lia.
From Verif Require Import PyBase Selection_Model Selection_Spec Selection_Proofs Flattened_Model Flattened_Spec Flattened_Proofs.
Import ListNotations.
Local Open Scope nat_scope.

(** Inserting at position [p] of the list while the selection shifts at [k <= p]. *)
Lemma misplaced_insert {A} (L1 L2 : list A) x (k : nat) sel :
  NoDup (L1 ++ x :: L2) -> k <= length L1 ->
  (forall y, selected (L1 ++ x :: L2) (insert_index (Z.of_nat k) sel).1 y <-> selected (L1 ++ L2) sel y) <->
  (forall j, j ∈ s_indexes sel -> ~ (Z.of_nat k <= j < Z.of_nat (length L1))%Z).
Proof.
  intros Hnd Hk. split.
  - intros H j Hj Hr.
    (* the smallest selected index in the range *)
    assert (Hmin : exists j0, j0 ∈ s_indexes sel /\ (Z.of_nat k <= j0 < Z.of_nat (length L1))%Z /\
              ~ ((Z.of_nat k <= j0 - 1)%Z /\ (j0 - 1)%Z ∈ s_indexes sel)).
    { remember (Z.to_nat (j - Z.of_nat k)) as n eqn:En. revert j Hj Hr En. induction n as [n IH] using lt_wf_ind. intros j Hj Hr En.
      destruct (decide ((j - 1)%Z ∈ s_indexes sel)) as [Hd|Hd]; [|exists j; repeat split; try tauto; lia].
      destruct (decide (Z.of_nat k <= j - 1)%Z) as [Hd2|Hd2]; [|exists j; repeat split; try tauto; lia].
      apply (IH (Z.to_nat (j - 1 - Z.of_nat k)) ltac:(lia) (j - 1)%Z Hd ltac:(lia) eq_refl). }
    destruct Hmin as (j0 & Hj0 & Hr0 & Hno). clear j Hj Hr.
    destruct (nth_error L1 (Z.to_nat j0)) as [y|] eqn:Ey; [|apply nth_error_None in Ey; lia].
    assert (Hs : selected (L1 ++ L2) sel y).
    { exists j0. split; [exact Hj0|]. split; [lia|]. rewrite nth_error_app1 by lia. exact Ey. }
    apply H in Hs as (j' & Hj' & Hn' & Hy').
    assert (j' = j0).
    { assert (Ey2 : nth_error (L1 ++ x :: L2) (Z.to_nat j0) = Some y) by (rewrite nth_error_app1 by lia; exact Ey).
      apply NoDup_ListNoDup in Hnd. rewrite NoDup_nth_error in Hnd.
      assert (Z.to_nat j' = Z.to_nat j0); [|lia]. apply Hnd; [|congruence].
      apply nth_error_Some. congruence. }
    subst j'. simpl in Hj'. apply elem_of_map in Hj' as (i & Ei & Hi).
    destruct (Z.ltb_spec i (Z.of_nat k)); [lia|]. apply Hno. replace (j0 - 1)%Z with i by lia. split; [lia|exact Hi].
  - intros H y. destruct (insert_follows_lemma L1 L2 x sel y) as [G _]. rewrite <- G.
    assert (E : s_indexes (insert_index (Z.of_nat k) sel).1 = s_indexes (insert_index (Z.of_nat (length L1)) sel).1).
    { simpl. apply set_eq. intros z. rewrite !elem_of_map. split; intros (i & -> & Hi); exists i; (split; [|exact Hi]); specialize (H i Hi);
        destruct (Z.ltb_spec i (Z.of_nat k)), (Z.ltb_spec i (Z.of_nat (length L1))); lia. }
    unfold selected. rewrite E. reflexivity.
Qed.

Section FlSel.
  Context {M X : Type} (M_dec : forall a b : M, {a = b} + {a <> b}).
  Notation flstate := (flstate M X).

  Definition rem_trace (ps : list (X * nat)) : list (flev X) :=
    flat_map (fun p => [LfRem (fst p) (Z.of_nat (snd p)); LfSelRem (Z.of_nat (snd p))]) ps.
  Lemma rem_trace_app p1 p2 : rem_trace (p1 ++ p2) = rem_trace p1 ++ rem_trace p2.
  Proof. unfold rem_trace. apply flat_map_app. Qed.

  Lemma ch_remove_loop_rem m xs : forall (s : flstate) s' tr e,
    ch_remove_loop M_dec m xs s = (s', tr, e) -> fl_ok s -> In m (fl_master s) -> fl_children s m = rev xs ->
    exists ps, tr = rem_trace ps.
  Proof.
    induction xs as [|x xs IH]; intros s s' tr e; cbn [ch_remove_loop].
    - intros [= <- <- <-] _ _ _. exists []. reflexivity.
    - intros E Hok Hm Hc. simpl in Hc. rewrite <- (rev_length xs) in E.
      destruct (child_removed M_dec s m x (Z.of_nat (length (rev xs)))) as [[s1 t1] e1] eqn:E1.
      destruct (child_removed_lemma M_dec _ _ _ _ [] _ _ _ E1 Hok Hm Hc) as (p & q & _ & _ & (F1 & F2 & F3 & F4) & Ok1 & Ch & Ob & -> & -> & _).
      destruct (ch_remove_loop M_dec m xs s1) as [[s2 t2] e2] eqn:E2. injection E as <- <- <-.
      destruct (IH _ _ _ _ E2 Ok1) as [ps ->].
      { rewrite F3. exact Hm. } { rewrite Ch, upd_eq, app_nil_r. reflexivity. }
      exists ((x, length p) :: ps). reflexivity.
  Qed.

  Lemma master_removed_rem (s : flstate) m i s' tr e :
    master_removed M_dec s m i = (s', tr, e) -> fl_ok s -> fl_synced s -> In m (fl_master s) -> exists ps, tr = rem_trace ps.
  Proof.
    intros E Hok Sy Hm. unfold master_removed in E.
    destruct (ch_remove_loop M_dec m (rev (fl_kids s m)) s) as [[s1 t1] e1] eqn:E1.
    destruct (ch_remove_loop_rem _ _ _ _ _ _ E1 Hok Hm) as [ps ->]; [rewrite rev_involutive; apply Sy, Hm|].
    exists ps. destruct e1; [injection E as <- <- <-; reflexivity|].
    destruct (py_del (fl_master s1) i); [|injection E as <- <- <-; reflexivity].
    cbv zeta in E. destruct (fl_in M_dec m (fl_listen s1)); injection E as <- <- <-; reflexivity.
  Qed.

  Lemma fl_remove_loop_rem ms : forall (s : flstate) s' tr e,
    fl_remove_loop M_dec ms s = (s', tr, e) -> fl_ok s -> fl_synced s -> fl_master s = rev ms -> exists ps, tr = rem_trace ps.
  Proof.
    induction ms as [|m ms IH]; intros s s' tr e; cbn [fl_remove_loop].
    - intros [= <- <- <-] _ _ _. exists []. reflexivity.
    - intros E Hok Sy Hm. simpl in Hm.
      destruct (master_removed M_dec s m _) as [[s1 t1] e1] eqn:E1.
      destruct (master_removed_rem _ _ _ _ _ _ E1 Hok Sy) as [ps1 ->].
      { rewrite Hm. apply in_app_iff. right. left. reflexivity. }
      destruct (master_removed_lemma M_dec _ _ _ (rev ms) [] _ _ _ E1 Hok Sy Hm) as (-> & Ok1 & Sy1 & _ & K1 & M1 & Ob1).
      { rewrite Hm, app_length. simpl. replace (Z.of_nat (length (rev ms) + 1) - 1)%Z with (Z.of_nat (length (rev ms))) by lia. apply py_del_at. }
      destruct (fl_remove_loop M_dec ms s1) as [[s2 t2] e2] eqn:E2. injection E as <- <- <-. rewrite app_nil_r in M1.
      destruct (IH _ _ _ _ E2 Ok1 Sy1 M1) as [ps2 ->]. exists (ps1 ++ ps2). symmetry. apply rem_trace_app.
  Qed.

  Lemma fl_removing_proper (s : flstate) (o : flop M X) : fl_removing s o -> fl_proper s o.
  Proof. destruct o as [| | | |[|]]; simpl; tauto. Qed.

  Lemma fl_step_rem (s : flstate) o s' tr e :
    fl_step M_dec s o = (s', tr, e) -> fl_inv s -> fl_removing s o -> exists ps, tr = rem_trace ps.
  Proof.
    intros E (Hok & Sy & Hma) Ho. assert (Nil : exists ps, [] = rem_trace ps) by (exists []; reflexivity).
    destruct o as [i m|i|m i x|m i|[l|]]; cbn [fl_step fl_removing] in *; try contradiction.
    - unfold masters in Hma. destruct (fl_cont s) as [l|]; [|injection E as <- <- <-; exact Nil].
      destruct (py_get l i) as [m|] eqn:Eg; [|injection E as <- <- <-; exact Nil].
      destruct (py_del l i) as [l'|] eqn:Ed; [|injection E as <- <- <-; exact Nil].
      apply master_removed_rem in E; [exact E|destruct Hok; split; assumption|exact Sy|].
      simpl. rewrite Hma. unfold py_get in Eg. destruct (py_index (length l) i) as [k|]; [|discriminate].
      destruct (nth_error l k) eqn:En; [|discriminate]. injection Eg as ->. eapply nth_error_In. exact En.
    - destruct (py_get (fl_kids s m) i) as [x|] eqn:Eg; [|injection E as <- <- <-; exact Nil].
      destruct (py_del (fl_kids s m) i) as [l'|] eqn:Ed; [|injection E as <- <- <-; exact Nil].
      destruct (fl_in M_dec m (fl_listen s)) eqn:Ein; [|injection E as <- <- <-; exact Nil].
      apply fl_in_spec in Ein. apply (ok_listen s Hok) in Ein.
      unfold py_get in Eg. destruct (py_index (length (fl_kids s m)) i) as [k|] eqn:Ek; [|discriminate].
      assert (k = Z.to_nat i). { unfold py_index in Ek. repeat (case_match; try discriminate). all: injection Ek; lia. }
      destruct (nth_error (fl_kids s m) k) as [m'|] eqn:En; [|discriminate]. injection Eg as ->.
      apply nth_error_split in En as (l1 & l2 & El & Hk). replace i with (Z.of_nat (length l1)) in E by lia.
      eapply (child_removed_lemma M_dec _ _ _ l1 l2) in E; [|apply with_kids_ok; exact Hok|exact Ein|simpl; rewrite (Sy m Ein); exact El].
      destruct E as (p & q & _ & _ & _ & _ & _ & _ & -> & _). exists [(x, length p)]. reflexivity.
    - unfold fl_set_container, masters in *. destruct (fl_cont s) as [old|].
      + destruct (fl_remove_loop M_dec (rev old) s) as [[s1 t1] e1] eqn:E1.
        destruct (fl_remove_loop_rem _ _ _ _ _ E1 Hok Sy) as [ps ->]; [rewrite rev_involutive; exact Hma|].
        exists ps. destruct e1; injection E as <- <- <-; reflexivity.
      + injection E as <- <- <-. exact Nil.
  Qed.

  Lemma fl_run_rem h : forall s : flstate, fl_inv s -> fl_along M_dec fl_removing s h ->
    exists ps, snd (fl_run M_dec s h) = rem_trace ps.
  Proof.
    induction h as [|o h IH]; intros s Hi Ha; cbn [fl_run fl_along] in *; [exists []; reflexivity|].
    destruct (fl_step M_dec s o) as [[s1 t1] e1] eqn:E. destruct Ha as [Ho Ha]. simpl in Ha.
    destruct (fl_step_rem _ _ _ _ _ E Hi Ho) as [ps1 ->].
    destruct (fl_step_lemma M_dec _ _ _ _ _ E Hi (fl_removing_proper _ _ Ho)) as [Hi1 _].
    destruct (IH s1 Hi1 Ha) as [ps2 E2]. destruct (fl_run M_dec s1 h) as [s2 t2]. simpl in *. subst t2.
    exists (ps1 ++ ps2). symmetry. apply rem_trace_app.
  Qed.

  Lemma rem_trace_edits ps : forall l l' : list X, fl_observes l (rem_trace ps) l' ->
    exists es, edits l es (map fst ps) l' /\ fl_selection_calls (rem_trace ps) = map accompany es.
  Proof.
    induction ps as [|[x k] ps IH]; intros l l' Ho; simpl in *.
    - subst. exists []. split; [constructor|reflexivity].
    - destruct Ho as (Hg & l1 & Hd & Ho). destruct (IH _ _ Ho) as (es & He & Hc).
      unfold py_get in Hg. unfold py_del in Hd. destruct (py_index (length l) (Z.of_nat k)) as [j|] eqn:Ek; [|discriminate].
      assert (j = k). { unfold py_index in Ek. repeat (case_match; try discriminate). all: injection Ek; lia. }
      subst j. destruct (nth_error l k) as [x'|] eqn:En; [|discriminate]. injection Hg as ->.
      apply nth_error_split in En as (p & q & -> & <-). rewrite delete_at_app in Hd. injection Hd as <-.
      exists (LDel (length p) :: es). split; [constructor; exact He|]. simpl. rewrite Hc. reflexivity.
  Qed.
End FlSel.
