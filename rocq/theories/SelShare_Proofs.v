(** Proofs about the set object a selection gives out. *)
From stdpp Require Import gmap sets list.
From Coq Require Import Lia.
From Verif Require Import PyBase Selection_Model SelShare_Model SelShare_Spec.
Open Scope Z_scope.

Lemma nth_insert_same (l : list (gset Z)) k S : (k < length l)%nat -> nth k (<[k:=S]> l) ∅ = S.
Proof. revert k. induction l as [|x l IH]; intros [|k] H; simpl in *; try lia; [reflexivity|]. apply IH. lia. Qed.
Lemma nth_insert_other (l : list (gset Z)) k j S : k <> j -> nth j (<[k:=S]> l) ∅ = nth j l ∅.
Proof. revert k j. induction l as [|x l IH]; intros [|k] [|j] H; simpl in *; try reflexivity; try lia. apply IH. lia. Qed.
Lemma nth_snoc (l : list (gset Z)) S : nth (length l) (l ++ [S]) ∅ = S.
Proof. induction l as [|x l IH]; [reflexivity|exact IH]. Qed.
Lemma nth_snoc_old (l : list (gset Z)) k S : (k < length l)%nat -> nth k (l ++ [S]) ∅ = nth k l ∅.
Proof. intros H. apply app_nth1. exact H. Qed.

Lemma own_edited w S a : sound w -> own (edited w S a) = S.
Proof. intros H. apply nth_insert_same. exact H. Qed.
Lemma own_replaced w S a : own (replaced w S a) = S.
Proof. apply nth_snoc. Qed.
Lemma own_moved w S a : own (moved w S a) = S.
Proof. unfold moved. destruct (decide (own w = S)); [assumption|apply own_replaced]. Qed.
Lemma sound_edited w S a : sound w -> sound (edited w S a).
Proof. unfold sound. simpl. rewrite insert_length. trivial. Qed.
Lemma sound_replaced w S a : sound (replaced w S a).
Proof. unfold sound. simpl. rewrite app_length. simpl. lia. Qed.

(** every call leaves the heap, edits the own set or puts a new one in its place, and no more *)
Definition one_of (w w' : shared) : Prop :=
  (exists a, w' = Sh (h_style w) (h_heap w) (h_cur w) a) \/ (exists S a, w' = edited w S a) \/ (exists S a, w' = replaced w S a).
Lemma clear_one w : one_of w (h_clear w).1.
Proof. unfold h_clear, told. simpl. destruct (h_style w); unfold one_of; eauto 6. Qed.
Lemma set_one i w : one_of w (h_set i w).1.
Proof. unfold h_set. destruct (h_style w) eqn:E; [apply clear_one|..]; unfold one_of, told; simpl; eauto 6. Qed.
Lemma add_one i w : one_of w (h_add i w).1.
Proof. unfold h_add. destruct (h_style w); [apply clear_one|apply set_one|apply set_one|]. unfold one_of, told. simpl. eauto 6. Qed.
Lemma same_one w : one_of w w.
Proof. left. exists (h_anchor w). destruct w; reflexivity. Qed.
Lemma remove_one i w : one_of w (h_remove i w).1.
Proof.
  unfold h_remove. destruct (h_style w); [apply clear_one|apply same_one|..]; destruct (decide (i ∈ own w)); try apply same_one; unfold one_of, told; simpl; eauto 6.
Qed.
Lemma moved_one w S a : one_of w (moved w S a).
Proof. unfold moved. destruct (decide _); unfold one_of; eauto 6. Qed.
Lemma op_one w o : (forall l, o <> OAddRange l) -> one_of w (h_op w o).1.
Proof.
  intros H. destruct o as [|i|i|l|l|i|i|i|k|k|a]; simpl.
  - apply clear_one.
  - apply add_one.
  - apply remove_one.
  - exfalso. eapply H. reflexivity.
  - unfold h_set_multiple. destruct (h_style w); [apply clear_one|..].
    + destruct l as [|i [|j l]]; [apply clear_one|apply set_one|apply clear_one].
    + destruct l as [|i [|j l]]; [apply clear_one|apply set_one|apply clear_one].
    + unfold one_of, told. simpl. eauto 6.
  - apply set_one.
  - unfold h_toggle. destruct (decide _); [apply remove_one|apply add_one].
  - unfold h_extend. destruct (h_style w); [apply clear_one|apply set_one|apply set_one|]. unfold told. simpl.
    destruct (h_anchor w) as [a|]; [|unfold one_of; eauto 6]. destruct (a <? i); [unfold one_of; eauto 6|]. destruct (i <? a); [unfold one_of; eauto 6|apply same_one].
  - apply moved_one.
  - apply moved_one.
  - left. eauto.
Qed.
Lemma one_sound w w' : sound w -> one_of w w' -> sound w' /\ h_style w' = h_style w.
Proof.
  intros H [(a & ->)|[(S & a & ->)|(S & a & ->)]]; split; try reflexivity; [exact H|apply sound_edited; exact H|apply sound_replaced].
Qed.
Lemma add_sound i w : sound w -> sound (h_add i w).1 /\ h_style (h_add i w).1 = h_style w.
Proof. intros H. apply one_sound; [exact H|apply add_one]. Qed.
Lemma add_range_fst i l w : (h_add_range (i :: l) w).1 = (h_add_range l (h_add i w).1).1.
Proof. simpl. destruct (h_add i w) as [w1 o1]. simpl. destruct (h_add_range l w1) as [w2 o2]. reflexivity. Qed.
Lemma add_range_sound l : forall w, sound w -> sound (h_add_range l w).1 /\ h_style (h_add_range l w).1 = h_style w.
Proof.
  induction l as [|i l IH]; intros w H; [auto|]. rewrite add_range_fst. destruct (add_sound i w H) as [A B].
  destruct (IH _ A) as [C D]. split; [exact C|congruence].
Qed.
Lemma op_sound w o : sound w -> sound (h_op w o).1 /\ h_style (h_op w o).1 = h_style w.
Proof.
  intros H. destruct o as [|i|i|l|l|i|i|i|k|k|a] eqn:E; try (apply one_sound; [exact H|apply op_one; congruence]). apply add_range_sound. exact H.
Qed.
Lemma step_sound w a : sound w -> sound (h_step w a).1.
Proof.
  intros H. destruct a as [o|st|k C]; simpl; [apply op_sound; exact H|exact H|]. unfold sound in *. simpl. rewrite insert_length. exact H.
Qed.
Lemma run_sound h : forall w, sound w -> sound (h_run w h).
Proof. induction h as [|a h IH]; intros w H; [exact H|]. simpl. apply IH, step_sound, H. Qed.

(** * The methods do what they do on values *)
Definition agrees (w : shared) (r : shared * outcome) (v : sel * outcome) : Prop := seen r.1 = v.1 /\ r.2 = v.2.
Lemma told_agrees w w' s' : seen w' = s' -> agrees w (told w w') (finish (seen w) s').
Proof. intros <-. split; reflexivity. Qed.
Lemma seen_edited w S a : sound w -> seen (edited w S a) = Sel (h_style w) S a.
Proof. intros H. unfold seen. rewrite own_edited by exact H. reflexivity. Qed.
Lemma seen_replaced w S a : seen (replaced w S a) = Sel (h_style w) S a.
Proof. unfold seen. rewrite own_replaced. reflexivity. Qed.
Lemma seen_moved w S a : seen (moved w S a) = Sel (h_style w) S a.
Proof. unfold seen. rewrite own_moved. unfold moved. destruct (decide _); reflexivity. Qed.
Lemma clear_agrees w : sound w -> agrees w (h_clear w) (clear (seen w)).
Proof. intros H. unfold h_clear, clear. apply told_agrees. simpl. destruct (h_style w) eqn:E; rewrite ?seen_replaced, ?seen_edited by exact H; rewrite E; reflexivity. Qed.
Lemma set_agrees i w : sound w -> agrees w (h_set i w) (set_ i (seen w)).
Proof.
  intros H. unfold h_set, set_. change (s_style (seen w)) with (h_style w). destruct (h_style w) eqn:E; [apply clear_agrees; exact H|..]; apply told_agrees; rewrite seen_replaced, E; reflexivity.
Qed.
Lemma add_agrees i w : sound w -> agrees w (h_add i w) (add i (seen w)).
Proof.
  intros H. unfold h_add, add. change (s_style (seen w)) with (h_style w). destruct (h_style w) eqn:E; [apply clear_agrees; exact H|apply set_agrees; exact H|apply set_agrees; exact H|].
  apply told_agrees. rewrite seen_edited by exact H. rewrite E. reflexivity.
Qed.
Lemma remove_agrees i w : sound w -> agrees w (h_remove i w) (remove i (seen w)).
Proof.
  intros H. unfold h_remove, remove. change (s_style (seen w)) with (h_style w). change (s_indexes (seen w)) with (own w). change (s_anchor (seen w)) with (h_anchor w).
  destruct (h_style w) eqn:E; [apply clear_agrees; exact H|split; reflexivity|..]; (destruct (decide (i ∈ own w)); [|split; reflexivity]); cbv zeta; apply told_agrees; rewrite seen_edited by exact H; rewrite E; reflexivity.
Qed.
Lemma add_range_agrees l : forall w, sound w -> agrees w (h_add_range l w) (add_range l (seen w)).
Proof.
  induction l as [|i l IH]; intros w H; [split; reflexivity|]. simpl. destruct (add_agrees i w H) as [A B]. destruct (add_sound i w H) as [So _].
  destruct (h_add i w) as [w1 o1]. destruct (add i (seen w)) as [s1 p1]. simpl in *. subst. destruct (IH w1 So) as [C D].
  destruct (h_add_range l w1) as [w2 o2]. destruct (add_range l (seen w1)) as [s2 p2]. simpl in *. subst. split; reflexivity.
Qed.
Lemma op_agrees w o : sound w -> agrees w (h_op w o) (sel_step (seen w) o).
Proof.
  intros H. destruct o as [|i|i|l|l|i|i|i|k|k|a]; simpl.
  - apply clear_agrees, H.
  - apply add_agrees, H.
  - apply remove_agrees, H.
  - apply add_range_agrees, H.
  - unfold h_set_multiple, set_multiple. change (s_style (seen w)) with (h_style w). destruct (h_style w) eqn:E; [apply clear_agrees, H|..].
    + destruct l as [|i [|j l]]; [apply clear_agrees, H|apply set_agrees, H|apply clear_agrees, H].
    + destruct l as [|i [|j l]]; [apply clear_agrees, H|apply set_agrees, H|apply clear_agrees, H].
    + apply told_agrees. rewrite seen_replaced, E. reflexivity.
  - apply set_agrees, H.
  - unfold h_toggle, toggle. change (s_indexes (seen w)) with (own w). destruct (decide _); [apply remove_agrees, H|apply add_agrees, H].
  - unfold h_extend, extend. change (s_style (seen w)) with (h_style w). destruct (h_style w) eqn:E; [apply clear_agrees, H|apply set_agrees, H|apply set_agrees, H|].
    apply told_agrees. change (s_anchor (seen w)) with (h_anchor w). destruct (h_anchor w) as [a|] eqn:Ea.
    + destruct (a <? i); [rewrite seen_edited by exact H; rewrite E; reflexivity|]. destruct (i <? a); [rewrite seen_edited by exact H; rewrite E; reflexivity|]. reflexivity.
    + rewrite seen_edited by exact H. rewrite E. reflexivity.
  - split; [|reflexivity]. simpl. rewrite seen_moved. reflexivity.
  - split; [|reflexivity]. simpl. rewrite seen_moved. reflexivity.
  - split; reflexivity.
Qed.

(** * Which calls replace the set *)
Lemma cur_edited w S a : h_cur (edited w S a) = h_cur w.
Proof. reflexivity. Qed.
Lemma cur_replaced w S a : sound w -> h_cur (replaced w S a) <> h_cur w.
Proof. unfold sound. simpl. lia. Qed.
Lemma max_of (X : gset Z) : X <> ∅ -> exists m, m ∈ X /\ forall i, i ∈ X -> i <= m.
Proof.
  intros H. assert (Tr : Transitive (fun x y : Z => y <= x)) by (intros x y z; lia).
  assert (De : forall x y : Z, Decision ((fun x y : Z => y <= x) x y)) by (intros x y; apply Z_le_dec). destruct (minimal_exists (fun x y : Z => y <= x) X) as (m & Hm & Hmin).
  - set_solver.
  - exists m. split; [exact Hm|]. intros i Hi. destruct (Z_le_gt_dec i m); [assumption|]. apply (Hmin i); [exact Hi|lia].
Qed.
Lemma insert_shift_moves (X : gset Z) k : set_map (D := gset Z) (fun i => if i <? k then i else i + 1) X <> X <-> exists i, i ∈ X /\ k <= i.
Proof.
  split.
  - intros H. destruct (decide (set_Exists (fun i => k <= i) X)) as [(i & Hi & L)|N]; [eauto|]. exfalso. apply H. apply set_eq. intros x. rewrite elem_of_map.
    assert (Z : forall y, y ∈ X -> (y <? k) = true). { intros y Hy. apply Z.ltb_lt. destruct (Z_le_gt_dec k y); [|lia]. exfalso. apply N. exists y. auto. }
    split; [intros (y & E & Hy); rewrite (Z y Hy) in E; subst; exact Hy|]. intros Hx. exists x. rewrite (Z x Hx). auto.
  - intros (i & Hi & L) E. destruct (max_of X) as (m & Hm & Max); [set_solver|].
    assert (M : m + 1 ∈ set_map (D := gset Z) (fun i => if i <? k then i else i + 1) X).
    { apply elem_of_map. exists m. split; [|exact Hm]. specialize (Max i Hi). destruct (m <? k) eqn:Q; [apply Z.ltb_lt in Q; lia|reflexivity]. }
    rewrite E in M. apply Max in M. lia.
Qed.
Lemma remove_shift_moves (X : gset Z) k : set_map (D := gset Z) (fun i => if k <? i then i - 1 else i) (X ∖ {[k]}) <> X <-> exists i, i ∈ X /\ k <= i.
Proof.
  split.
  - intros H. destruct (decide (set_Exists (fun i => k <= i) X)) as [(i & Hi & L)|N]; [eauto|]. exfalso. apply H. apply set_eq. intros x. rewrite elem_of_map.
    assert (Z : forall y, y ∈ X -> y < k). { intros y Hy. destruct (Z_le_gt_dec k y); [|lia]. exfalso. apply N. exists y. auto. }
    split.
    + intros (y & E & Hy). apply elem_of_difference in Hy as [Hy _]. pose proof (Z y Hy). destruct (k <? y) eqn:Q; [apply Z.ltb_lt in Q; lia|]. subst. exact Hy.
    + intros Hx. pose proof (Z x Hx). exists x. destruct (k <? x) eqn:Q; [apply Z.ltb_lt in Q; lia|]. split; [reflexivity|]. set_solver by lia.
  - intros (i & Hi & L) E. destruct (max_of X) as (m & Hm & Max); [set_solver|]. pose proof (Max i Hi). rewrite <- E in Hm. apply elem_of_map in Hm as (y & Ey & Hy).
    apply elem_of_difference in Hy as [Hy Hk]. pose proof (Max y Hy). rewrite elem_of_singleton in Hk. destruct (k <? y) eqn:Q; [lia|]. apply Z.ltb_ge in Q. lia.
Qed.
Lemma cur_moved w S a : sound w -> h_cur (moved w S a) <> h_cur w <-> S <> own w.
Proof.
  intros H. unfold moved. destruct (decide (own w = S)) as [E|E]; simpl; split; intros N; try congruence. unfold sound in H. lia.
Qed.
Lemma clear_cur w : sound w -> h_cur (h_clear w).1 <> h_cur w <-> h_style w <> SSingle.
Proof. intros H. unfold h_clear, told, sound in *. simpl. destruct (h_style w); simpl; split; intros; try congruence; lia. Qed.
Lemma set_cur i w : sound w -> h_cur (h_set i w).1 <> h_cur w.
Proof. intros H. unfold h_set. destruct (h_style w) eqn:E; [apply clear_cur; [exact H|congruence]|..]; apply cur_replaced; exact H. Qed.
Lemma add_cur i w : sound w -> h_cur (h_add i w).1 <> h_cur w <-> h_style w <> SMultiple.
Proof.
  intros H. unfold h_add. destruct (h_style w) eqn:E; split; intros N; try congruence; try (apply set_cur; exact H).
  - apply clear_cur; [exact H|congruence].
  - exfalso. apply N. reflexivity.
Qed.
Lemma remove_cur i w : sound w -> h_cur (h_remove i w).1 <> h_cur w <-> h_style w = SNone.
Proof.
  intros H. unfold h_remove. destruct (h_style w) eqn:E; split; intros N; try congruence; try (apply clear_cur; [exact H|congruence]);
  destruct (decide (i ∈ own w)); simpl in N; congruence.
Qed.
(** the heap only grows *)
Lemma one_grows w w' : one_of w w' -> (h_cur w' = h_cur w \/ h_cur w' = length (h_heap w)) /\ (length (h_heap w) <= length (h_heap w'))%nat.
Proof. intros [(a & ->)|[(S & a & ->)|(S & a & ->)]]; simpl; rewrite ?insert_length, ?app_length; simpl; split; try lia; auto. Qed.
Lemma add_range_cur l : forall w, sound w -> h_style w <> SMultiple -> l <> [] -> (length (h_heap w) <= h_cur (h_add_range l w).1)%nat.
Proof.
  induction l as [|i l IH]; intros w H Hs Hl; [congruence|]. rewrite add_range_fst. destruct (add_sound i w H) as [A B].
  destruct (one_grows w _ (add_one i w)) as [C D]. assert (N : h_cur (h_add i w).1 <> h_cur w) by (apply add_cur; assumption).
  destruct l as [|j l]; [simpl; destruct C; [congruence|lia]|]. etransitivity; [exact D|]. apply IH; [exact A|congruence|discriminate].
Qed.
Lemma add_range_multiple l : forall w, sound w -> h_style w = SMultiple -> h_cur (h_add_range l w).1 = h_cur w /\ length (h_heap (h_add_range l w).1) = length (h_heap w).
Proof.
  induction l as [|i l IH]; intros w H Hs; [auto|]. rewrite add_range_fst. destruct (add_sound i w H) as [A B].
  destruct (IH _ A ltac:(congruence)) as [C D]. rewrite C, D. unfold h_add. rewrite Hs. simpl. rewrite insert_length. auto.
Qed.
Lemma op_replaces w o : sound w -> h_cur (h_op w o).1 <> h_cur w <-> replaces (h_style w) (own w) o.
Proof.
  intros H. destruct o as [|i|i|l|l|i|i|i|k|k|a]; simpl.
  - apply clear_cur, H.
  - apply add_cur, H.
  - apply remove_cur, H.
  - split.
    + intros N. split.
      * intros E. apply N. apply add_range_multiple; assumption.
      * intros ->. apply N. reflexivity.
    + intros [A B]. pose proof (add_range_cur l w H A B). unfold sound in H. lia.
  - unfold h_set_multiple. destruct (h_style w) eqn:E.
    + split; [discriminate|]. intros _. apply clear_cur; [exact H|congruence].
    + destruct l as [|i [|j l]]; simpl.
      * split; [|intros X; specialize (X eq_refl); discriminate]. intros N. exfalso. apply (clear_cur w H) in N. congruence.
      * split; [reflexivity|]. intros _. apply set_cur, H.
      * split; [|intros X; specialize (X eq_refl); discriminate]. intros N. exfalso. apply (clear_cur w H) in N. congruence.
    + split; [discriminate|]. intros _. destruct l as [|i [|j l]]; [apply clear_cur; [exact H|congruence]|apply set_cur, H|apply clear_cur; [exact H|congruence]].
    + split; [discriminate|]. intros _. apply cur_replaced, H.
  - split; [trivial|]. intros _. apply set_cur, H.
  - unfold h_toggle. destruct (decide (i ∈ own w)) as [Hi|Hi].
    + rewrite (remove_cur i w H). tauto.
    + rewrite (add_cur i w H). tauto.
  - unfold h_extend. destruct (h_style w) eqn:E; split; intros N; try congruence; try (apply set_cur, H).
    + apply clear_cur; [exact H|congruence].
    + exfalso. apply N. unfold told. simpl. destruct (h_anchor w) as [a|]; [|reflexivity]. destruct (a <? i); [reflexivity|]. destruct (i <? a); reflexivity.
  - rewrite cur_moved by exact H. apply insert_shift_moves.
  - rewrite cur_moved by exact H. apply remove_shift_moves.
  - tauto.
Qed.

(** * Sets that were given out *)
Lemma one_keeps w w' k : one_of w w' -> k <> h_cur w -> (k < length (h_heap w))%nat -> contents w' k = contents w k /\ h_cur w' <> k.
Proof.
  intros [(a & ->)|[(S & a & ->)|(S & a & ->)]] N L; unfold contents; simpl.
  - auto.
  - rewrite nth_insert_other by congruence. auto.
  - rewrite nth_snoc_old by exact L. split; [reflexivity|lia].
Qed.
Lemma add_range_keeps k l : forall w, k <> h_cur w -> (k < length (h_heap w))%nat -> sound w ->
  contents (h_add_range l w).1 k = contents w k /\ h_cur (h_add_range l w).1 <> k.
Proof.
  induction l as [|i l IH]; intros w N L H; [simpl; auto|]. rewrite add_range_fst. destruct (one_keeps w _ k (add_one i w) N L) as [A B].
  destruct (one_grows w _ (add_one i w)) as [_ G]. destruct (add_sound i w H) as [So _]. destruct (IH (h_add i w).1) as [C D]; [congruence|lia|exact So|]. split; [congruence|exact D].
Qed.
Lemma step_keeps w a k : spares k a -> k <> h_cur w -> (k < length (h_heap w))%nat -> sound w ->
  contents (h_step w a).1 k = contents w k /\ h_cur (h_step w a).1 <> k.
Proof.
  intros Sp N L H. destruct a as [o|st|j C]; simpl.
  - destruct o as [|i|i|l|l|i|i|i|m|m|a] eqn:E; try (apply one_keeps; [apply op_one; congruence|exact N|exact L]). apply add_range_keeps; assumption.
  - auto.
  - unfold contents. simpl. rewrite nth_insert_other by (simpl in Sp; congruence). auto.
Qed.
Lemma add_range_grows l : forall w, (length (h_heap w) <= length (h_heap (h_add_range l w).1))%nat.
Proof.
  induction l as [|i l IH]; intros w; [simpl; lia|]. rewrite add_range_fst. destruct (one_grows w _ (add_one i w)) as [_ G]. specialize (IH (h_add i w).1). lia.
Qed.
Lemma step_grows w a : (length (h_heap w) <= length (h_heap (h_step w a).1))%nat.
Proof.
  destruct a as [o|st|j C]; simpl; [|lia|rewrite insert_length; lia].
  destruct o as [|i|i|l|l|i|i|i|m|m|a] eqn:E; try (apply one_grows, op_one; congruence). apply add_range_grows.
Qed.
Lemma run_keeps k h : forall w, Forall (spares k) h -> k <> h_cur w -> (k < length (h_heap w))%nat -> sound w ->
  contents (h_run w h) k = contents w k /\ h_cur (h_run w h) <> k.
Proof.
  induction h as [|a h IH]; intros w F N L H; [simpl; auto|]. inversion F as [|? ? Sa Sh]; subst. simpl. fold (h_run (h_step w a).1 h).
  destruct (step_keeps w a k Sa N L H) as [A B]. pose proof (step_grows w a). destruct (IH (h_step w a).1) as [C D]; [exact Sh|congruence|lia|apply step_sound, H|]. split; [congruence|exact D].
Qed.
(** the call that replaces leaves the old object as the selection was *)
Lemma step_leaves w a : sound w -> h_cur (h_step w a).1 <> h_cur w -> spares (h_cur w) a -> (forall l, a <> HOp (OAddRange l)) -> contents (h_step w a).1 (h_cur w) = own w.
Proof.
  intros H N Sp Nr. destruct a as [o|st|j C]; simpl in *; [|congruence|congruence].
  assert (X : one_of w (h_op w o).1) by (apply op_one; intros l ->; eapply Nr; reflexivity).
  destruct X as [(b & E)|[(S & b & E)|(S & b & E)]]; rewrite E in *; simpl in N; try congruence. unfold contents. simpl. rewrite nth_snoc_old by exact H. reflexivity.
Qed.
Lemma add_range_leaves l w : sound w -> h_cur (h_add_range l w).1 <> h_cur w -> contents (h_add_range l w).1 (h_cur w) = own w.
Proof.
  intros H N. destruct l as [|i l]; [simpl in N; congruence|]. rewrite add_range_fst in *.
  assert (Hs : h_style w <> SMultiple). { intros E. apply N. rewrite <- add_range_fst. apply add_range_multiple; assumption. }
  destruct (add_sound i w H) as [So _]. pose proof (proj2 (add_cur i w H) Hs) as Nc. destruct (one_grows w _ (add_one i w)) as [_ G].
  destruct (add_range_keeps (h_cur w) l (h_add i w).1) as [A _]; [congruence|unfold sound in H; lia|exact So|]. rewrite A.
  apply (step_leaves w (HOp (OAdd i))); [exact H|exact Nc|exact Logic.I|discriminate].
Qed.
Lemma step_left w a : sound w -> h_cur (h_step w a).1 <> h_cur w -> spares (h_cur w) a -> contents (h_step w a).1 (h_cur w) = own w.
Proof.
  intros H N Sp. destruct a as [o|st|j C]; [|apply step_leaves; auto; discriminate|apply step_leaves; auto; discriminate].
  destruct o as [|i|i|l|l|i|i|i|m|m|a] eqn:E; try (apply step_leaves; auto; discriminate). apply add_range_leaves; assumption.
Qed.
Lemma kept k : forall h w, sound w -> h_cur w = k -> Forall (spares k) h -> exists h1 h2, h = h1 ++ h2 /\ h_cur (h_run w h1) = k /\
  contents (h_run w h) k = own (h_run w h1) /\ forall p, p `prefix_of` h2 -> p <> [] -> h_cur (h_run (h_run w h1) p) <> k.
Proof.
  induction h as [|a h IH]; intros w H E F.
  - exists [], []. split; [reflexivity|]. split; [exact E|]. split; [simpl; subst k; reflexivity|]. intros p Hp Np. exfalso. apply Np. destruct Hp as [q Hq]. destruct p; [reflexivity|discriminate].
  - apply Forall_cons_1 in F as [Sa Sh]. destruct (decide (h_cur (h_step w a).1 = k)) as [Ec|Ec].
    + destruct (IH (h_step w a).1) as (h1 & h2 & A & B & C & D); [apply step_sound, H|exact Ec|exact Sh|].
      exists (a :: h1), h2. split; [rewrite A; reflexivity|]. split; [exact B|]. split; [exact C|exact D].
    + exists [], (a :: h). split; [reflexivity|]. split; [exact E|]. subst k.
      assert (L : (h_cur w < length (h_heap (h_step w a).1))%nat) by (pose proof (step_grows w a); unfold sound in H; lia).
      split.
      * simpl. fold (h_run (h_step w a).1 h). destruct (run_keeps (h_cur w) h (h_step w a).1) as [A _]; [exact Sh|congruence|exact L|apply step_sound, H|].
        rewrite A. apply step_left; assumption.
      * intros p [q Hq] Np. destruct p as [|b p]; [congruence|]. simpl in Hq. injection Hq as -> ->. simpl. fold (h_run (h_step w b).1 p).
        apply (run_keeps (h_cur w) p (h_step w b).1); [|congruence|exact L|apply step_sound, H]. apply Forall_app in Sh as [Sh _]. exact Sh.
Qed.

(** * Sets that are no longer the selection's *)
Definition alike (k : nat) (w w' : shared) : Prop :=
  h_style w' = h_style w /\ h_cur w' = h_cur w /\ h_anchor w' = h_anchor w /\ h_cur w <> k /\ (k < length (h_heap w))%nat /\
  exists C, h_heap w' = <[k := C]> (h_heap w).
Lemma alike_own k w w' : alike k w w' -> own w' = own w.
Proof. intros (_ & E & _ & N & _ & C & H). unfold own, contents. rewrite E, H. apply nth_insert_other. congruence. Qed.
Lemma alike_edited k w w' S a : alike k w w' -> alike k (edited w S a) (edited w' S a).
Proof.
  intros (A & B & _ & N & L & C & H). unfold alike, edited. simpl. rewrite A, B, H, insert_length. repeat split; auto.
  exists C. apply list_insert_commute. congruence.
Qed.
Lemma alike_replaced k w w' S a : alike k w w' -> alike k (replaced w S a) (replaced w' S a).
Proof.
  intros (A & B & _ & N & L & C & H). unfold alike, replaced. simpl. rewrite A, H, insert_length, app_length. simpl. repeat split; auto; try lia.
  exists C. rewrite insert_app_l by exact L. reflexivity.
Qed.
Lemma alike_anchor k w w' a : alike k w w' -> alike k (Sh (h_style w) (h_heap w) (h_cur w) a) (Sh (h_style w') (h_heap w') (h_cur w') a).
Proof. intros (A & B & _ & N & L & C & H). unfold alike. simpl. repeat split; eauto. Qed.
Lemma alike_moved k w w' S a : alike k w w' -> alike k (moved w S a) (moved w' S a).
Proof.
  intros H. unfold moved. rewrite (alike_own _ _ _ H). destruct (decide _); [apply alike_anchor; exact H|apply alike_replaced; exact H].
Qed.
(** what is told is the same as well *)
Definition alike2 (k : nat) (r r' : shared * outcome) : Prop := alike k r.1 r'.1 /\ r'.2 = r.2.
Lemma alike_told k w w' v v' : alike k w w' -> alike k v v' -> alike2 k (told w v) (told w' v').
Proof. intros H1 H2. split; [exact H2|]. unfold told. simpl. rewrite (alike_own _ _ _ H1), (alike_own _ _ _ H2). reflexivity. Qed.
Lemma alike_clear k w w' : alike k w w' -> alike2 k (h_clear w) (h_clear w').
Proof.
  intros H. pose proof (alike_own _ _ _ H) as O. pose proof H as (St & _). unfold h_clear. rewrite St, O. apply alike_told; [exact H|]. destruct (h_style w); auto using alike_edited, alike_replaced.
Qed.
Lemma alike_set k i w w' : alike k w w' -> alike2 k (h_set i w) (h_set i w').
Proof.
  intros H. pose proof H as (St & _). unfold h_set. rewrite St. destruct (h_style w); [apply alike_clear; exact H|..]; (apply alike_told; [exact H|]); auto using alike_replaced.
Qed.
Lemma alike_add k i w w' : alike k w w' -> alike2 k (h_add i w) (h_add i w').
Proof.
  intros H. pose proof (alike_own _ _ _ H) as O. pose proof H as (St & _ & An & _). unfold h_add. rewrite St, O, An.
  destruct (h_style w); [apply alike_clear; exact H|apply alike_set; exact H|apply alike_set; exact H|]. apply alike_told; [exact H|]. auto using alike_edited.
Qed.
Lemma alike_remove k i w w' : alike k w w' -> alike2 k (h_remove i w) (h_remove i w').
Proof.
  intros H. pose proof (alike_own _ _ _ H) as O. pose proof H as (St & _ & An & _). unfold h_remove. rewrite St, O, An.
  destruct (h_style w); [apply alike_clear; exact H|split; [exact H|reflexivity]|..];
    (destruct (decide _); [|split; [exact H|reflexivity]]); cbv zeta; (apply alike_told; [exact H|]); auto using alike_edited.
Qed.
Lemma alike_add_range k l : forall w w', alike k w w' -> alike2 k (h_add_range l w) (h_add_range l w').
Proof.
  induction l as [|i l IH]; intros w w' H; [split; [exact H|reflexivity]|]. simpl. destruct (alike_add k i w w' H) as [A B].
  destruct (h_add i w) as [w1 o1], (h_add i w') as [w1' o1']. simpl in *. subst. destruct (IH w1 w1' A) as [C D].
  destruct (h_add_range l w1) as [w2 o2], (h_add_range l w1') as [w2' o2']. simpl in *. subst. split; [exact C|reflexivity].
Qed.
Lemma alike_op k w w' o : alike k w w' -> alike2 k (h_op w o) (h_op w' o).
Proof.
  intros H. pose proof (alike_own _ _ _ H) as O. pose proof H as (St & _ & An & _). destruct o as [|i|i|l|l|i|i|i|m|m|a]; simpl.
  - apply alike_clear, H.
  - apply alike_add, H.
  - apply alike_remove, H.
  - apply alike_add_range, H.
  - unfold h_set_multiple. rewrite St. destruct (h_style w); [apply alike_clear, H|..].
    + destruct l as [|i [|j l]]; [apply alike_clear, H|apply alike_set, H|apply alike_clear, H].
    + destruct l as [|i [|j l]]; [apply alike_clear, H|apply alike_set, H|apply alike_clear, H].
    + apply alike_told; auto using alike_replaced.
  - apply alike_set, H.
  - unfold h_toggle. rewrite O. destruct (decide _); [apply alike_remove, H|apply alike_add, H].
  - unfold h_extend. rewrite St, O, An. destruct (h_style w); [apply alike_clear, H|apply alike_set, H|apply alike_set, H|]. apply alike_told; [exact H|].
    destruct (h_anchor w) as [a|]; [|auto using alike_edited]. destruct (a <? i); [auto using alike_edited|]. destruct (i <? a); auto using alike_edited.
  - unfold h_insert_index. rewrite O, An. split; [|reflexivity]. simpl. apply alike_moved, H.
  - unfold h_remove_index. rewrite O, An. split; [|reflexivity]. simpl. apply alike_moved, H.
  - split; [|reflexivity]. apply alike_anchor, H.
Qed.
Lemma alike_step k w w' a : alike k w w' -> spares k a -> alike2 k (h_step w a) (h_step w' a).
Proof.
  intros H Sp. destruct a as [o|st|j C]; simpl.
  - apply alike_op, H.
  - destruct H as (A & B & An & N & L & C & H). split; [|reflexivity]. unfold alike. simpl. repeat split; eauto.
  - destruct H as (A & B & An & N & L & D & H). split; [|reflexivity]. unfold alike. simpl. rewrite insert_length. repeat split; eauto.
    exists D. rewrite H. simpl in Sp. apply list_insert_commute. congruence.
Qed.
Lemma alike_run k h : forall w w', alike k w w' -> Forall (spares k) h -> alike k (h_run w h) (h_run w' h).
Proof.
  induction h as [|a h IH]; intros w w' H F; [exact H|]. apply Forall_cons_1 in F as [Sa Sh]. simpl. apply IH; [|exact Sh]. apply alike_step; assumption.
Qed.
