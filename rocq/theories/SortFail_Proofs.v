(** Proofs about lists sorted by keys that raise or cannot be compared. *)
From Coq Require Import List ZArith Bool Arith Permutation Sorted Lia.
From Verif Require Import PyBase Filtered_Model Filtered_Spec Filtered_Proofs Filtered_Proofs2 FiltFail_Proofs SortFail_Model SortFail_Spec.
Import ListNotations.

Lemma sort_insert_ext {A} (f g : A -> A -> bool) x l : (forall y, In y l -> f y x = g y x) -> sort_insert f x l = sort_insert g x l.
Proof.
  induction l as [|y l IH]; intros H; simpl; [reflexivity|]. rewrite (H y) by (left; reflexivity).
  destruct (g y x); [|reflexivity]. rewrite IH; [reflexivity|]. intros z Hz. apply H. right. exact Hz.
Qed.
Lemma py_sorted_ext {A} (f g : A -> A -> bool) l : (forall x y, In x l -> In y l -> f x y = g x y) -> py_sorted f l = py_sorted g l.
Proof.
  induction l as [|x l IH]; intros H; simpl; [reflexivity|]. rewrite IH by (intros; apply H; right; assumption).
  apply sort_insert_ext. intros y Hy. apply H; [right|left; reflexivity].
  exact (Permutation_in _ (py_sorted_perm _ l) Hy).
Qed.

Section Proofs.
  Context {A K : Type} (A_dec : forall a b : A, {a = b} + {a <> b}) (lt : K -> K -> bool) (cls : K -> nat).
  Hypothesis lt_swo : strict_weak_order lt.
  Notation sstate := (sstate A K).
  Notation sop := (sop A K).
  Notation place_for := (place_for lt cls).
  Notation inserted_item := (inserted_item lt cls).
  Notation removed_item := (removed_item A_dec (K := K)).
  Notation updated_item := (updated_item A_dec lt cls).
  Notation insert_all := (insert_all lt cls).
  Notation update_all := (update_all A_dec lt cls).
  Notation sort_all := (sort_all lt cls).
  Notation s_step := (s_step A_dec lt cls).
  Notation s_run := (s_run A_dec lt cls).
  Notation agrees := (agrees (A := A) cls).
  Notation sortable := (sortable (A := A) cls).
  Notation in_order := (in_order (A := A) lt).
  Implicit Types s : sstate.

  (** * Notifications *)
  Lemma inserted_follows s x s' t e : inserted_item s x = (s', t, e) -> f_follows (s_items s) t (s_items s').
  Proof.
    unfold SortFail_Model.inserted_item. destruct (s_filter s x); [|intros [= <- <- <-]; reflexivity].
    destruct (place_for s (s_items s) x) as [k|k]; intros [= <- <- <-]; reflexivity.
  Qed.
  Lemma removed_follows s x s' t : removed_item s x = (s', t) -> f_follows (s_items s) t (s_items s').
  Proof.
    unfold SortFail_Model.removed_item. destruct (index_of A_dec x (s_items s)) as [k|] eqn:E; intros [= <- <-]; [|reflexivity].
    simpl. apply (index_of_some A_dec) in E. destruct E as (l1 & l2 & -> & <- & _). split; [rewrite app_length; simpl; lia|reflexivity].
  Qed.
  Lemma updated_follows s x s' t e : updated_item s x = (s', t, e) -> f_follows (s_items s) t (s_items s').
  Proof.
    unfold SortFail_Model.updated_item. destruct (s_filter s x).
    - destruct (place_for s (s_items s) x) as [k|k]; [|intros [= <- <- <-]; reflexivity].
      destruct (index_of A_dec x (s_items s)) as [i|]; [|apply inserted_follows].
      destruct (k =? i); [intros [= <- <- <-]; reflexivity|].
      destruct (removed_item s x) as [s1 t1] eqn:E1. destruct (inserted_item s1 x) as [[s2 t2] e2] eqn:E2. intros [= <- <- <-].
      eapply f_follows_app; [eapply removed_follows; exact E1|eapply inserted_follows; exact E2].
    - destruct (removed_item s x) as [s1 t1] eqn:E1. intros [= <- <- <-]. eapply removed_follows; exact E1.
  Qed.
  Lemma insert_all_follows s xs : forall items it t e, insert_all s xs items = (it, t, e) -> f_follows items t it.
  Proof.
    induction xs as [|x xs IH]; intros items it t e; simpl; [intros [= <- <- <-]; reflexivity|].
    destruct (place_for s items x) as [k|k]; [|intros [= <- <- <-]; reflexivity].
    destruct (insert_all s xs (insert_at k x items)) as [[it1 t1] e1] eqn:E. intros [= <- <- <-]. simpl. eapply IH; exact E.
  Qed.
  Lemma update_follows ord s s' t e : update_all ord s = (s', t, e) -> f_follows (s_items s) t (s_items s').
  Proof.
    unfold SortFail_Model.update_all. destruct (negb (nodupb A_dec (s_master s))); [intros [= <- <- <-]; reflexivity|].
    destruct (sort_all s) as [l|x]; [|intros [= <- <- <-]; reflexivity]. destruct (s_sorted s).
    - destruct (rem_loop _ (s_items s) 0 0 (s_items s)) as [it1 t1] eqn:E1.
      destruct (insert_all s _ it1) as [[it2 t2] e2] eqn:E2.
      destruct (rem_loop_names _ (s_items s) [] 0 0 it1 t1 eq_refl (le_n 0) E1) as [H1 _].
      apply f_names_follows in H1. apply insert_all_follows in E2.
      destruct e2; intros [= <- <- <-]; simpl; [eapply f_follows_app; eassumption|].
      eapply f_follows_app; [exact H1|]. eapply f_follows_app; [exact E2|reflexivity].
    - destruct (append_loop _ []) as [it2 t2] eqn:E2. intros [= <- <- <-].
      destruct (pop_loop_follows (s_items s) (s_items s) eq_refl) as [H1 _].
      destruct (append_loop_follows _ _ _ _ E2) as [H3 _]. apply f_names_follows in H3.
      simpl. eapply f_follows_app; [exact H1|]. eapply f_follows_app; [exact H3|reflexivity].
  Qed.
  Lemma sel_follows (l l' : list A) t z : f_follows l t l' -> (z = FSelIns 0 \/ (exists i, z = FSelIns i \/ z = FSelRem i)) -> f_follows l (t ++ [z]) l'.
  Proof. intros H Hz. eapply f_follows_app; [exact H|]. destruct Hz as [->|(i & [->| ->])]; reflexivity. Qed.
  Lemma step_follows s o s' t e : s_step s o = (s', t, e) -> f_follows (s_items s) t (s_items s').
  Proof.
    destruct o as [i x|i|x k m|f|key|b|ord]; cbn [SortFail_Model.s_step].
    - unfold heard_insert. cbn [s_master s_cont s_listen s_items s_sorted s_filter s_rev s_key].
      destruct (inb A_dec x (s_master s)); [intros [= <- <- <-]; reflexivity|].
      destruct (inserted_item _ x) as [[s1 t1] e1] eqn:E. apply inserted_follows in E. cbn [s_items] in E.
      destruct e1; intros [= <- <- <-]; [exact E|]. apply sel_follows; [exact E|eauto].
    - destruct (py_get (s_cont s) i) as [x|x]; [|intros [= <- <- <-]; reflexivity].
      destruct (py_del (s_cont s) i) as [l|l]; [|intros [= <- <- <-]; reflexivity].
      unfold heard_remove. cbn [s_master s_cont s_listen s_items s_sorted s_filter s_rev s_key].
      destruct (py_del (s_master s) i) as [m|m]; [|intros [= <- <- <-]; reflexivity].
      destruct (inb A_dec x (s_listen s)); [|intros [= <- <- <-]; reflexivity].
      destruct (removed_item _ x) as [s1 t1] eqn:E. apply removed_follows in E. cbn [s_items] in E. intros [= <- <- <-].
      apply sel_follows; [exact E|eauto].
    - destruct (inb A_dec x (s_listen s) && inb A_dec x (s_master s)); [|intros [= <- <- <-]; reflexivity].
      destruct (updated_item (with_key A_dec s x k m) x) as [[s1 t1] e1] eqn:E. apply updated_follows in E. intros [= <- <- <-]. exact E.
    - unfold settle. destruct (update_all _ _) as [[s1 t1] e1] eqn:E. apply update_follows in E. intros [= <- <- <-]. exact E.
    - unfold settle. destruct (update_all _ _) as [[s1 t1] e1] eqn:E. apply update_follows in E. intros [= <- <- <-]. exact E.
    - unfold settle. destruct (update_all _ _) as [[s1 t1] e1] eqn:E. apply update_follows in E. intros [= <- <- <-]. exact E.
    - apply update_follows.
  Qed.
  Lemma run_follows h : forall s s' t es, s_run s h = (s', t, es) -> f_follows (s_items s) t (s_items s').
  Proof.
    induction h as [|o h IH]; intros s s' t es; simpl; [intros [= <- <- <-]; reflexivity|].
    destruct (s_step s o) as [[s1 t1] e1] eqn:E1. destruct (s_run s1 h) as [[s2 t2] e2] eqn:E2. intros [= <- <- <-].
    eapply f_follows_app; [eapply step_follows; exact E1|eapply IH; exact E2].
  Qed.

  (** * Searching *)
  Lemma comparable_spec a b : comparable cls a b = true <-> cls a = cls b /\ cls a <> 0.
  Proof. unfold comparable. rewrite andb_true_iff, negb_true_iff, Nat.eqb_eq, Nat.eqb_neq. reflexivity. Qed.
  Lemma agrees_sym key x y : agrees key x y -> agrees key y x.
  Proof. intros (a & b & H1 & H2 & H3 & H4). exists b, a. repeat split; congruence. Qed.
  Lemma agrees_trans key x y z : agrees key x y -> agrees key y z -> agrees key x z.
  Proof. intros (a & b & H1 & H2 & H3 & H4) (b' & c & H5 & H6 & H7 & H8). exists a, c. rewrite H2 in H5. injection H5 as ->. repeat split; congruence. Qed.
  Lemma agrees_dec key x y : {agrees key x y} + {~ agrees key x y}.
  Proof.
    destruct (key x) as [a|e] eqn:Ex; [|right; intros (? & ? & ? & ? & ?); congruence].
    destruct (key y) as [b|e] eqn:Ey; [|right; intros (? & ? & ? & ? & ?); congruence].
    destruct (comparable cls a b) eqn:C; [left|right].
    - apply comparable_spec in C. exists a, b. tauto.
    - intros (a' & b' & H1 & H2 & H3). rewrite Ex in H1. rewrite Ey in H2. injection H1 as <-. injection H2 as <-.
      apply comparable_spec in H3. congruence.
  Qed.
  Lemma bisect_ok (p : A -> res bool) (q : A -> bool) l : (forall y, In y l -> p y = Ok (q y)) ->
    forall fuel lo hi, bisect p l fuel lo hi = Ok (bsearch q l fuel lo hi).
  Proof.
    intros H. induction fuel as [|n IH]; intros lo hi; cbn [bisect bsearch]; [reflexivity|]. destruct (lo <? hi); [|reflexivity]. cbv zeta.
    destruct (nth_error l ((lo + hi) / 2)) as [y|] eqn:E; [|reflexivity]. rewrite (H y) by (eapply nth_error_In; exact E). destruct (q y); apply IH.
  Qed.
  Lemma bisect_err (p : A -> res bool) l : l <> [] -> (forall y, In y l -> exists e, p y = Err e) -> exists e, bisect p l (length l) 0 (length l) = Err e.
  Proof.
    intros Hl H. destruct l as [|z l]; [congruence|]. cbn [bisect length]. cbn [Nat.ltb Nat.leb]. cbv zeta.
    change ((0 + S (length l)) / 2) with (S (length l) / 2).
    assert (L : S (length l) / 2 < length (z :: l)) by (apply Nat.div_lt; simpl; lia).
    destruct (nth_error (z :: l) (S (length l) / 2)) as [y|] eqn:E.
    - destruct (H y) as (e & ->); [eapply nth_error_In; exact E|eauto].
    - apply nth_error_None in E. lia.
  Qed.
  (** total keys, when some key is known *)
  Definition kd (d : K) (key : A -> res K) (x : A) : K := match key x with Ok a => a | Err _ => d end.
  Lemma place_ok s l x : (forall y, In y l -> agrees (s_key s) y x) -> forall d, s_key s x = Ok d ->
    place_for s l x = Ok (find_sorted (sort_op lt (s_rev s)) (kd d (s_key s)) l x).
  Proof.
    intros H d Hd. unfold SortFail_Model.place_for. rewrite Hd. unfold find_sorted. apply bisect_ok.
    intros y Hy. destruct (H y Hy) as (a & b & H1 & H2 & H3). unfold kd. rewrite H1, Hd. rewrite Hd in H2. injection H2 as <-.
    unfold compare. apply comparable_spec in H3. rewrite H3. reflexivity.
  Qed.
  Lemma place_nil s x d : s_key s x = Ok d -> place_for s [] x = Ok 0.
  Proof. intros H. unfold SortFail_Model.place_for. rewrite H. reflexivity. Qed.
  Lemma place_err s l x : l <> [] -> (forall y, In y l -> ~ agrees (s_key s) y x) -> exists e, place_for s l x = Err e.
  Proof.
    intros Hl H. unfold SortFail_Model.place_for. destruct (s_key s x) as [d|e] eqn:Hd; [|eauto]. apply bisect_err; [exact Hl|].
    intros y Hy. destruct (s_key s y) as [a|e] eqn:Ea; [|eauto]. unfold compare. destruct (comparable cls a d) eqn:C; [|eauto].
    exfalso. apply (H y Hy). apply comparable_spec in C. exists a, d. tauto.
  Qed.
  Lemma place_key s l x k : place_for s l x = Ok k -> exists a, s_key s x = Ok a.
  Proof. unfold SortFail_Model.place_for. destruct (s_key s x); [eauto|discriminate]. Qed.
  (** a list all of whose keys agree: the new item agrees with all or none *)
  Lemma sortable_split key l x : sortable key l -> (forall y, In y l -> agrees key y x) \/ (l <> [] /\ forall y, In y l -> ~ agrees key y x).
  Proof.
    intros [_ [H|H]].
    - destruct l as [|y [|z l]]; [left; intros y []| |simpl in H; lia].
      destruct (agrees_dec key y x); [left|right; split; [discriminate|]]; intros z [<-|[]]; assumption.
    - destruct l as [|y l]; [left; intros y []|]. destruct (agrees_dec key y x) as [Y|N]; [left|right; split; [discriminate|]]; intros z Hz.
      + apply agrees_trans with y; [apply H; [exact Hz|left; reflexivity]|exact Y].
      + intros Z. apply N. apply agrees_trans with z; [apply H; [left; reflexivity|exact Hz]|exact Z].
  Qed.
  Lemma in_order_srt rev key l d : (forall x, In x l -> exists a, key x = Ok a) -> in_order rev key l <-> srt (sort_op lt rev) (kd d key) l.
  Proof.
    intros H. unfold in_order, srt. rewrite ss_ordered. unfold sort_op. split.
    - intros O l1 a l2 b l3 E. destruct (H a) as (ka & Ha); [rewrite E; apply in_or_app; right; left; reflexivity|].
      destruct (H b) as (kb & Hb). { rewrite E. apply in_or_app. right. right. apply in_or_app. right. left. reflexivity. }
      specialize (O l1 a l2 b l3 ka kb E Ha Hb). unfold kd. rewrite Ha, Hb. destruct rev; exact O.
    - intros O l1 a l2 b l3 ka kb E Ha Hb. specialize (O l1 a l2 b l3 E). unfold kd in O. rewrite Ha, Hb in O. destruct rev; exact O.
  Qed.
  Lemma place_order s l x k : sortable (s_key s) l -> in_order (s_rev s) (s_key s) l -> place_for s l x = Ok k ->
    sortable (s_key s) (insert_at k x l) /\ in_order (s_rev s) (s_key s) (insert_at k x l) /\ (forall y, In y l -> agrees (s_key s) y x).
  Proof.
    intros S O P. destruct (sortable_split _ _ x S) as [H|[Hl H]].
    2:{ destruct (place_err s l x Hl H) as (e & E). congruence. }
    destruct (place_key _ _ _ _ P) as (d & Hd). pose proof (place_ok s l x H d Hd) as P'. rewrite P in P'. injection P' as ->.
    destruct S as [S1 S2]. set (k := find_sorted _ _ _ _).
    assert (S1' : forall z, In z (insert_at k x l) -> exists a, s_key s z = Ok a).
    { intros z Hz. apply (Permutation_in _ (insert_at_perm k x l)) in Hz. destruct Hz as [<-|Hz]; [eauto|auto]. }
    split; [|split; [|exact H]].
    - split; [exact S1'|]. destruct l as [|y0 l0]; [left|right].
      + rewrite (Permutation_length (insert_at_perm k x [])). simpl. lia.
      + assert (X : agrees (s_key s) x x). { apply agrees_trans with y0; [apply agrees_sym|]; apply H; left; reflexivity. }
        assert (G : forall y, In y (insert_at k x (y0 :: l0)) -> agrees (s_key s) y x).
        { intros y Hy. apply (Permutation_in _ (insert_at_perm k x _)) in Hy. destruct Hy as [<-|Hy]; [exact X|apply H; exact Hy]. }
        intros y z Hy Hz. apply agrees_trans with x; [apply G; exact Hy|apply agrees_sym, G; exact Hz].
    - apply (in_order_srt _ _ _ d S1'). apply find_sorted_insert; [apply swo_op; exact lt_swo|]. apply (in_order_srt _ _ _ d S1). exact O.
  Qed.
  Lemma in_order_sub rev key l1 x l2 : in_order rev key (l1 ++ x :: l2) -> in_order rev key (l1 ++ l2).
  Proof.
    intros O. assert (S : StronglySorted (fun a b => forall ka kb, key a = Ok ka -> key b = Ok kb -> if rev then lt ka kb = false else lt kb ka = false) (l1 ++ l2)).
    { eapply ss_delete. apply ss_ordered. intros m1 a m2 b m3 E ka kb Ha Hb. eapply O; eassumption. }
    intros m1 a m2 b m3 ka kb E Ha Hb. rewrite ss_ordered in S. eapply S; eassumption.
  Qed.
  Lemma in_order_filter rev key f l : in_order rev key l -> in_order rev key (filter f l).
  Proof.
    intros O. assert (S : StronglySorted (fun a b => forall ka kb, key a = Ok ka -> key b = Ok kb -> if rev then lt ka kb = false else lt kb ka = false) (filter f l)).
    { apply ss_filter. apply ss_ordered. intros m1 a m2 b m3 E ka kb Ha Hb. eapply O; eassumption. }
    intros m1 a m2 b m3 ka kb E Ha Hb. rewrite ss_ordered in S. eapply S; eassumption.
  Qed.
  Lemma sortable_sub key (l l' : list A) : (forall x, In x l' -> In x l) -> length l' <= length l -> sortable key l -> sortable key l'.
  Proof. intros I L [S1 S2]. split; [auto|]. destruct S2 as [S2|S2]; [left; lia|right; auto]. Qed.

  (** * Sorting *)
  Lemma bad_key_spec s l : bad_key s l = None <-> forall x, In x l -> exists a, s_key s x = Ok a.
  Proof.
    induction l as [|x l IH]; simpl; [split; [intros _ x []|reflexivity]|]. destruct (s_key s x) as [a|e] eqn:E.
    - rewrite IH. split; [intros H y [<-|Hy]; [eauto|auto]|auto].
    - split; [discriminate|]. intros H. destruct (H x) as (a & Ha); [left; reflexivity|congruence].
  Qed.
  Lemma like_key_spec s x y : like_key cls s x y = true <-> agrees (s_key s) x y.
  Proof.
    unfold like_key. split.
    - destruct (s_key s x) as [a|] eqn:Ea; [|discriminate]. destruct (s_key s y) as [b|] eqn:Eb; [|discriminate].
      intros H. apply comparable_spec in H. exists a, b. tauto.
    - intros (a & b & -> & -> & H). apply comparable_spec. exact H.
  Qed.
  Lemma sort_all_spec s :
    (sortable (s_key s) (s_master s) -> exists l, sort_all s = Ok l /\ Permutation l (s_master s) /\ in_order (s_rev s) (s_key s) l) /\
    (~ sortable (s_key s) (s_master s) -> exists e, sort_all s = Err e).
  Proof.
    unfold SortFail_Model.sort_all. destruct (bad_key s (s_master s)) as [e|] eqn:B.
    { split; [|eauto]. intros [S _]. apply bad_key_spec in S. congruence. }
    pose proof (proj1 (bad_key_spec _ _) B) as KK. destruct (s_master s) as [|x [|y l]] eqn:M.
    - split; [|intros N; exfalso; apply N; split; [exact KK|left; simpl; lia]]. intros _. exists []. split; [reflexivity|]. split; [reflexivity|].
      intros [|? ?] ? ? ? ? ? ? E; discriminate E.
    - split; [|intros N; exfalso; apply N; split; [exact KK|left; simpl; lia]]. intros _. exists [x]. split; [reflexivity|]. split; [reflexivity|].
      intros [|? [|? ?]] ? [|? ?] ? ? ? ? E; discriminate E.
    - rewrite <- M in *. destruct (forallb (like_key cls s x) (s_master s)) eqn:F.
      + rewrite forallb_forall in F. split.
        * intros _. eexists. split; [reflexivity|]. split; [apply py_sorted_perm|].
          destruct (KK x) as (d & Hd); [rewrite M; left; reflexivity|].
          apply (in_order_srt _ _ _ d). { intros z Hz. apply KK. exact (Permutation_in _ (py_sorted_perm _ _) Hz). }
          rewrite (py_sorted_ext _ (fun a b => sort_op lt (s_rev s) (kd d (s_key s) a) (kd d (s_key s) b))).
          -- apply py_sorted_srt. apply swo_op. exact lt_swo.
          -- intros a b Ha Hb. unfold before_key, kd. destruct (KK a Ha) as (ka & ->). destruct (KK b Hb) as (kb & ->). reflexivity.
        * intros N. exfalso. apply N. split; [exact KK|]. right. intros a b Ha Hb.
          apply agrees_trans with x; [apply agrees_sym|]; apply like_key_spec, F; assumption.
      + split; [|eauto]. intros [_ [S|S]]; [rewrite M in S; simpl in S; lia|]. exfalso.
        assert (forallb (like_key cls s x) (s_master s) = true); [|congruence]. apply forallb_forall. intros z Hz. apply like_key_spec.
        apply S; [rewrite M; left; reflexivity|exact Hz].
  Qed.
  Lemma sortable_dec key l : {sortable key l} + {~ sortable key l}.
  Proof.
    set (s := Ss l l l l true (fun _ => true) false key).
    destruct (sort_all s) as [r|e] eqn:E; [left|right].
    - unfold SortFail_Model.sort_all in E. destruct (bad_key s (s_master s)) eqn:B; [discriminate|].
      pose proof (proj1 (bad_key_spec _ _) B) as KK. simpl in *. split; [exact KK|].
      destruct l as [|x [|y l]]; [left; simpl; lia|left; simpl; lia|]. right.
      destruct (forallb _ _) eqn:F; [|discriminate]. rewrite forallb_forall in F. intros a b Ha Hb.
      apply agrees_trans with x; [apply agrees_sym|]; apply (like_key_spec s), F; assumption.
    - intros S. destruct (proj1 (sort_all_spec s) S) as (r & R & _). congruence.
  Qed.
End Proofs.
