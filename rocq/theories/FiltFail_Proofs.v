(** Lemmas about filtered lists whose filters raise. *)
From Coq Require Import List ZArith Bool Arith Lia.
From Verif Require Import PyBase FiltFail_Model FiltFail_Spec.
Import ListNotations.

Section FiltFailProofs.
  Context {A : Type} (eqb : A -> A -> bool) (eqb_spec : forall x y, eqb x y = true <-> x = y).
  Notation fstate := (fstate A).
  Notation f_mem := (f_mem eqb).
  Notation f_index := (f_index eqb).
  Notation find_index := (find_index eqb).
  Notation f_inserted := (f_inserted eqb).
  Notation f_removed := (f_removed eqb).
  Notation f_remove_loop := (f_remove_loop eqb).
  Notation f_insert_loop := (f_insert_loop eqb).
  Notation f_set_container := (f_set_container eqb).
  Notation f_attach := (f_attach eqb).
  Notation f_step := (f_step eqb).
  Notation f_run := (f_run eqb).

  Lemma f_mem_in x l : f_mem x l = true <-> In x l.
  Proof.
    unfold FiltFail_Model.f_mem. rewrite existsb_exists. split.
    - intros (y & H & E). apply eqb_spec in E. now subst.
    - intros H. exists x. split; [exact H|]. now apply eqb_spec.
  Qed.
  Lemma f_mem_not x l : f_mem x l = false <-> ~ In x l.
  Proof. rewrite <- f_mem_in. destruct (f_mem x l); split; congruence. Qed.
  Lemma eqb_refl x : eqb x x = true.
  Proof. now apply eqb_spec. Qed.
  Lemma eqb_neq x y : x <> y -> eqb x y = false.
  Proof. intros H. destruct (eqb x y) eqn:E; [|reflexivity]. apply eqb_spec in E. contradiction. Qed.

  Lemma f_index_split x l : In x l -> exists a b, l = a ++ x :: b /\ ~ In x a /\ f_index x l = length a.
  Proof.
    induction l as [|y l IH]; [intros []|]. intros H. cbn. destruct (eqb y x) eqn:E.
    - apply eqb_spec in E. subst y. exists [], l. auto.
    - destruct IH as (a & b & -> & Ha & Hn). { destruct H as [->|H]; [|exact H]. rewrite eqb_refl in E. discriminate. }
      exists (y :: a), b. repeat split; [|cbn; now rewrite Hn]. intros [->|Hx]; [|contradiction]. rewrite eqb_refl in E. discriminate.
  Qed.
  Lemma delete_split {X} (a b : list X) x : delete_at (length a) (a ++ x :: b) = a ++ b.
  Proof.
    unfold delete_at. rewrite firstn_app, firstn_all, Nat.sub_diag, firstn_O, app_nil_r. f_equal.
    replace (S (length a)) with (length (a ++ [x])) by (rewrite app_length; cbn; lia).
    replace (a ++ x :: b) with ((a ++ [x]) ++ b) by (now rewrite <- app_assoc).
    rewrite skipn_app, skipn_all, Nat.sub_diag. reflexivity.
  Qed.
  Lemma py_del_nat {X} (l : list X) k : k < length l -> py_del l (Z.of_nat k) = Ok (delete_at k l).
  Proof.
    intros H. unfold py_del, py_index. destruct (Z.ltb_spec (Z.of_nat k) 0); [lia|].
    destruct (Z.leb_spec 0 (Z.of_nat k)); [|lia]. destruct (Z.ltb_spec (Z.of_nat k) (Z.of_nat (length l))); [|lia].
    cbn [andb]. now rewrite Nat2Z.id.
  Qed.
  Lemma py_del_split {X} (l : list X) i l' : py_del l i = Ok l' -> exists a x b, l = a ++ x :: b /\ l' = a ++ b /\ py_get l i = Ok x.
  Proof.
    unfold py_del, py_get. destruct (py_index (length l) i) as [k|] eqn:E; [|discriminate]. intros [= <-].
    assert (L : k < length l).
    { unfold py_index in E. destruct (_ && _) eqn:F in E; [|discriminate]. injection E as <-. apply andb_prop in F as [F1 F2].
      apply Z.leb_le in F1. apply Z.ltb_lt in F2. lia. }
    destruct (nth_error l k) as [x|] eqn:N; [|apply nth_error_None in N; lia].
    destruct (nth_error_split l k N) as (a & b & -> & <-). exists a, x, b. repeat split. apply delete_split.
  Qed.
  Lemma py_del_last (l : list A) : l <> [] -> py_del l (Z.of_nat (length l) - 1) = Ok (removelast l).
  Proof.
    intros H. destruct (exists_last H) as (a & x & ->). rewrite app_length. cbn [length].
    replace (Z.of_nat (length a + 1) - 1)%Z with (Z.of_nat (length a)) by lia.
    rewrite py_del_nat by (rewrite app_length; cbn; lia). rewrite delete_split, removelast_last, app_nil_r. reflexivity.
  Qed.
  Lemma py_insert_nat (a b : list A) x : py_insert (Z.of_nat (length a)) x (a ++ b) = a ++ x :: b.
  Proof.
    unfold py_insert. replace (py_insert_pos (length (a ++ b)) (Z.of_nat (length a))) with (length a).
    - unfold insert_at. rewrite firstn_app, firstn_all, Nat.sub_diag, firstn_O, app_nil_r.
      rewrite skipn_app, skipn_all, Nat.sub_diag. reflexivity.
    - unfold py_insert_pos. rewrite app_length. destruct (Z.ltb_spec (Z.of_nat (length a)) 0); lia.
  Qed.
  Lemma py_insert_split i x (l : list A) : exists a b, l = a ++ b /\ py_insert i x l = a ++ x :: b.
  Proof.
    unfold py_insert, insert_at. eexists. eexists. split; [|reflexivity]. symmetry. apply firstn_skipn.
  Qed.

  (** ** the observer *)
  Lemma f_observes_app (t1 t2 : list (fev A)) : forall l l1 l2, f_observes l t1 l1 -> f_observes l1 t2 l2 -> f_observes l (t1 ++ t2) l2.
  Proof.
    induction t1 as [|[x i|x i] t1 IH]; cbn; intros l l1 l2 H1 H2.
    - now subst.
    - eauto.
    - destruct H1 as (l0 & E & H1). eauto.
  Qed.
  Lemma f_inserted_observed s x i s' t e : f_inserted s x i = (s', t, e) -> f_observes (f_items s) t (f_items s').
  Proof.
    unfold FiltFail_Model.f_inserted. destruct (f_mem x (f_master s)); [intros [= <- <- <-]; reflexivity|].
    destruct (f_filter s x) as [[|]|]; [|intros [= <- <- <-]; reflexivity..].
    destruct (find_index _ _ _); intros [= <- <- <-]; reflexivity.
  Qed.
  Lemma f_removed_observed s x i s' t e : f_removed s x i = (s', t, e) -> f_observes (f_items s) t (f_items s').
  Proof.
    unfold FiltFail_Model.f_removed. destruct (py_del (f_master s) i); [|intros [= <- <- <-]; reflexivity].
    destruct (f_mem x (f_keys s)); [|intros [= <- <- <-]; reflexivity].
    destruct (f_mem x (f_items s)) eqn:M; intros [= <- <- <-]; [|reflexivity]. cbn.
    apply f_mem_in in M. destruct (f_index_split x (f_items s) M) as (l1 & l2 & E & _ & ->).
    exists (delete_at (length l1) (f_items s)). split; [|reflexivity]. apply py_del_nat. rewrite E, app_length. cbn. lia.
  Qed.
  Lemma f_remove_loop_observed xs : forall s s' t e, f_remove_loop xs s = (s', t, e) -> f_observes (f_items s) t (f_items s').
  Proof.
    induction xs as [|x xs IH]; intros s s' t e; cbn [FiltFail_Model.f_remove_loop]; [intros [= <- <- <-]; reflexivity|].
    destruct (f_removed s x _) as [[s1 t1] [e1|]] eqn:E; apply f_removed_observed in E; [intros [= <- <- <-]; exact E|].
    destruct (f_remove_loop xs s1) as [[s2 t2] e2] eqn:E2. intros [= <- <- <-]. eapply f_observes_app; eauto.
  Qed.
  Lemma f_insert_loop_observed xs : forall idx s s' t e, f_insert_loop xs idx s = (s', t, e) -> f_observes (f_items s) t (f_items s').
  Proof.
    induction xs as [|x xs IH]; intros idx s s' t e; cbn [FiltFail_Model.f_insert_loop]; [intros [= <- <- <-]; reflexivity|].
    destruct (f_inserted s x _) as [[s1 t1] [e1|]] eqn:E; apply f_inserted_observed in E; [intros [= <- <- <-]; exact E|].
    destruct (f_insert_loop xs (S idx) s1) as [[s2 t2] e2] eqn:E2. intros [= <- <- <-]. eapply f_observes_app; eauto.
  Qed.
  Lemma f_attach_observed s c s' t e : f_attach s c = (s', t, e) -> f_observes (f_items s) t (f_items s').
  Proof. destruct c as [l|]; cbn; [intros H; apply f_insert_loop_observed in H; exact H|intros [= <- <- <-]; reflexivity]. Qed.
  Lemma f_set_observed s c s' t e : f_set_container s c = (s', t, e) -> f_observes (f_items s) t (f_items s').
  Proof.
    unfold FiltFail_Model.f_set_container. destruct (f_cont s) as [old|]; [|apply f_attach_observed].
    destruct (f_live s); [|intros [= <- <- <-]; reflexivity].
    destruct (f_remove_loop (rev old) _) as [[s1 t1] [e1|]] eqn:E; apply f_remove_loop_observed in E; cbn [f_items] in E; [intros [= <- <- <-]; exact E|].
    destruct (f_attach s1 c) as [[s2 t2] e2] eqn:E2. intros [= <- <- <-]. eapply f_observes_app; [exact E|]. eapply f_attach_observed; eauto.
  Qed.
  Lemma f_pops_observed (old : list A) : forall l, length l = length old -> f_observes l (f_pops old) [].
  Proof.
    induction old as [|x old IH]; intros l H; cbn; [now apply length_zero_iff_nil|]. cbn in H.
    assert (N : l <> []) by (intros ->; discriminate). exists (removelast l). split.
    - rewrite <- py_del_last by assumption. f_equal. lia.
    - apply IH. destruct (exists_last N) as (a & y & ->). rewrite removelast_last. rewrite app_length in H. cbn in H. lia.
  Qed.
  Lemma f_appends_observed (r : list A) : forall l, f_observes l (f_appends (length l) r) (l ++ r).
  Proof.
    induction r as [|x r IH]; intros l; cbn; [now rewrite app_nil_r|].
    pose proof (py_insert_nat l [] x) as P. rewrite app_nil_r in P. rewrite P.
    specialize (IH (l ++ [x])). rewrite app_length, <- app_assoc in IH. cbn in IH. now rewrite Nat.add_1_r in IH.
  Qed.
  Lemma f_filter_observed (s : fstate) flt s' t e : f_set_filter s flt = (s', t, e) -> f_observes (f_items s) t (f_items s').
  Proof.
    unfold f_set_filter. destruct (f_build flt (f_master s)) as [r|e0]; intros [= <- <- <-]; [|reflexivity]. cbn.
    eapply f_observes_app; [now apply f_pops_observed|]. apply (f_appends_observed r []).
  Qed.
  Lemma f_step_observed s o s' t e : f_step s o = (s', t, e) -> f_observes (f_items s) t (f_items s').
  Proof.
    destruct o as [i x|i|c|flt]; cbn [FiltFail_Model.f_step].
    - destruct (f_cont s) as [l|]; [|intros [= <- <- <-]; reflexivity]. destruct (f_live s); [|intros [= <- <- <-]; reflexivity].
      destruct (f_inserted _ x i) as [[s1 t1] e1] eqn:E. intros [= <- <- <-]. apply f_inserted_observed in E. exact E.
    - destruct (f_cont s) as [l|]; [|intros [= <- <- <-]; reflexivity].
      destruct (py_get l i) as [x|]; [|intros [= <- <- <-]; reflexivity]. destruct (py_del l i) as [l'|]; [|intros [= <- <- <-]; reflexivity].
      destruct (f_live s); [|intros [= <- <- <-]; reflexivity].
      destruct (f_removed _ x i) as [[s1 t1] e1] eqn:E. intros [= <- <- <-]. apply f_removed_observed in E. exact E.
    - apply f_set_observed.
    - apply f_filter_observed.
  Qed.
  Lemma f_run_observed h : forall s s' t es, f_run s h = (s', t, es) -> f_observes (f_items s) t (f_items s').
  Proof.
    induction h as [|o h IH]; intros s s' t es; cbn [FiltFail_Model.f_run]; [intros [= <- <- <-]; reflexivity|].
    destruct (f_step s o) as [[s1 t1] e1] eqn:E. destruct (f_run s1 h) as [[s2 t2] es2] eqn:E2. intros [= <- <- <-].
    eapply f_observes_app; [eapply f_step_observed; eauto|eauto].
  Qed.

  (** ** the filter asked for a list *)
  Lemma before_behind flt (l : list A) : before flt l ++ behind flt l = l.
  Proof. induction l as [|x l IH]; cbn; [reflexivity|]. destruct (raises flt x); cbn; congruence. Qed.
  Lemma before_quiet flt (l : list A) : quiet flt (before flt l).
  Proof.
    induction l as [|x l IH]; cbn; [intros ? []|]. destruct (raises flt x) eqn:E; [intros ? []|].
    intros y [<-|Hy]; auto.
  Qed.
  Lemma quiet_split flt (a b : list A) : quiet flt a -> before flt (a ++ b) = a ++ before flt b /\ behind flt (a ++ b) = behind flt b.
  Proof.
    induction a as [|x a IH]; intros H; cbn; [auto|]. rewrite (H x) by now left.
    destruct IH as [-> ->]; [|auto]. intros y Hy. apply H. now right.
  Qed.
  Lemma quiet_all flt (l : list A) : quiet flt l -> before flt l = l /\ behind flt l = [].
  Proof. intros H. destruct (quiet_split flt l [] H) as [P Q]. cbn in P, Q. rewrite app_nil_r in P, Q. auto. Qed.
  Lemma behind_head flt (l : list A) x q : behind flt l = x :: q -> raises flt x = true.
  Proof. induction l as [|y l IH]; cbn; [discriminate|]. destruct (raises flt y) eqn:E; [intros [= -> _]; exact E|exact IH]. Qed.
  Lemma raises_head flt x (l : list A) : raises flt x = true -> before flt (x :: l) = [] /\ behind flt (x :: l) = x :: l.
  Proof. intros H. cbn. rewrite H. auto. Qed.
  Lemma raises_passes flt (x : A) : raises flt x = true -> passes flt x = false.
  Proof. unfold raises, passes. destruct (flt x); [discriminate|reflexivity]. Qed.

  Lemma find_index_quiet flt x (a b : list A) : ~ In x a -> quiet flt a ->
    find_index flt x (a ++ x :: b) = Ok (length (filter (passes flt) a)).
  Proof.
    induction a as [|y a IH]; intros Hx Hq; cbn [app FiltFail_Model.find_index]; [now rewrite eqb_refl|].
    rewrite eqb_neq by (intros ->; apply Hx; now left).
    pose proof (Hq y (or_introl eq_refl)) as R. unfold raises in R. destruct (flt y) as [c|] eqn:F; [|discriminate].
    rewrite IH; [|intros Hy; apply Hx; now right|intros z Hz; apply Hq; now right].
    assert (P : passes flt y = c) by (unfold passes; now rewrite F). cbn [filter]. rewrite P. destruct c; reflexivity.
  Qed.
  Lemma find_index_raises flt x (a b : list A) : ~ In x a -> (exists y, In y a /\ raises flt y = true) ->
    exists e, find_index flt x (a ++ x :: b) = Err e.
  Proof.
    induction a as [|y a IH]; intros Hx (z & Hz & R); [destruct Hz|]. cbn [app FiltFail_Model.find_index].
    rewrite eqb_neq by (intros ->; apply Hx; now left). destruct (flt y) as [c|e] eqn:F; [|eauto].
    destruct Hz as [->|Hz]; [unfold raises in R; rewrite F in R; discriminate|].
    destruct IH as (e & ->); [intros Hy; apply Hx; now right|eauto|]. eauto.
  Qed.
  Lemma f_build_quiet flt (l : list A) : quiet flt l -> f_build flt l = Ok (filter (passes flt) l).
  Proof.
    induction l as [|x l IH]; intros H; cbn; [reflexivity|]. pose proof (H x (or_introl eq_refl)) as R. unfold raises in R.
    unfold passes at 1. destruct (flt x) as [c|]; [|discriminate]. rewrite IH by (intros z Hz; apply H; now right). destruct c; reflexivity.
  Qed.
  Lemma f_build_raises flt (l : list A) : (exists y, In y l /\ raises flt y = true) -> exists e, f_build flt l = Err e.
  Proof.
    induction l as [|x l IH]; intros (z & Hz & R); [destruct Hz|]. cbn. destruct (flt x) as [c|e] eqn:F; [|eauto].
    destruct Hz as [->|Hz]; [unfold raises in R; rewrite F in R; discriminate|]. destruct IH as (e & ->); eauto.
  Qed.

  (** ** sublists *)
  Lemma sublist_refl (l : list A) : sublist l l.
  Proof. induction l; [constructor|now apply sub_keep]. Qed.
  Lemma sublist_app (a b c d : list A) : sublist a b -> sublist c d -> sublist (a ++ c) (b ++ d).
  Proof. intros H1 H2. induction H1; cbn; [exact H2|now apply sub_skip|now apply sub_keep]. Qed.
  Lemma sublist_in (a b : list A) x : sublist a b -> In x a -> In x b.
  Proof. intros H. induction H; cbn; intuition. Qed.
  Lemma sublist_insert (r : list A) : forall a b x, sublist r (a ++ b) -> sublist r (a ++ x :: b).
  Proof.
    intros a. revert r. induction a as [|y a IH]; intros r b x H; cbn in *; [now apply sub_skip|].
    inversion H; subst; [apply sub_skip|apply sub_keep]; auto.
  Qed.
  Lemma sublist_remove (r : list A) : forall a b x, sublist r (a ++ x :: b) -> ~ In x r -> sublist r (a ++ b).
  Proof.
    intros a. revert r. induction a as [|y a IH]; intros r b x H N; cbn in *.
    - inversion H; subst; [assumption|]. exfalso. apply N. now left.
    - inversion H; subst; [apply sub_skip; eauto|]. apply sub_keep. apply (IH _ b x); auto. intros X. apply N. now right.
  Qed.
  Lemma sublist_remove2 (r1 r2 : list A) : forall a b x, sublist (r1 ++ x :: r2) (a ++ x :: b) -> ~ In x a -> ~ In x b -> sublist (r1 ++ r2) (a ++ b).
  Proof.
    intros a. revert r1. induction a as [|y a IH]; intros r1 b x H Na Nb; cbn in *.
    - inversion H as [|? ? ? H1|? ? ? H1 E]; subst.
      + exfalso. apply Nb. eapply sublist_in; [exact H1|]. apply in_or_app. right. now left.
      + destruct r1 as [|z r1]; cbn in *; [injection E as ->; assumption|]. injection E as -> ->.
        exfalso. apply Nb. eapply sublist_in; [exact H1|]. apply in_or_app. right. now left.
    - inversion H as [|? ? ? H1|? ? ? H1 E]; subst.
      + apply sub_skip. eapply IH; eauto.
      + destruct r1 as [|z r1]; cbn in *; injection E as ? ?; subst.
        * exfalso. apply Na. now left.
        * apply sub_keep. eapply IH; eauto.
  Qed.
  Lemma sublist_nodup (a b : list A) : sublist a b -> NoDup b -> NoDup a.
  Proof.
    intros H. induction H as [|x a b H IH|x a b H IH]; intros N; [constructor|inversion N; auto|].
    inversion N as [|? ? N1 N2]; subst. constructor; auto. intros X. apply N1. eapply sublist_in; eauto.
  Qed.

  (** ** the state after gentle histories *)
  Definition good (flt : A -> res bool) (l items : list A) : Prop :=
    exists rest, items = filter (passes flt) (before flt l) ++ rest /\ sublist rest (filter (passes flt) (behind flt l)).
  Definition holds (w : world (A := A)) (s : fstate) : Prop :=
    f_cont s = fst w /\ f_filter s = snd w /\ f_live s = (match fst w with Some _ => true | None => false end) /\
    f_master s = w_items w /\ NoDup (w_items w) /\ (forall x, In x (f_keys s) <-> In x (w_items w)) /\
    good (snd w) (w_items w) (f_items s).

  Lemma good_quiet flt l items : quiet flt l -> good flt l items -> items = filter (passes flt) l.
  Proof.
    intros Q (rest & -> & S). destruct (quiet_all flt l Q) as [E1 E2]. rewrite E1, E2 in *. cbn in S. inversion S. apply app_nil_r.
  Qed.
  Lemma quiet_good flt l : quiet flt l -> good flt l (filter (passes flt) l).
  Proof. intros Q. destruct (quiet_all flt l Q) as [E1 E2]. exists []. rewrite E1, E2, app_nil_r. split; constructor. Qed.
  Lemma good_sublist flt l items : good flt l items -> sublist items (filter (passes flt) l).
  Proof.
    intros (rest & -> & S). rewrite <- (before_behind flt l) at 2. rewrite filter_app. apply sublist_app; [apply sublist_refl|exact S].
  Qed.

  (** an insertion as the model makes it *)
  Definition showable (flt : A -> res bool) (a : list A) (x : A) : bool := passes flt x && negb (existsb (raises flt) a).
  Lemma existsb_quiet flt (a : list A) : existsb (raises flt) a = false -> quiet flt a.
  Proof.
    intros H x Hx. destruct (raises flt x) eqn:E; [|reflexivity].
    assert (X : existsb (raises flt) a = true) by (apply existsb_exists; eauto). congruence.
  Qed.
  Lemma inserted_result (s : fstate) x i a b :
    py_insert i x (f_master s) = a ++ x :: b -> f_master s = a ++ b -> ~ In x (f_master s) ->
    exists e, f_inserted s x i = (Fs (f_cont s) (f_live s) (a ++ x :: b)
        (if showable (f_filter s) a x then py_insert (Z.of_nat (length (filter (passes (f_filter s)) a))) x (f_items s) else f_items s)
        (x :: f_keys s) (f_filter s),
      (if showable (f_filter s) a x then [FIns x (Z.of_nat (length (filter (passes (f_filter s)) a)))] else []), e) /\
      (e <> None <-> raises (f_filter s) x = true \/ (passes (f_filter s) x = true /\ existsb (raises (f_filter s)) a = true)).
  Proof.
    intros P M N. unfold FiltFail_Model.f_inserted. rewrite (proj2 (f_mem_not x (f_master s)) N), P.
    assert (Na : ~ In x a) by (intros H; apply N; rewrite M; apply in_or_app; now left).
    unfold showable.
    assert (Px : passes (f_filter s) x = match f_filter s x with Ok c => c | Err _ => false end) by reflexivity.
    assert (Rx : raises (f_filter s) x = match f_filter s x with Ok _ => false | Err _ => true end) by reflexivity.
    rewrite Px, Rx. destruct (f_filter s x) as [[|]|e] eqn:F.
    - destruct (existsb (raises (f_filter s)) a) eqn:R; cbn [andb negb].
      + apply existsb_exists in R. destruct (find_index_raises (f_filter s) x a b Na R) as (e & ->).
        exists (Some e). split; [reflexivity|]. split; [auto|discriminate].
      + rewrite find_index_quiet by (auto; now apply existsb_quiet). exists None. split; [reflexivity|].
        split; [congruence|]. intros [?|[_ ?]]; discriminate.
    - exists None. split; [reflexivity|]. split; [congruence|]. intros [?|[? _]]; discriminate.
    - exists (Some e). split; [reflexivity|]. split; [auto|discriminate].
  Qed.

  Lemma good_insert flt a b x items : ~ In x (a ++ b) -> good flt (a ++ b) items ->
    good flt (a ++ x :: b) (if showable flt a x then py_insert (Z.of_nat (length (filter (passes flt) a))) x items else items).
  Proof.
    intros N (rest & -> & S). unfold showable. destruct (existsb (raises flt) a) eqn:R.
    - rewrite andb_false_r.
      (* a raising item comes before: only the part behind it changes *)
      assert (G : forall c, before flt (a ++ c) = before flt a /\ behind flt (a ++ c) = behind flt a ++ c).
      { clear - R. induction a as [|y a IH]; [discriminate|]. cbn in *. destruct (raises flt y) eqn:E; [auto|]. cbn in R.
        intros c. destruct (IH R c) as [-> ->]. auto. }
      destruct (G b) as [E1 E2], (G (x :: b)) as [E3 E4]. exists rest. rewrite E1, E3. split; [reflexivity|].
      rewrite E2 in S. rewrite E4. rewrite filter_app in *. cbn [filter]. destruct (passes flt x); [now apply sublist_insert|exact S].
    - apply existsb_quiet in R. destruct (quiet_split flt a b R) as [E1 E2], (quiet_split flt a (x :: b) R) as [E3 E4].
      cbn [negb]. rewrite andb_true_r. rewrite E1, E2 in *. rewrite filter_app, <- app_assoc in *. unfold good. rewrite E3, E4.
      destruct (raises flt x) eqn:Rx.
      + rewrite (raises_passes flt x Rx). destruct (raises_head flt x b Rx) as [-> ->]. rewrite app_nil_r.
        exists (filter (passes flt) (before flt b) ++ rest). split; [reflexivity|]. cbn [filter]. rewrite (raises_passes flt x Rx).
        rewrite <- (before_behind flt b) at 2. rewrite filter_app. apply sublist_app; [apply sublist_refl|exact S].
      + cbn [before behind]. rewrite Rx. rewrite filter_app. cbn [filter]. exists rest. split; [|exact S].
        destruct (passes flt x); [|rewrite app_assoc; reflexivity].
        rewrite py_insert_nat. rewrite <- app_assoc. reflexivity.
  Qed.

  Lemma nodup_middle (a b : list A) x : NoDup (a ++ x :: b) <-> NoDup (a ++ b) /\ ~ In x (a ++ b).
  Proof.
    split.
    - intros H. split; [now apply NoDup_remove_1 in H|now apply NoDup_remove_2 in H].
    - intros [H1 H2]. apply (Permutation.Permutation_NoDup (l := x :: a ++ b)); [apply Permutation.Permutation_middle|].
      now constructor.
  Qed.

  Lemma removed_result (s : fstate) x i m : py_del (f_master s) i = Ok m -> In x (f_keys s) ->
    exists t, f_removed s x i = (Fs (f_cont s) (f_live s) m
      (if f_mem x (f_items s) then delete_at (f_index x (f_items s)) (f_items s) else f_items s)
      (filter (fun y => negb (eqb y x)) (f_keys s)) (f_filter s), t, None).
  Proof.
    intros D K. unfold FiltFail_Model.f_removed. rewrite D, (proj2 (f_mem_in x (f_keys s)) K).
    destruct (f_mem x (f_items s)); eauto.
  Qed.

  Lemma good_remove flt a b x items : NoDup (a ++ x :: b) -> raises flt x = false -> good flt (a ++ x :: b) items ->
    good flt (a ++ b) (if f_mem x items then delete_at (f_index x items) items else items).
  Proof.
    intros N Rx G. apply nodup_middle in N. destruct N as [N Nx]. destruct G as (rest & E & S).
    assert (Fd : forall l1 l2, ~ In x l1 -> delete_at (f_index x (l1 ++ x :: l2)) (l1 ++ x :: l2) = l1 ++ l2 /\ f_mem x (l1 ++ x :: l2) = true).
    { intros l1 l2 Hn. assert (Hi : In x (l1 ++ x :: l2)) by (apply in_or_app; right; now left).
      split; [|now apply f_mem_in]. replace (f_index x (l1 ++ x :: l2)) with (length l1); [apply delete_split|].
      clear - Hn eqb_spec. induction l1 as [|y l1 IH]; cbn; [now rewrite eqb_refl|].
      rewrite eqb_neq by (intros ->; apply Hn; now left). rewrite <- IH; [reflexivity|]. intros H. apply Hn. now right. }
    assert (Nfil : forall l, (~ In x l) -> ~ In x (filter (passes flt) l)).
    { intros l Hl Hf. apply filter_In in Hf. tauto. }
    assert (Na : ~ In x a) by (intros H; apply Nx; apply in_or_app; auto).
    assert (Nb : ~ In x b) by (intros H; apply Nx; apply in_or_app; auto).
    destruct (existsb (raises flt) a) eqn:R.
    - (* behind a raising item *)
      assert (GG : forall c, before flt (a ++ c) = before flt a /\ behind flt (a ++ c) = behind flt a ++ c).
      { clear - R. induction a as [|y a IH]; [discriminate|]. cbn in *. destruct (raises flt y) eqn:E; [auto|]. cbn in R.
        intros c. destruct (IH R c) as [-> ->]. auto. }
      destruct (GG b) as [E1 E2], (GG (x :: b)) as [E3 E4]. rewrite E3 in E. rewrite E4, filter_app in S. cbn [filter] in S.
      unfold good. rewrite E1, E2, filter_app.
      assert (Nba : ~ In x (before flt a) /\ ~ In x (behind flt a)).
      { rewrite <- (before_behind flt a) in Na. split; intros H; apply Na; apply in_or_app; auto. }
      destruct Nba as [Nb1 Nb2].
      destruct (f_mem x items) eqn:M.
      + apply f_mem_in in M. subst items. apply in_app_or in M. destruct M as [M|M]; [exfalso; apply (Nfil _ Nb1 M)|].
        destruct (in_split _ _ M) as (r1 & r2 & ->).
        assert (Px : passes flt x = true).
        { pose proof (sublist_in _ _ x S M) as X.
          apply in_app_or in X. destruct X as [X|X]; [exfalso; apply (Nfil _ Nb2 X)|].
          destruct (passes flt x) eqn:P; [reflexivity|]. exfalso. apply (Nfil _ Nb X). }
        rewrite Px in S.
        assert (Nr1 : ~ In x r1).
        { assert (ND : NoDup (filter (passes flt) (behind flt a) ++ x :: filter (passes flt) b)).
          { assert (ND0 : NoDup (behind flt a ++ x :: b)).
            { apply nodup_middle. rewrite <- (before_behind flt a), <- app_assoc in N. clear - N Nb Nb2.
              split; [|intros H; apply in_app_or in H; tauto]. induction (before flt a); [exact N|]. cbn in N. inversion N; auto. }
            apply (NoDup_filter (passes flt)) in ND0. rewrite filter_app in ND0. cbn [filter] in ND0. now rewrite Px in ND0. }
          pose proof (sublist_nodup _ _ S ND) as NDr. apply nodup_middle in NDr. intros H. apply (proj2 NDr). apply in_or_app. now left. }
        destruct (Fd (filter (passes flt) (before flt a) ++ r1) r2) as [D _].
        { intros H. apply in_app_or in H. destruct H as [H|H]; [apply (Nfil _ Nb1 H)|contradiction]. }
        rewrite <- !app_assoc in D. rewrite D. exists (r1 ++ r2). split; [reflexivity|].
        eapply sublist_remove2; [exact S|apply (Nfil _ Nb2)|apply (Nfil _ Nb)].
      + exists rest. split; [exact E|]. apply f_mem_not in M.
        assert (Nr : ~ In x rest) by (intros H; apply M; subst items; apply in_or_app; auto).
        destruct (passes flt x); [now apply sublist_remove in S|exact S].
    - apply existsb_quiet in R. destruct (quiet_split flt a b R) as [E1 E2], (quiet_split flt a (x :: b) R) as [E3 E4].
      cbn [before behind] in E3, E4. rewrite Rx in E3, E4. rewrite E4 in S. rewrite E3 in E.
      unfold good. rewrite E1, E2. exists rest. rewrite !filter_app in *. cbn [filter] in E.
      assert (Nbb : ~ In x (before flt b) /\ ~ In x (behind flt b)).
      { rewrite <- (before_behind flt b) in Nb. split; intros H; apply Nb; apply in_or_app; auto. }
      destruct Nbb as [Nb1 Nb2].
      split; [|exact S]. subst items. rewrite <- !app_assoc. destruct (passes flt x) eqn:Px.
      + cbn [app]. destruct (Fd (filter (passes flt) a) (filter (passes flt) (before flt b) ++ rest)) as [-> ->]; [apply (Nfil _ Na)|].
        reflexivity.
      + destruct (f_mem x _) eqn:M; [|reflexivity]. exfalso. apply f_mem_in in M. apply in_app_or in M.
        destruct M as [M|M]; [apply (Nfil _ Na M)|]. apply in_app_or in M. destruct M as [M|M]; [apply (Nfil _ Nb1 M)|].
        apply (sublist_in _ _ x S) in M. apply (Nfil _ Nb2 M).
  Qed.

  Lemma remove_loop_gone l : forall s, f_master s = l -> NoDup l -> (forall x, In x (f_keys s) <-> In x l) ->
    (forall x, In x (f_items s) -> In x l) -> NoDup (f_items s) ->
    exists t, f_remove_loop (rev l) s = (Fs (f_cont s) (f_live s) [] [] [] (f_filter s), t, None).
  Proof.
    induction l as [|x l IH] using rev_ind; intros s M N K I ND.
    - cbn. assert (Ei : f_items s = []) by (destruct (f_items s) as [|y r]; [reflexivity|destruct (I y (or_introl eq_refl))]).
      assert (Ek : f_keys s = []) by (destruct (f_keys s) as [|y r]; [reflexivity|destruct (proj1 (K y) (or_introl eq_refl))]).
      destruct s; cbn in *. subst. eauto.
    - rewrite rev_app_distr. cbn [rev app FiltFail_Model.f_remove_loop].
      assert (D : py_del (f_master s) (Z.of_nat (length (f_master s)) - 1) = Ok l).
      { rewrite py_del_last by (rewrite M; intros H; apply app_eq_nil in H; destruct H; discriminate). rewrite M. now rewrite removelast_last. }
      destruct (removed_result s x _ l D) as (t1 & ->); [apply K; apply in_or_app; right; now left|].
      apply nodup_middle in N. rewrite app_nil_r in N. destruct N as [N Nx].
      set (s1 := Fs _ _ _ _ _ _). destruct (IH s1) as (t2 & E); unfold s1; cbn [f_master f_items f_keys]; auto.
      + intros y. rewrite filter_In, K, in_app_iff. cbn. destruct (eqb y x) eqn:E; cbn.
        * apply eqb_spec in E. subst y. split; [intros [_ ?]; discriminate|contradiction].
        * split; [intros [[?|[->|[]]] _]; [assumption|rewrite eqb_refl in E; discriminate]|auto].
      + intros y Hy. assert (Hin : In y (f_items s) /\ y <> x).
        { destruct (f_mem x (f_items s)) eqn:Mx.
          - apply f_mem_in in Mx. destruct (f_index_split x _ Mx) as (a & b & Ei & Na & En).
            rewrite En, Ei, delete_split in Hy. rewrite Ei in ND. apply nodup_middle in ND. split.
            + rewrite Ei. apply in_app_or in Hy. apply in_or_app. cbn. tauto.
            + intros ->. now apply (proj2 ND).
          - apply f_mem_not in Mx. split; [exact Hy|]. intros ->. contradiction. }
        destruct Hin as [Hin Hne]. apply I in Hin. apply in_app_or in Hin. destruct Hin as [Hin|[->|[]]]; [exact Hin|contradiction].
      + destruct (f_mem x (f_items s)) eqn:Mx; [|exact ND]. apply f_mem_in in Mx.
        destruct (f_index_split x _ Mx) as (a & b & Ei & Na & En). rewrite En, Ei, delete_split. rewrite Ei in ND. now apply nodup_middle in ND.
      + unfold s1 in E. cbn [f_cont f_live f_filter] in E. rewrite E. eauto.
  Qed.

  Lemma insert_loop_prefix flt p : forall s l1 q, f_filter s = flt -> f_master s = p -> f_items s = filter (passes flt) p ->
    (forall x, In x (f_keys s) <-> In x p) -> quiet flt p -> quiet flt l1 -> NoDup (p ++ l1 ++ q) ->
    match q with [] => True | x :: _ => raises flt x = true end ->
    exists s' t e, f_insert_loop (l1 ++ q) (length p) s = (s', t, e) /\ f_cont s' = f_cont s /\ f_live s' = f_live s /\ f_filter s' = flt /\
      f_master s' = p ++ l1 ++ firstn 1 q /\ f_items s' = filter (passes flt) (p ++ l1) /\
      (forall x, In x (f_keys s') <-> In x (p ++ l1 ++ firstn 1 q)) /\ (e = None <-> q = []).
  Proof.
    intros s l1. revert p s. induction l1 as [|x l1 IH]; intros p s q F M I K Qp Q1 N R; cbn [app].
    - destruct q as [|x q]; cbn [FiltFail_Model.f_insert_loop firstn].
      + exists s, [], None. rewrite !app_nil_r. repeat split; auto; apply K.
      + apply nodup_middle in N. destruct N as [N Nx].
        assert (Np : ~ In x p) by (intros H; apply Nx; apply in_or_app; auto).
        destruct (inserted_result s x (Z.of_nat (length p)) p []) as (e & -> & He).
        { rewrite M. pose proof (py_insert_nat p [] x) as P. now rewrite app_nil_r in P. }
        { now rewrite app_nil_r. }
        { now rewrite M. }
        rewrite F in *. unfold showable in *. rewrite (raises_passes flt x R) in *. cbn [andb] in *.
        destruct e as [e|]; [|exfalso; apply (proj2 He); auto].
        do 3 eexists. split; [reflexivity|]. cbn. rewrite app_nil_r. repeat split; auto.
        * intros [->|H]; apply in_or_app; cbn; [auto|]. left. now apply K.
        * intros H. apply in_app_or in H. destruct H as [H|[->|[]]]; [right; now apply K|now left].
        * discriminate.
        * discriminate.
    - cbn [FiltFail_Model.f_insert_loop]. pose proof N as N0. cbn in N. apply nodup_middle in N. destruct N as [N Nx].
      assert (Np : ~ In x p) by (intros H; apply Nx; apply in_or_app; auto).
      destruct (inserted_result s x (Z.of_nat (length p)) p []) as (e & -> & He).
      { rewrite M. pose proof (py_insert_nat p [] x) as P. now rewrite app_nil_r in P. }
      { now rewrite app_nil_r. }
      { now rewrite M. }
      rewrite F in *. assert (Ex : existsb (raises flt) p = false).
      { destruct (existsb (raises flt) p) eqn:E; [|reflexivity]. apply existsb_exists in E. destruct E as (y & Hy & E).
        rewrite (Qp y Hy) in E. discriminate. }
      assert (Rx : raises flt x = false) by (apply Q1; now left).
      destruct e as [e|]; [exfalso; destruct (proj1 He) as [H|[_ H]]; [discriminate|congruence|congruence]|].
      set (s1 := Fs _ _ _ _ _ _).
      destruct (IH (p ++ [x]) s1 q) as (s' & t & e & E & C1 & C2 & C3 & C4 & C5 & C6 & C7); unfold s1; cbn [f_filter f_master f_items f_keys]; auto.
      + unfold showable. rewrite Ex. cbn [negb]. rewrite andb_true_r, filter_app. cbn [filter].
        destruct (passes flt x); [|now rewrite app_nil_r]. rewrite I. pose proof (py_insert_nat (filter (passes flt) p) [] x) as P.
        now rewrite app_nil_r in P.
      + intros y. rewrite in_app_iff. cbn. rewrite K. tauto.
      + intros y Hy. apply in_app_or in Hy. destruct Hy as [Hy|[<-|[]]]; auto.
      + intros y Hy. apply Q1. now right.
      + rewrite <- app_assoc. exact N0.
      + rewrite app_length in E. cbn [length] in E. rewrite Nat.add_1_r in E. unfold s1 in E. rewrite E.
        do 3 eexists. split; [reflexivity|]. rewrite <- !app_assoc in *. unfold s1 in C1, C2. cbn in C1, C2. repeat split; auto; apply C6 || apply C7.
  Qed.
End FiltFailProofs.
