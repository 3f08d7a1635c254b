(** More proofs about lists sorted by keys that raise or cannot be compared: histories. *)
From Coq Require Import List ZArith Bool Arith Permutation Sorted Lia.
From Verif Require Import PyBase Filtered_Model Filtered_Spec Filtered_Proofs Filtered_Proofs2 FiltFail_Proofs.
From Verif Require Import SortFail_Model SortFail_Spec SortFail_Proofs SortFail_Proofs2.
Import ListNotations.

Section Proofs.
  Context {A K : Type} (A_dec : forall a b : A, {a = b} + {a <> b}) (lt : K -> K -> bool) (cls : K -> nat).
  Hypothesis lt_swo : strict_weak_order lt.
  Notation sstate := (sstate A K).
  Notation sop := (sop A K).
  Notation inserted_item := (inserted_item lt cls).
  Notation removed_item := (removed_item A_dec (K := K)).
  Notation updated_item := (updated_item A_dec lt cls).
  Notation update_all := (update_all A_dec lt cls).
  Notation s_step := (s_step A_dec lt cls).
  Notation s_run := (s_run A_dec lt cls).
  Notation agrees := (agrees (A := A) cls).
  Notation sortable := (sortable (A := A) cls).
  Notation in_order := (in_order (A := A) lt).
  Notation tidy := (tidy (A := A) lt cls).
  Implicit Types s : sstate.

  Definition edited s (c listen items : list A) : sstate := Ss c c listen items (s_sorted s) (s_filter s) (s_rev s) (s_key s).

  Lemma insert_step s i x : wf s -> ~ In x (s_cont s) -> exists s1 t1 e1,
    inserted_item (edited s (py_insert i x (s_cont s)) (x :: s_listen s) (s_items s)) x = (s1, t1, e1) /\
    s_step s (SInsert i x) = (s1, match e1 with None => t1 ++ [FSelIns i] | Some _ => t1 end, None).
  Proof.
    intros (M & N & NI & I & L) Hx. cbn [SortFail_Model.s_step]. unfold heard_insert. cbn [s_master s_cont s_listen s_items s_sorted s_filter s_rev s_key].
    rewrite M. rewrite (proj2 (inb_false A_dec x (s_cont s)) Hx). fold (edited s (py_insert i x (s_cont s)) (x :: s_listen s) (s_items s)).
    destruct (inserted_item _ x) as [[s1 t1] e1]. exists s1, t1, e1. split; [reflexivity|]. destruct e1; reflexivity.
  Qed.
  Lemma remove_step s i : wf s ->
    (exists e, s_step s (SRemove i) = (s, [], Some e)) \/
    exists a x b s1 t1, s_cont s = a ++ x :: b /\ py_get (s_cont s) i = Ok x /\ ~ In x (a ++ b) /\
      removed_item (edited s (a ++ b) (remove A_dec x (s_listen s)) (s_items s)) x = (s1, t1) /\
      s_step s (SRemove i) = (s1, t1 ++ [FSelRem i], None).
  Proof.
    intros (M & N & NI & I & L). cbn [SortFail_Model.s_step]. destruct (py_del (s_cont s) i) as [l|e] eqn:D.
    2:{ left. destruct (py_get (s_cont s) i); eauto. }
    destruct (py_del_split (s_cont s) i l D) as (a & x & b & E & -> & G). right.
    rewrite G. unfold heard_remove. cbn [s_master s_cont s_listen s_items s_sorted s_filter s_rev s_key]. rewrite M, D.
    assert (X : In x (s_listen s)). { apply L. rewrite E. apply in_or_app. right. left. reflexivity. }
    rewrite (proj2 (inb_spec A_dec x (s_listen s)) X).
    fold (edited s (a ++ b) (remove A_dec x (s_listen s)) (s_items s)).
    destruct (removed_item _ x) as [s1 t1] eqn:E1. exists a, x, b, s1, t1. rewrite E in N. apply nodup_out in N as [_ N]. auto.
  Qed.
  Lemma change_step s x k m : wf s ->
    (~ In x (s_cont s) /\ s_step s (SChange x k m) = (with_key A_dec s x k m, [], None)) \/
    (In x (s_cont s) /\ exists s1 t1 e1, updated_item (with_key A_dec s x k m) x = (s1, t1, e1) /\ s_step s (SChange x k m) = (s1, t1, None)).
  Proof.
    intros (M & N & NI & I & L). cbn [SortFail_Model.s_step]. rewrite M. destruct (in_dec A_dec x (s_cont s)) as [H|H]; [right|left]; split; try exact H.
    - rewrite (proj2 (inb_spec A_dec x (s_cont s)) H), (proj2 (inb_spec A_dec x (s_listen s)) (proj2 (L x) H)). cbn [andb].
      destruct (updated_item _ x) as [[s1 t1] e1]. exists s1, t1, e1. auto.
    - rewrite (proj2 (inb_false A_dec x (s_cont s)) H). rewrite andb_false_r. reflexivity.
  Qed.

  Lemma put_eta s s' : s' = put_items s (s_items s') -> s_cont s' = s_cont s /\ s_master s' = s_master s /\ s_listen s' = s_listen s /\
    s_filter s' = s_filter s /\ s_rev s' = s_rev s /\ s_key s' = s_key s /\ s_sorted s' = s_sorted s.
  Proof. intros E. rewrite E. simpl. tauto. Qed.
  Lemma perm_in_filter (it : list A) f l : Permutation it (filter f l) -> forall x, In x it -> In x l.
  Proof. intros P x Hx. eapply Permutation_in in Hx; [|exact P]. apply filter_In in Hx. tauto. Qed.

  Lemma wf_rebuilt s it b f r (k : A -> res K) : wf s -> Permutation it (filter f (s_cont s)) -> wf (Ss (s_cont s) (s_master s) (s_listen s) it b f r k).
  Proof.
    intros (M & N & NI & I & L) P. unfold wf. cbn. split; [exact M|]. split; [exact N|]. split; [|split; [eapply perm_in_filter; exact P|exact L]].
    eapply Permutation_NoDup; [symmetry; exact P|]. apply NoDup_filter. exact N.
  Qed.
  Lemma settle_wf s f b key s' t e : wf s -> settle A_dec lt cls s f b key = (s', t, e) -> wf s'.
  Proof.
    intros W E. destruct (settle_spec A_dec lt cls lt_swo s f b key W) as [H1 H2]. destruct (sortable_dec lt cls lt_swo key (s_cont s)) as [S|S].
    - destruct (H1 S) as (it & t1 & E1 & P & _). rewrite E1 in E. injection E as <- _ _. apply wf_rebuilt; assumption.
    - destruct (H2 S) as (e1 & E1). rewrite E1 in E. injection E as <- _ _. exact W.
  Qed.
  Lemma step_wf s o s' t e : wf s -> proper s o -> s_step s o = (s', t, e) -> wf s'.
  Proof.
    intros W P. pose proof W as (M & N & NI & I & L). destruct o as [i x|i|x k m|f|key|b|ord]; cbn [proper] in P.
    - destruct (insert_step s i x W P) as (s1 & t1 & e1 & E1 & ->). intros [= <- _ _].
      assert (Hx : ~ In x (s_items s)) by (intros H; apply P, I, H).
      destruct (inserted_in lt cls lt_swo (edited s (py_insert i x (s_cont s)) (x :: s_listen s) (s_items s)) x s1 t1 e1 NI Hx E1) as (I1 & I2 & _ & I4 & _).
      destruct (put_eta _ _ I1) as (C1 & M1 & L1 & _). cbn [edited s_cont s_master s_listen s_items] in *.
      destruct (py_insert_split i x (s_cont s)) as (a & b & Ea & Ep). unfold wf. rewrite C1, M1, L1, Ep.
      split; [reflexivity|]. split; [rewrite Ea in N, P; apply nodup_insert; assumption|]. split; [exact I2|]. split.
      + intros y Hy. destruct (I4 y Hy) as [H| ->]; [|apply in_or_app; right; left; reflexivity].
        apply I in H. rewrite Ea in H. apply in_app_or in H. apply in_or_app. simpl. tauto.
      + intros y. cbn [In]. rewrite L, Ea, !in_app_iff. simpl. split; intros H; intuition.
    - destruct (remove_step s i W) as [(e1 & ->)|(a & x & b & s1 & t1 & E & G & Nx & E1 & ->)]; intros [= <- _ _]; [exact W|].
      destruct (removed_in A_dec lt cls (edited s (a ++ b) (remove A_dec x (s_listen s)) (s_items s)) x s1 t1 NI E1) as (R1 & R2 & R3 & _).
      destruct (put_eta _ _ R1) as (C1 & M1 & L1 & _). cbn [edited s_cont s_master s_listen s_items] in *.
      unfold wf. rewrite C1, M1, L1. split; [reflexivity|]. split; [rewrite E in N; apply nodup_out in N; tauto|]. split; [exact R2|]. split.
      + intros y Hy. apply R3 in Hy as [Hy Hn]. apply I in Hy. rewrite E in Hy. apply in_app_or in Hy. apply in_or_app. simpl in Hy. destruct Hy as [Hy|[Hy|Hy]]; [auto|congruence|auto].
      + intros y. split.
        * intros H. apply in_remove in H as [H Hn]. apply L in H. rewrite E in H. apply in_app_or in H. apply in_or_app. simpl in H.
          destruct H as [H|[H|H]]; [auto|congruence|auto].
        * intros H. apply in_in_remove; [intros ->; tauto|]. apply L. rewrite E. apply in_app_or in H. apply in_or_app. simpl. tauto.
    - destruct (change_step s x k m W) as [(Hx & ->)|(Hx & s1 & t1 & e1 & E1 & ->)]; intros [= <- _ _]; [exact W|].
      destruct (updated_in A_dec lt cls lt_swo (with_key A_dec s x k m) x s1 t1 e1 NI E1) as (U1 & U2 & U3 & _).
      destruct (put_eta _ _ U1) as (C1 & M1 & L1 & _). cbn [with_key s_cont s_master s_listen s_items] in *.
      unfold wf. rewrite C1, M1, L1. split; [exact M|]. split; [exact N|]. split; [exact U2|]. split; [|exact L].
      intros y Hy. destruct (A_dec y x) as [->|Hn]; [exact Hx|]. apply I, U3; assumption.
    - apply settle_wf. exact W.
    - apply settle_wf. exact W.
    - apply settle_wf. exact W.
    - cbn [SortFail_Model.s_step]. destruct (update_spec A_dec lt cls lt_swo ord s W P) as [H1 H2]. destruct (sortable_dec lt cls lt_swo (s_key s) (s_cont s)) as [S|S].
      + destruct (H1 S) as (it & t1 & E1 & Pi & _). rewrite E1. intros [= <- _ _]. apply wf_rebuilt; assumption.
      + destruct (H2 S) as (e1 & E1). rewrite E1. intros [= <- _ _]. exact W.
  Qed.

  (** an invariant of steps holds after histories *)
  Definition next s o : sstate := fst (fst (s_step s o)).
  Lemma run_inv (J : sstate -> Prop) (P : sstate -> sop -> Prop) :
    (forall s o, J s -> P s o -> J (next s o)) ->
    forall h s, J s -> throughout next P s h -> J (fst (fst (s_run s h))).
  Proof.
    intros H. induction h as [|o h IH]; intros s HJ HP; [exact HJ|]. cbn [throughout] in HP. destruct HP as [H1 H2].
    specialize (IH _ (H s o HJ H1) H2). unfold next in IH. cbn [SortFail_Model.s_run]. destruct (s_step s o) as [[s1 t1] e1]. cbn [fst] in IH.
    destruct (s_run s1 h) as [[s2 t2] e2]. exact IH.
  Qed.
  Lemma throughout_mono (P Q : sstate -> sop -> Prop) : (forall s o, P s o -> Q s o) -> forall h s, throughout next P s h -> throughout next Q s h.
  Proof. intros H. induction h as [|o h IH]; intros s; simpl; [auto|]. intros [H1 H2]. auto. Qed.
  Lemma new_wf (f : A -> bool) b (key : A -> res K) : wf (s_new f b key).
  Proof. repeat split; simpl; auto; try constructor; tauto. Qed.
  Lemma new_tidy f b key : tidy (s_new f b key).
  Proof. split; [split; [intros x []|left; simpl; lia]|]. intros [|? ?] ? ? ? ? ? ? E; discriminate E. Qed.

  (** * Order *)
  Lemma sortable_ext key key' l : (forall x, In x l -> key' x = key x) -> sortable key l -> sortable key' l.
  Proof.
    intros H [S1 S2]. split; [intros x Hx; rewrite (H x Hx); auto|]. destruct S2 as [S2|S2]; [auto|right].
    intros x y Hx Hy. destruct (S2 x y Hx Hy) as (a & b & H1 & H2 & H3). exists a, b. rewrite (H x Hx), (H y Hy). auto.
  Qed.
  Lemma in_order_ext rev key key' l : (forall x, In x l -> key' x = key x) -> in_order rev key l -> in_order rev key' l.
  Proof.
    intros H O l1 x l2 y l3 a b E Ha Hb. rewrite H in Ha. 2:{ rewrite E. apply in_or_app. right. left. reflexivity. }
    rewrite H in Hb. 2:{ rewrite E. apply in_or_app. right. right. apply in_or_app. right. left. reflexivity. }
    eapply O; eassumption.
  Qed.
  Lemma sortable_filter key f (l it : list A) : Permutation it (filter f l) -> sortable key l -> sortable key it.
  Proof.
    intros P S. eapply sortable_sub; [eapply perm_in_filter; exact P| |exact S]. rewrite (Permutation_length P). clear.
    induction l as [|x l IH]; simpl; [lia|]. destruct (f x); simpl; lia.
  Qed.
  Lemma change_tidy s x k m s1 t1 e1 : wf s -> tidy s -> (In x (s_items s) -> m = false \/ k = s_key s x) ->
    updated_item (with_key A_dec s x k m) x = (s1, t1, e1) -> tidy s1.
  Proof.
    intros (M & N & NI & I & L) [S O] H E.
    destruct (in_dec A_dec x (s_items s)) as [Hx|Hx]; [destruct (H Hx) as [-> | ->]|].
    - unfold SortFail_Model.updated_item in E. cbn [with_key s_filter] in E. destruct (A_dec x x) as [_|C]; [|congruence].
      destruct (removed_item (with_key A_dec s x k false) x) as [s2 t2] eqn:E2. injection E as <- _ _.
      destruct (removed_spec A_dec _ _ _ _ E2) as [(_ & l1 & l2 & El & Nl & ->)|(C & _)]; [|simpl in C; tauto].
      cbn [with_key s_items] in El. rewrite El in *. apply nodup_out in NI as [NI1 NI2].
      assert (X : forall y, In y (l1 ++ l2) -> (if A_dec y x then k else s_key s y) = s_key s y).
      { intros y Hy. destruct (A_dec y x) as [->|]; [tauto|reflexivity]. }
      split; cbn [put_items with_key s_items s_key s_rev].
      + apply (sortable_ext (s_key s)); [exact X|]. eapply sortable_sub; [| |exact S]; [|rewrite !app_length; simpl; lia].
        intros y. rewrite !in_app_iff. simpl. tauto.
      + apply (in_order_ext _ (s_key s)); [exact X|]. eapply in_order_sub. exact O.
    - apply (updated_in A_dec lt cls lt_swo (with_key A_dec s x (s_key s x) m) x s1 t1 e1 NI E).
      split; cbn [with_key s_items s_key s_rev]; [apply (sortable_ext (s_key s))|apply (in_order_ext _ (s_key s))]; auto; intros y _; destruct (A_dec y x) as [->|]; reflexivity.
    - apply (updated_in A_dec lt cls lt_swo (with_key A_dec s x k m) x s1 t1 e1 NI E).
      split; cbn [with_key s_items s_key s_rev]; [apply (sortable_ext (s_key s))|apply (in_order_ext _ (s_key s))]; auto; intros y Hy; destruct (A_dec y x) as [->|]; [tauto|reflexivity|tauto|reflexivity].
  Qed.
  Lemma settle_tidy s f b key s' t e : wf s -> (sortable key (s_cont s) \/ (tidy s /\ b = s_rev s /\ key = s_key s)) ->
    settle A_dec lt cls s f b key = (s', t, e) -> tidy s'.
  Proof.
    intros W H E. destruct (settle_spec A_dec lt cls lt_swo s f b key W) as [H1 H2]. destruct (sortable_dec lt cls lt_swo key (s_cont s)) as [S|S].
    - destruct (H1 S) as (it & t1 & E1 & P & O). rewrite E1 in E. injection E as <- _ _. split; [eapply sortable_filter; eassumption|exact O].
    - destruct H as [H|(T & -> & ->)]; [tauto|]. destruct (H2 S) as (e1 & E1). rewrite E1 in E. injection E as <- _ _. exact T.
  Qed.
  Lemma step_tidy s o s' t e : wf s -> tidy s -> proper s o -> steady cls s o -> s_step s o = (s', t, e) -> tidy s'.
  Proof.
    intros W T P Q. pose proof W as (M & N & NI & I & L). destruct o as [i x|i|x k m|f|key|b|ord]; cbn [proper steady] in P, Q.
    - destruct (insert_step s i x W P) as (s1 & t1 & e1 & E1 & ->). intros [= <- _ _].
      assert (Hx : ~ In x (s_items s)) by (intros H; apply P, I, H).
      apply (inserted_in lt cls lt_swo (edited s (py_insert i x (s_cont s)) (x :: s_listen s) (s_items s)) x s1 t1 e1 NI Hx E1). exact T.
    - destruct (remove_step s i W) as [(e1 & ->)|(a & x & b & s1 & t1 & E & G & Nx & E1 & ->)]; intros [= <- _ _]; [exact T|].
      apply (removed_in A_dec lt cls (edited s (a ++ b) (remove A_dec x (s_listen s)) (s_items s)) x s1 t1 NI E1). exact T.
    - destruct (change_step s x k m W) as [(Hx & ->)|(Hx & s1 & t1 & e1 & E1 & ->)]; intros [= <- _ _].
      + assert (X : forall y, In y (s_items s) -> (if A_dec y x then k else s_key s y) = s_key s y).
        { intros y Hy. destruct (A_dec y x) as [->|]; [exfalso; auto|reflexivity]. }
        destruct T as [S O]. split; [apply (sortable_ext (s_key s)); assumption|apply (in_order_ext _ (s_key s)); assumption].
      + eapply change_tidy; eassumption.
    - apply settle_tidy; [exact W|]. right. auto.
    - apply settle_tidy; [exact W|]. left. exact Q.
    - apply settle_tidy; [exact W|]. destruct Q as [->|Q]; [right; auto|left; exact Q].
    - cbn [SortFail_Model.s_step]. destruct (update_spec A_dec lt cls lt_swo ord s W P) as [H1 H2]. destruct (sortable_dec lt cls lt_swo (s_key s) (s_cont s)) as [S|S].
      + destruct (H1 S) as (it & t1 & E1 & Pi & O). rewrite E1. intros [= <- _ _]. split; [eapply sortable_filter; eassumption|]. apply O. intros _. apply T.
      + destruct (H2 S) as (e1 & E1). rewrite E1. intros [= <- _ _]. exact T.
  Qed.

  (** * Keys that can always be compared *)
  Definition uniform (good : A -> Prop) s : Prop :=
    wf s /\ tidy s /\ level cls good (s_key s) /\ (forall x, In x (s_cont s) -> good x) /\
    (forall x, In x (s_items s) <-> In x (s_cont s) /\ s_filter s x = true).
  Lemma level_sortable good key l : level cls good key -> (forall x, In x l -> good x) -> sortable key l.
  Proof. intros H G. split; [|right; intros x y Hx Hy; apply H; auto]. intros x Hx. destruct (H x x) as (a & b & E & _); eauto. Qed.
  Lemma even_steady good s o : uniform good s -> even cls good s o -> steady cls s o.
  Proof.
    intros (W & T & H & G & _) E. destruct o as [i x|i|x k m|f|key|b|ord]; cbn [even steady] in *; auto.
    - tauto.
    - eapply level_sortable; eassumption.
    - right. eapply level_sortable; eassumption.
  Qed.
  Lemma perm_filter_in (it : list A) f l : Permutation it (filter f l) -> forall x, In x it <-> In x l /\ f x = true.
  Proof.
    intros P x. rewrite <- filter_In. split; intros H; [eapply Permutation_in; [exact P|exact H]|eapply Permutation_in; [symmetry; exact P|exact H]].
  Qed.
  Lemma step_uniform good s o : uniform good s -> proper s o /\ even cls good s o -> uniform good (next s o).
  Proof.
    intros U [P E]. pose proof (even_steady good s o U E) as Q. destruct U as (W & T & H & G & F). unfold next.
    destruct (s_step s o) as [[s' t] e] eqn:X. cbn [fst]. pose proof (step_wf _ _ _ _ _ W P X) as W'.
    pose proof (step_tidy _ _ _ _ _ W T P Q X) as T'. split; [exact W'|]. split; [exact T'|]. clear T' W'.
    assert (ST : forall f b key, level cls good key -> settle A_dec lt cls s f b key = (s', t, e) ->
      level cls good (s_key s') /\ (forall x, In x (s_cont s') -> good x) /\ (forall x, In x (s_items s') <-> In x (s_cont s') /\ s_filter s' x = true)).
    { intros f b key Hk Y. destruct (settle_spec A_dec lt cls lt_swo s f b key W) as [H1 _].
      destruct (H1 (level_sortable _ _ _ Hk G)) as (it & t1 & E1 & Pi & _). rewrite E1 in Y. injection Y as <- _ _. cbn.
      split; [exact Hk|]. split; [exact G|]. apply perm_filter_in. exact Pi. }
    pose proof W as (M & N & NI & I & L).
    destruct o as [i x|i|x k m|f|key|b|ord]; cbn [proper even] in P, E.
    - destruct (insert_step s i x W P) as (s1 & t1 & e1 & E1 & Y). rewrite Y in X. injection X as <- _ _.
      assert (Hx : ~ In x (s_items s)) by (intros C; apply P, I, C).
      destruct (inserted_in lt cls lt_swo (edited s (py_insert i x (s_cont s)) (x :: s_listen s) (s_items s)) x s1 t1 e1 NI Hx E1) as (I1 & I2 & I3 & I4 & I5 & I6 & I7).
      destruct (put_eta _ _ I1) as (C1 & _ & _ & F1 & _ & K1 & _). cbn [edited s_cont s_items s_filter s_key] in *. rewrite C1, F1, K1.
      destruct (py_insert_split i x (s_cont s)) as (a & b & Ea & Ep). rewrite Ep. split; [exact H|].
      assert (Q1 : forall y, In y (a ++ x :: b) <-> y = x \/ In y (s_cont s)). { intros y. rewrite Ea, !in_app_iff. simpl. intuition. }
      split. { intros y Hy. apply Q1 in Hy as [->|Hy]; auto. }
      intros y. rewrite Q1. destruct (A_dec y x) as [->|Hn].
      + rewrite (proj2 (I7 T)). split; [tauto|]. intros [_ Hf]. split; [exact Hf|]. destruct (H x x E E) as (ka & kb & Ka & _). split; [eauto|].
        intros y Hy. apply H; [apply G, I; exact Hy|exact E].
      + split.
        * intros Hy. destruct (I4 y Hy) as [Hy'|]; [|tauto]. apply F in Hy'. tauto.
        * intros [[C|Hc] Hf]; [congruence|]. apply I3, F. auto.
    - destruct (remove_step s i W) as [(e1 & Y)|(a & x & b & s1 & t1 & Ec & Gx & Nx & E1 & Y)]; rewrite Y in X; injection X as <- _ _; [auto|].
      destruct (removed_in A_dec lt cls (edited s (a ++ b) (remove A_dec x (s_listen s)) (s_items s)) x s1 t1 NI E1) as (R1 & R2 & R3 & _).
      destruct (put_eta _ _ R1) as (C1 & _ & _ & F1 & _ & K1 & _). cbn [edited s_cont s_items s_filter s_key] in *. rewrite C1, F1, K1.
      split; [exact H|].
      assert (Q1 : forall y, In y (a ++ b) <-> In y (s_cont s) /\ y <> x).
      { intros y. rewrite Ec, !in_app_iff. rewrite in_app_iff in Nx. simpl. split; [intros Z; split; [tauto|intros ->; tauto]|]. intros [[Z|[Z|Z]] Z2]; [auto|congruence|auto]. }
      split; [intros y Hy; apply Q1 in Hy; apply G; tauto|]. intros y. rewrite R3, Q1, F. tauto.
    - destruct E as [E1 E2].
      assert (LK : level cls good (fun y => if A_dec y x then k else s_key s y)).
      { intros y z Hy Hz. destruct (H y z Hy Hz) as (a & b & Ha & Hb & Hc & H0).
        assert (B : exists d, k = Ok d /\ cls d = cls a) by (apply (E2 y); assumption). destruct B as (d & -> & Hd).
        exists (if A_dec y x then d else a), (if A_dec z x then d else b).
        destruct (A_dec y x), (A_dec z x); repeat split; try congruence. }
      destruct (change_step s x k m W) as [(Hx & Y)|(Hx & s1 & t1 & e1 & U & Y)]; rewrite Y in X; injection X as <- _ _.
      + cbn [with_key s_key s_cont s_items s_filter]. split; [exact LK|]. split; [exact G|]. intros y. rewrite F.
        destruct (A_dec y x) as [->|]; [tauto|reflexivity].
      + destruct (updated_in A_dec lt cls lt_swo (with_key A_dec s x k m) x s1 t1 e1 NI U) as (U1 & U2 & U3 & U4 & U5).
        destruct (put_eta _ _ U1) as (C1 & _ & _ & F1 & _ & K1 & _). cbn [with_key s_cont s_items s_filter s_key] in *. rewrite C1, F1, K1.
        split; [exact LK|]. split; [exact G|]. intros y. destruct (A_dec y x) as [->|Hn].
        2:{ rewrite <- U3 by exact Hn. apply F. }
        destruct (A_dec x x) as [_|C]; [|congruence]. destruct m; [|split; [intros C; destruct (U4 eq_refl C)|intros [_ C]; discriminate]].
        split; [intros _; auto|]. intros _.
        destruct (in_dec A_dec x (s_items s)) as [Hi|Hi].
        * destruct (E1 Hi) as [C| ->]; [discriminate|].
          apply U5; [|reflexivity|auto]. destruct T as [S O].
          split; cbn [with_key s_items s_key s_rev]; [apply (sortable_ext (s_key s))|apply (in_order_ext _ (s_key s))]; auto; intros y _; destruct (A_dec y x) as [->|]; reflexivity.
        * apply U5; [|reflexivity|].
          -- destruct T as [S O]. split; cbn [with_key s_items s_key s_rev]; [apply (sortable_ext (s_key s))|apply (in_order_ext _ (s_key s))]; auto; intros y Hy; destruct (A_dec y x) as [->|]; [tauto|reflexivity|tauto|reflexivity].
          -- right. split; [|intros y Hy; apply LK; auto]. destruct (LK x x) as (a & b & Ha & _); auto. destruct (A_dec x x); [eauto|congruence].
    - apply (ST f (s_rev s) (s_key s)); [exact H|exact X].
    - apply (ST (s_filter s) (s_rev s) key); [exact E|exact X].
    - apply (ST (s_filter s) b (s_key s)); [exact H|exact X].
    - cbn [SortFail_Model.s_step] in X. destruct (update_spec A_dec lt cls lt_swo ord s W P) as [H1 _].
      destruct (H1 (level_sortable _ _ _ H G)) as (it & t1 & Y & Pi & _). rewrite Y in X. injection X as <- _ _. cbn.
      split; [exact H|]. split; [exact G|]. apply perm_filter_in. exact Pi.
  Qed.

  (** * One item in the way *)
  Lemma not_agrees s z x : (forall a, s_key s z = Ok a -> cls a = 0) -> ~ agrees (s_key s) z x.
  Proof. intros H (a & b & Ha & _ & _ & C). apply C. apply H. exact Ha. Qed.
  Lemma perm_singleton (it : list A) z f : Permutation it (filter f [z]) -> f z = true -> it = [z].
  Proof. intros P F. simpl in P. rewrite F in P. apply Permutation_sym, Permutation_length_1_inv in P. exact P. Qed.
  Lemma unsortable s z l : In z l -> (forall a, s_key s z = Ok a -> cls a = 0) -> sortable (s_key s) l -> l = [z].
  Proof.
    intros Hz H [_ [S|S]].
    - destruct l as [|y [|w l]]; [destruct Hz| |simpl in S; lia]. destruct Hz as [->|[]]. reflexivity.
    - exfalso. apply (not_agrees s z z H). apply S; exact Hz.
  Qed.
  Lemma step_blocked z s o : wf s /\ blocked cls z s -> proper s o /\ around z s o -> wf (next s o) /\ blocked cls z (next s o).
  Proof.
    intros [W (Z & Fz & B)] [P Q]. unfold next. destruct (s_step s o) as [[s' t] e] eqn:X. cbn [fst].
    split; [eapply step_wf; eassumption|]. pose proof W as (M & N & NI & I & L).
    assert (Zc : In z (s_cont s)). { apply I. rewrite Z. left. reflexivity. }
    assert (ST : forall f b, f z = true -> settle A_dec lt cls s f b (s_key s) = (s', t, e) -> blocked cls z s').
    { intros f b Hf Y. destruct (settle_spec A_dec lt cls lt_swo s f b (s_key s) W) as [H1 H2].
      destruct (sortable_dec lt cls lt_swo (s_key s) (s_cont s)) as [S|S].
      - destruct (H1 S) as (it & t1 & E1 & Pi & _). rewrite E1 in Y. injection Y as <- _ _. rewrite (unsortable s z _ Zc B S) in Pi.
        split; [apply (perm_singleton _ _ f Pi Hf)|]. split; [exact Hf|exact B].
      - destruct (H2 S) as (e1 & E1). rewrite E1 in Y. injection Y as <- _ _. split; [exact Z|]. split; [exact Hf|exact B]. }
    destruct o as [i x|i|x k m|f|key|b|ord]; cbn [proper around] in P, Q.
    - destruct (insert_step s i x W P) as (s1 & t1 & e1 & E1 & Y). rewrite Y in X. injection X as <- _ _.
      assert (U : s1 = edited s (py_insert i x (s_cont s)) (x :: s_listen s) (s_items s)).
      { unfold SortFail_Model.inserted_item in E1. destruct (s_filter _ x); [|injection E1; auto].
        destruct (place_err lt cls (edited s (py_insert i x (s_cont s)) (x :: s_listen s) (s_items s)) (s_items s) x) as (e2 & E2).
        - rewrite Z. discriminate.
        - intros y. rewrite Z. intros [<-|[]]. apply not_agrees. exact B.
        - cbn [edited s_items] in *. rewrite E2 in E1. injection E1; auto. }
      subst s1. split; [exact Z|]. split; [exact Fz|exact B].
    - destruct (remove_step s i W) as [(e1 & Y)|(a & x & b & s1 & t1 & Ec & Gx & Nx & E1 & Y)]; rewrite Y in X; injection X as <- _ _.
      { split; [exact Z|]. split; [exact Fz|exact B]. }
      rewrite Gx in Q. assert (Hn : x <> z) by congruence.
      destruct (removed_spec A_dec _ _ _ _ E1) as [(C & _)|(_ & -> & _)].
      { cbn [edited s_items] in C. rewrite Z in C. destruct C as [C|[]]. congruence. }
      split; [exact Z|]. split; [exact Fz|exact B].
    - assert (B' : forall c : list A, s_items (with_key A_dec s x k m) = c -> c = [z]) by (intros c <-; exact Z).
      assert (BB : blocked cls z (with_key A_dec s x k m)).
      { split; [exact Z|]. cbn [with_key s_filter s_key]. destruct (A_dec z x); [congruence|]. auto. }
      destruct (change_step s x k m W) as [(Hx & Y)|(Hx & s1 & t1 & e1 & U & Y)]; rewrite Y in X; injection X as <- _ _; [exact BB|].
      assert (s1 = with_key A_dec s x k m); [|subst s1; exact BB].
      unfold SortFail_Model.updated_item in U. destruct (s_filter (with_key A_dec s x k m) x).
      + destruct (place_err lt cls (with_key A_dec s x k m) (s_items (with_key A_dec s x k m)) x) as (e2 & E2).
        * cbn [with_key s_items]. rewrite Z. discriminate.
        * intros y. cbn [with_key s_items]. rewrite Z. intros [<-|[]]. apply not_agrees. apply BB.
        * rewrite E2 in U. injection U; auto.
      + destruct (removed_item (with_key A_dec s x k m) x) as [s2 t2] eqn:E2. injection U as <- _ _.
        destruct (removed_spec A_dec _ _ _ _ E2) as [(C & _)|(_ & -> & _)]; [|reflexivity].
        cbn [with_key s_items] in C. rewrite Z in C. destruct C as [C|[]]. congruence.
    - apply (ST f (s_rev s)); [exact Q|exact X].
    - destruct Q.
    - apply (ST (s_filter s) b); [exact Fz|exact X].
    - cbn [SortFail_Model.s_step] in X. destruct (update_spec A_dec lt cls lt_swo ord s W P) as [H1 H2].
      destruct (sortable_dec lt cls lt_swo (s_key s) (s_cont s)) as [S|S].
      + destruct (H1 S) as (it & t1 & E1 & Pi & _). rewrite E1 in X. injection X as <- _ _. rewrite (unsortable s z _ Zc B S) in Pi.
        split; [apply (perm_singleton _ _ _ Pi Fz)|]. split; [exact Fz|exact B].
      + destruct (H2 S) as (e1 & E1). rewrite E1 in X. injection X as <- _ _. split; [exact Z|]. split; [exact Fz|exact B].
  Qed.
End Proofs.
