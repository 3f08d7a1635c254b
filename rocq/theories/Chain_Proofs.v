(** Notifications of a filtered list as seen by a downstream list. *)
From Coq Require Import List ZArith Bool Arith Permutation Sorted Lia.
From Verif Require Import PyBase Filtered_Model Filtered_Spec Filtered_Proofs Filtered_Proofs2 Filtered_Proofs3 Chain_Model Chain_Spec.
Import ListNotations.

Lemma py_insert_nat {A} k (x : A) l : py_insert (Z.of_nat k) x l = insert_at k x l.
Proof.
  unfold py_insert. destruct (le_lt_dec k (length l)) as [H|H]; [rewrite py_insert_pos_nat by exact H; reflexivity|].
  assert (E : py_insert_pos (length l) (Z.of_nat k) = length l) by (unfold py_insert_pos; destruct (Z.ltb_spec (Z.of_nat k) 0); lia).
  rewrite E. unfold insert_at. rewrite !firstn_all2, !skipn_all2 by lia. reflexivity.
Qed.

Section P.
  Context {A C K : Type} (A_dec : forall a b : A, {a = b} + {a <> b}) (lt : K -> K -> bool).
  Notation fstate := (fstate A C K).
  Notation inb := (inb A_dec).
  Notation inv := (inv (A := A) (C := C) (K := K)).
  Notation uns := (uns (A := A) (C := C) (K := K)).
  Notation sor := (sor (A := A) (C := C) lt).

  Definition not_ins (e : fev A) : bool := match e with FIns _ _ => false | _ => true end.
  Definition not_rem (e : fev A) : bool := match e with FRem _ _ => false | _ => true end.
  Definition two_phase (tr : list (fev A)) : Prop :=
    exists t1 t2, tr = t1 ++ t2 /\ forallb not_ins t1 = true /\ forallb not_rem t2 = true.

  Lemma tp_rem tr : forallb not_ins tr = true -> two_phase tr.
  Proof. intros H. exists tr, []. rewrite app_nil_r. auto. Qed.
  Lemma tp_ins tr : forallb not_rem tr = true -> two_phase tr.
  Proof. intros H. exists [], tr. auto. Qed.
  Lemma tp_app t1 t2 : forallb not_ins t1 = true -> forallb not_rem t2 = true -> two_phase (t1 ++ t2).
  Proof. intros H1 H2. exists t1, t2. auto. Qed.

  Lemma inserted_master_nr (s : fstate) x s' tr : inserted_master A_dec lt s x = (s', tr) -> forallb not_rem tr = true.
  Proof.
    unfold inserted_master, do_insert. destruct (0 <? _)%Z; [intros [= <- <-]; reflexivity|].
    destruct (matching s x); intros [= <- <-]; reflexivity.
  Qed.
  Lemma removed_master_ni (s : fstate) x s' tr : removed_master A_dec s x = (s', tr) -> forallb not_ins tr = true.
  Proof.
    unfold removed_master. destruct (0 <? _)%Z; [intros [= <- <-]; reflexivity|].
    destruct (index_of _ _ _); intros [= <- <-]; reflexivity.
  Qed.
  Lemma updated_master_tp (s : fstate) x s' tr : updated_master A_dec lt s x = (s', tr) -> two_phase tr.
  Proof.
    assert (R : remove_then_insert A_dec lt s x = (s', tr) -> two_phase tr).
    { unfold remove_then_insert. destruct (removed_master A_dec s x) as [s1 t1] eqn:E1.
      destruct (inserted_master A_dec lt s1 x) as [s2 t2] eqn:E2. intros [= <- <-].
      apply tp_app; [eapply removed_master_ni; exact E1|eapply inserted_master_nr; exact E2]. }
    assert (Z : (s, @nil (fev A)) = (s', tr) -> two_phase tr) by (intros [= <- <-]; apply tp_ins; reflexivity).
    assert (I : inserted_master A_dec lt s x = (s', tr) -> two_phase tr) by (intros E; apply tp_ins; eapply inserted_master_nr; exact E).
    unfold updated_master. destruct (0 <? _)%Z; [exact Z|]. destruct (matching s x).
    - destruct (fs_key s).
      + destruct (index_of _ _ _); [|exact I]. destruct (_ <? _); [exact R|]. destruct (_ <? _); [exact R|exact Z].
      + destruct (Filtered_Model.inb _ _ _); [exact Z|exact I].
    - intros E. apply tp_rem. eapply removed_master_ni. exact E.
  Qed.

  Lemma rem_loop_ni gone rest : forall idx n (items : list A), forallb not_ins (snd (rem_loop gone rest idx n items)) = true.
  Proof.
    induction rest as [|x rest IH]; intros idx n items; simpl; [reflexivity|]. destruct (gone x); [|apply IH].
    specialize (IH (S idx) (S n) (delete_at (idx - n) items)). destruct (rem_loop _ _ _ _ _). exact IH.
  Qed.
  Lemma ins_loop_nr pos xs : forall items : list A, forallb not_rem (snd (ins_loop pos xs items)) = true.
  Proof.
    induction xs as [|x xs IH]; intros items; simpl; [reflexivity|].
    specialize (IH (insert_at (pos items x) x items)). destruct (ins_loop _ _ _). exact IH.
  Qed.
  Lemma pop_loop_ni old : forall items : list A, forallb not_ins (pop_loop old items) = true.
  Proof. induction old as [|x old IH]; intros items; simpl; [reflexivity|apply IH]. Qed.
  Lemma append_loop_nr new : forall items : list A, forallb not_rem (snd (append_loop new items)) = true.
  Proof.
    induction new as [|x new IH]; intros items; simpl; [reflexivity|].
    specialize (IH (items ++ [x])). destruct (append_loop _ _). exact IH.
  Qed.
  Lemma update_items_tp ord (s : fstate) s' tr e : update_items A_dec lt ord s = (s', tr, e) -> two_phase tr.
  Proof.
    unfold update_items. destruct (0 <? _)%Z; [intros [= <- <- <-]; apply tp_ins; reflexivity|].
    destruct (negb _); [intros [= <- <- <-]; apply tp_ins; reflexivity|].
    destruct (fs_sorted s).
    - match goal with |- context [rem_loop ?g ?r ?i ?n ?l] => pose proof (rem_loop_ni g r i n l) as R; destruct (rem_loop g r i n l) as [it1 t1] end.
      match goal with |- context [ins_loop ?p ?x ?l] => pose proof (ins_loop_nr p x l) as S; destruct (ins_loop p x l) as [it2 t2] end.
      intros [= <- <- <-]. rewrite <- app_assoc. change (FBegin :: t1 ++ t2 ++ [FEnd]) with ((FBegin :: t1) ++ (t2 ++ [FEnd])).
      apply tp_app; [exact R|]. rewrite forallb_app. cbn [snd] in S. rewrite S. reflexivity.
    - match goal with |- context [append_loop ?x ?l] => pose proof (append_loop_nr x l) as S; destruct (append_loop x l) as [it2 t2] end.
      intros [= <- <- <-]. rewrite <- app_assoc.
      match goal with |- two_phase (FBegin :: ?a ++ ?b) => change (FBegin :: a ++ b) with ((FBegin :: a) ++ b) end.
      apply tp_app; [apply pop_loop_ni|]. rewrite forallb_app. cbn [snd] in S. rewrite S. reflexivity.
  Qed.
  Lemma item_inserted_nr (s : fstate) x i s' tr e : item_inserted A_dec lt s x i = (s', tr, e) -> forallb not_rem tr = true.
  Proof.
    unfold item_inserted. destruct (Filtered_Model.inb _ _ _); [intros [= <- <- <-]; reflexivity|].
    destruct (inserted_master _ _ _ x) as [s2 t2] eqn:E. intros [= <- <- <-]. rewrite forallb_app, (inserted_master_nr _ _ _ _ E). reflexivity.
  Qed.
  Lemma item_removed_ni (s : fstate) x i s' tr e : item_removed A_dec s x i = (s', tr, e) -> forallb not_ins tr = true.
  Proof.
    unfold item_removed. destruct (py_del _ _); [|intros [= <- <- <-]; reflexivity].
    destruct (Filtered_Model.inb _ _ _); [|intros [= <- <- <-]; reflexivity].
    destruct (removed_master _ _ x) as [s2 t2] eqn:E. intros [= <- <- <-]. rewrite forallb_app, (removed_master_ni _ _ _ _ E). reflexivity.
  Qed.
  Lemma remove_loop_ni xs : forall (s : fstate) s' tr e, remove_loop A_dec xs s = (s', tr, e) -> forallb not_ins tr = true.
  Proof.
    induction xs as [|x xs IH]; intros s s' tr e; simpl; [intros [= <- <- <-]; reflexivity|].
    destruct (item_removed _ s x _) as [[s1 t1] [e1|]] eqn:E1.
    - intros [= <- <- <-]. eapply item_removed_ni. exact E1.
    - destruct (remove_loop A_dec xs s1) as [[s2 t2] e2] eqn:E2. intros [= <- <- <-].
      rewrite forallb_app, (item_removed_ni _ _ _ _ _ _ E1), (IH _ _ _ _ E2). reflexivity.
  Qed.
  Lemma insert_loop_nr xs : forall idx (s : fstate) s' tr e, insert_loop A_dec lt xs idx s = (s', tr, e) -> forallb not_rem tr = true.
  Proof.
    induction xs as [|x xs IH]; intros idx s s' tr e; simpl; [intros [= <- <- <-]; reflexivity|].
    destruct (item_inserted _ _ s x _) as [[s1 t1] [e1|]] eqn:E1.
    - intros [= <- <- <-]. eapply item_inserted_nr. exact E1.
    - destruct (insert_loop A_dec lt xs (S idx) s1) as [[s2 t2] e2] eqn:E2. intros [= <- <- <-].
      rewrite forallb_app, (item_inserted_nr _ _ _ _ _ _ E1), (IH _ _ _ _ _ E2). reflexivity.
  Qed.
  Lemma attach_nr (s : fstate) c s' tr e : attach A_dec lt s c = (s', tr, e) -> forallb not_rem tr = true.
  Proof.
    unfold attach. destruct c as [l|]; [|intros [= <- <- <-]; reflexivity].
    destruct (insert_loop _ _ l 0 _) as [[s2 t2] e2] eqn:E. intros [= <- <- <-]. simpl. eapply insert_loop_nr. exact E.
  Qed.

  Lemma f_step_tp (s : fstate) o s' tr e : f_step A_dec lt s o = (s', tr, e) -> two_phase tr.
  Proof.
    assert (Z : two_phase []) by (apply tp_ins; reflexivity).
    assert (U : forall s0, reset_and_update A_dec lt s0 = (s', tr, e) -> two_phase tr).
    { intros s0. unfold reset_and_update. destruct (update_items _ _ _ s0) as [[s1 t1] e1] eqn:E1. intros [= <- <- <-].
      apply update_items_tp in E1 as (t2 & t3 & -> & H2 & H3). exists (FReset :: t2), t3. auto. }
    destruct o as [i x|i|x c|f|k|b| |ord|c| | |]; simpl.
    - destruct (fs_cont s) as [l|]; [|intros [= <- <- <-]; exact Z].
      destruct (fs_conn s); [|intros [= <- <- <-]; exact Z]. intros H. apply tp_ins. eapply item_inserted_nr. exact H.
    - destruct (fs_cont s) as [l|]; [|intros [= <- <- <-]; exact Z].
      destruct (py_get l i) as [x|]; [|intros [= <- <- <-]; exact Z].
      destruct (py_del l i) as [l'|]; [|intros [= <- <- <-]; exact Z].
      destruct (fs_conn s); [|intros [= <- <- <-]; exact Z]. intros H. apply tp_rem. eapply item_removed_ni. exact H.
    - destruct (Filtered_Model.inb _ x (fs_listen s)); [|intros [= <- <- <-]; exact Z].
      destruct (Filtered_Model.inb _ x (fs_master s)); [|intros [= <- <- <-]; exact Z].
      destruct (updated_master _ _ _ x) as [s2 t2] eqn:E. intros [= <- <- <-]. eapply updated_master_tp. exact E.
    - apply U.
    - apply U.
    - apply U.
    - intros [= <- <- <-]. exact Z.
    - destruct (fs_level s - 1 =? 0)%Z; [|intros [= <- <- <-]; exact Z]. apply update_items_tp.
    - unfold set_container. destruct (fs_cont s) as [old|].
      + destruct (fs_conn s); [|intros [= <- <- <-]; exact Z].
        destruct (remove_loop _ _ _) as [[s1 t1] [e1|]] eqn:E1.
        * intros [= <- <- <-]. apply tp_rem. eapply remove_loop_ni. exact E1.
        * destruct (attach _ _ s1 c) as [[s2 t2] e2] eqn:E2. intros [= <- <- <-].
          apply tp_app; [eapply remove_loop_ni; exact E1|eapply attach_nr; exact E2].
      + intros E. apply tp_ins. eapply attach_nr. exact E.
    - intros [= <- <- <-]. apply tp_ins. reflexivity.
    - intros [= <- <- <-]. apply tp_ins. reflexivity.
    - intros [= <- <- <-]. apply tp_ins. reflexivity.
  Qed.

  (** ** what a downstream list can rely on *)
  Definition quiet (e : fev A) : bool := not_ins e && not_rem e.
  Inductive feeds : list A -> list (fev A) -> list A -> Prop :=
  | feeds_nil l : feeds l [] l
  | feeds_quiet l e tr l' : quiet e = true -> feeds l tr l' -> feeds l (e :: tr) l'
  | feeds_ins l x k tr l' : ~ In x l -> feeds (insert_at k x l) tr l' -> feeds l (FIns x k :: tr) l'
  | feeds_rem l l1 x l2 tr l' : l = l1 ++ x :: l2 -> feeds (l1 ++ l2) tr l' -> feeds l (FRem x (length l1) :: tr) l'
  | feeds_pop l tr l' : feeds [] tr l' -> feeds l (pop_loop l l ++ tr) l'.

  Lemma feeds_app t1 t2 l l1 l2 : feeds l t1 l1 -> feeds l1 t2 l2 -> feeds l (t1 ++ t2) l2.
  Proof.
    intros H1 H2. induction H1; simpl.
    - exact H2.
    - apply feeds_quiet; auto.
    - apply feeds_ins; auto.
    - eapply feeds_rem; eauto.
    - rewrite <- app_assoc. apply feeds_pop. auto.
  Qed.

  Lemma names_rem_feeds tr : forall l l', f_names l tr l' -> forallb not_ins tr = true -> feeds l tr l'.
  Proof.
    induction tr as [|e tr IH]; intros l l' H Hn; [simpl in H; subst; constructor|].
    cbn [forallb] in Hn. apply andb_prop in Hn as [He Hn].
    destruct e; simpl in H, He; try discriminate; try (apply feeds_quiet; [reflexivity|apply IH; assumption]).
    destruct H as [Hx H]. apply nth_error_split in Hx as (l1 & l2 & -> & <-). rewrite delete_at_app in H.
    eapply feeds_rem; [reflexivity|]. apply IH; assumption.
  Qed.

  Lemma nodup_inserted k (x : A) l : NoDup (insert_at k x l) -> NoDup l /\ ~ In x l.
  Proof.
    intros H. apply (Permutation_NoDup (insert_at_perm k x l)) in H. inversion H; subst. auto.
  Qed.
  Lemma names_ins_nodup tr : forall l l', f_names l tr l' -> forallb not_rem tr = true -> NoDup l' -> NoDup l.
  Proof.
    induction tr as [|e tr IH]; intros l l' H Hn Hd; [simpl in H; subst; exact Hd|].
    cbn [forallb] in Hn. apply andb_prop in Hn as [He Hn].
    destruct e; simpl in H, He; try discriminate; try (eapply IH; eassumption).
    eapply (nodup_inserted k x). eapply IH; eassumption.
  Qed.
  Lemma names_ins_feeds tr : forall l l', f_names l tr l' -> forallb not_rem tr = true -> NoDup l' -> feeds l tr l'.
  Proof.
    induction tr as [|e tr IH]; intros l l' H Hn Hd; [simpl in H; subst; constructor|].
    assert (Hn0 := Hn). cbn [forallb] in Hn. apply andb_prop in Hn as [He Hn].
    destruct e; simpl in H, He; try discriminate; try (apply feeds_quiet; [reflexivity|apply IH; assumption]).
    apply feeds_ins; [|apply IH; assumption]. eapply (nodup_inserted k x). eapply names_ins_nodup; eassumption.
  Qed.

  Lemma f_names_split t1 t2 : forall l l2, f_names l (t1 ++ t2) l2 -> exists l1 : list A, f_names l t1 l1 /\ f_names l1 t2 l2.
  Proof.
    induction t1 as [|e t1 IH]; intros l l2 H; [exists l; split; [reflexivity|exact H]|].
    destruct e; simpl in H |- *; try (apply IH; exact H).
    destruct H as [Hx H]. destruct (IH _ _ H) as (l1 & H1 & H2). exists l1. auto.
  Qed.

  Lemma named_feeds l tr l' : f_names l tr l' -> two_phase tr -> NoDup l' -> feeds l tr l'.
  Proof.
    intros H (t1 & t2 & -> & H1 & H2) Hd. apply f_names_split in H as (l1 & Ha & Hb).
    eapply feeds_app; [apply names_rem_feeds; eassumption|apply names_ins_feeds; assumption].
  Qed.

  Lemma unsorted_update_feeds ord (s : fstate) s' tr e :
    update_items A_dec lt ord s = (s', tr, e) -> fs_sorted s = false -> NoDup (fs_items s') -> feeds (fs_items s) tr (fs_items s').
  Proof.
    unfold update_items. destruct (0 <? _)%Z; [intros [= <- <- <-] _ _; constructor|].
    destruct (negb _); [intros [= <- <- <-] _ _; constructor|]. intros E Hs Hd. rewrite Hs in E.
    pose proof (append_loop_nr (build_items lt s) []) as Hn.
    destruct (append_loop (build_items lt s) []) as [it2 t2] eqn:E2. injection E as <- <- <-.
    destruct (append_loop_follows _ _ _ _ E2) as [H3 _]. cbn [fs_items with_sorted with_items] in *.
    apply feeds_quiet; [reflexivity|]. rewrite <- app_assoc. apply feeds_pop.
    eapply feeds_app; [apply names_ins_feeds; [exact H3|exact Hn|exact Hd]|]. apply feeds_quiet; [reflexivity|constructor].
  Qed.

  (** every step of a filtered list feeds a downstream list *)
  Lemma step_feeds (s : fstate) o s' tr e :
    f_step A_dec lt s o = (s', tr, e) -> NoDup (fs_items s') -> feeds (fs_items s) tr (fs_items s').
  Proof.
    intros E Hd. pose proof (f_step_tp _ _ _ _ _ E) as Ht. destruct (f_step_trace A_dec lt _ _ _ _ _ E) as (_ & Hn & _).
    assert (U : forall s0, fs_sorted s0 = false -> fs_items s0 = fs_items s -> reset_and_update A_dec lt s0 = (s', tr, e) ->
      feeds (fs_items s) tr (fs_items s')).
    { intros s0 Hs Hi. unfold reset_and_update. destruct (update_items _ _ _ s0) as [[s1 t1] e1] eqn:E1. intros [= <- <- <-].
      apply feeds_quiet; [reflexivity|]. rewrite <- Hi. eapply unsorted_update_feeds; eassumption. }
    destruct o as [i x|i|x c|f|k|b| |ord|c| | |]; try solve [apply named_feeds; [apply Hn; intros []|exact Ht|exact Hd]].
    - refine (U (with_settings s _ _ _) _ _ E); reflexivity.
    - refine (U (with_settings s _ _ _) _ _ E); reflexivity.
    - refine (U (with_settings s _ _ _) _ _ E); reflexivity.
    - destruct (fs_sorted s) eqn:Es; [apply named_feeds; [apply Hn; simpl; congruence|exact Ht|exact Hd]|].
      cbn [f_step] in E. destruct (_ =? 0)%Z; [|injection E as <- <- <-; constructor].
      change (fs_items s) with (fs_items (with_level s (fs_level s - 1))). eapply unsorted_update_feeds; eassumption.
  Qed.
End P.
