From Coq Require Import List ZArith Bool Arith Permutation Lia.
From Verif Require Import PyBase Flattened_Model Flattened_Spec.
Import ListNotations.

Section F.
  Context {M X : Type} (M_dec : forall a b : M, {a = b} + {a <> b}).
  Notation flstate := (flstate M X).
  Notation flev := (flev X).
  Notation upd := (upd M_dec).
  Notation fl_offset := (fl_offset M_dec).

  Lemma upd_eq (f : M -> list X) m l : upd f m l m = l.
  Proof. unfold Flattened_Model.upd. destruct (M_dec m m); congruence. Qed.
  Lemma upd_neq (f : M -> list X) m l m' : m' <> m -> upd f m l m' = f m'.
  Proof. unfold Flattened_Model.upd. destruct (M_dec m' m); congruence. Qed.
  Lemma flat_map_upd (f : M -> list X) m l ms : ~ In m ms -> flat_map (upd f m l) ms = flat_map f ms.
  Proof.
    induction ms as [|a ms IH]; simpl; intros H; [reflexivity|]. rewrite upd_neq by (intros ->; apply H; auto).
    rewrite IH by tauto. reflexivity.
  Qed.
  Lemma offset_split (ch : M -> list X) m ms1 ms2 : ~ In m ms1 ->
    fl_offset ch m (ms1 ++ m :: ms2) = length (flat_map ch ms1).
  Proof.
    induction ms1 as [|a ms1 IH]; simpl; intros H.
    - destruct (M_dec m m); congruence.
    - destruct (M_dec a m); [subst; exfalso; apply H; auto|]. rewrite IH by tauto. rewrite app_length. reflexivity.
  Qed.
  Lemma fl_in_spec m (l : list M) : fl_in M_dec m l = true <-> In m l.
  Proof. unfold fl_in. destruct (in_dec M_dec m l); intuition congruence. Qed.
  Lemma fl_in_false m (l : list M) : fl_in M_dec m l = false <-> ~ In m l.
  Proof. unfold fl_in. destruct (in_dec M_dec m l); intuition congruence. Qed.

  Lemma fl_observes_app t1 t2 (l l1 l2 : list X) : fl_observes l t1 l1 -> fl_observes l1 t2 l2 -> fl_observes l (t1 ++ t2) l2.
  Proof.
    revert l. induction t1 as [|e t1 IH]; simpl; intros l H1 H2; [subst; exact H2|].
    destruct e; try (apply IH; assumption). destruct H1 as (Hg & l0 & Hd & H1). split; [exact Hg|]. exists l0. auto.
  Qed.

  (** internal consistency, apart from the link with the container and the kids *)
  Record fl_ok (s : flstate) : Prop := {
    ok_nodup : NoDup (fl_master s);
    ok_listen : forall m, In m (fl_listen s) <-> In m (fl_master s);
    ok_out : forall m, ~ In m (fl_master s) -> fl_children s m = [];
    ok_items : fl_items s = flat_map (fl_children s) (fl_master s) }.

  (** the parts a child edit leaves alone *)
  Definition same_frame (s s' : flstate) : Prop :=
    fl_cont s' = fl_cont s /\ fl_kids s' = fl_kids s /\ fl_master s' = fl_master s /\ fl_listen s' = fl_listen s.
  Lemma same_frame_trans s1 s2 s3 : same_frame s1 s2 -> same_frame s2 s3 -> same_frame s1 s3.
  Proof. intros (?&?&?&?) (?&?&?&?). repeat split; congruence. Qed.

  Lemma py_insert_at (l1 l2 : list X) x : py_insert (Z.of_nat (length l1)) x (l1 ++ l2) = l1 ++ x :: l2.
  Proof. unfold py_insert. rewrite py_insert_pos_nat by (rewrite app_length; lia). apply insert_at_app. Qed.
  Lemma py_del_at {T} (l1 l2 : list T) x : py_del (l1 ++ x :: l2) (Z.of_nat (length l1)) = Ok (l1 ++ l2).
  Proof. unfold py_del. rewrite py_index_nat by (rewrite app_length; simpl; lia). rewrite delete_at_app. reflexivity. Qed.
  Lemma py_get_at {T} (l1 l2 : list T) x : py_get (l1 ++ x :: l2) (Z.of_nat (length l1)) = Ok x.
  Proof.
    unfold py_get. rewrite py_index_nat by (rewrite app_length; simpl; lia).
    rewrite nth_error_app2, Nat.sub_diag by lia. reflexivity.
  Qed.

  Lemma child_inserted_lemma (s : flstate) m x c1 c2 s' tr :
    child_inserted M_dec s m x (Z.of_nat (length c1)) = (s', tr) -> fl_ok s -> In m (fl_master s) ->
    fl_children s m = c1 ++ c2 ->
    exists p q, fl_items s = p ++ q /\ fl_items s' = p ++ x :: q /\ same_frame s s' /\ fl_ok s' /\
      fl_children s' = upd (fl_children s) m (c1 ++ x :: c2) /\
      fl_observes (fl_items s) tr (fl_items s') /\
      tr = [LfIns x (Z.of_nat (length p)); LfSelIns (Z.of_nat (length c1))] /\
      length p = fl_offset (fl_children s) m (fl_master s) + length c1.
  Proof.
    intros E [Nd Li Ou It] Hm Hc. apply in_split in Hm as (ms1 & ms2 & Em).
    assert (Hn1 : ~ In m ms1 /\ ~ In m ms2).
    { rewrite Em in Nd. pose proof (NoDup_remove_2 _ _ _ Nd) as H. rewrite in_app_iff in H. tauto. }
    destruct Hn1 as [Hn1 Hn2].
    assert (Eo : fl_offset (fl_children s) m (fl_master s) = length (flat_map (fl_children s) ms1)) by (rewrite Em; apply offset_split; exact Hn1).
    set (p := flat_map (fl_children s) ms1 ++ c1). set (q := c2 ++ flat_map (fl_children s) ms2).
    assert (Ei : fl_items s = p ++ q).
    { rewrite It, Em, flat_map_app. simpl. rewrite Hc. unfold p, q. rewrite <- !app_assoc. reflexivity. }
    unfold child_inserted in E. rewrite Eo, Hc, py_insert_at, Ei in E.
    replace (Z.of_nat (length (flat_map (fl_children s) ms1)) + Z.of_nat (length c1))%Z with (Z.of_nat (length p)) in E
      by (unfold p; rewrite app_length; lia).
    rewrite py_insert_at in E. injection E as <- <-. exists p, q. simpl.
    assert (Ei' : p ++ x :: q = flat_map (upd (fl_children s) m (c1 ++ x :: c2)) (fl_master s)).
    { rewrite Em, flat_map_app. simpl. rewrite upd_eq, !flat_map_upd by assumption. unfold p, q. rewrite <- !app_assoc. reflexivity. }
    split; [exact Ei|]. split; [reflexivity|]. split; [repeat split|]. split.
    { split; simpl; [exact Nd|exact Li| |exact Ei']. intros m' H. rewrite upd_neq; [apply Ou; exact H|]. intros ->. apply H. rewrite Em.
      apply in_app_iff. right. left. reflexivity. }
    split; [reflexivity|]. split; [rewrite Ei, py_insert_at; reflexivity|]. split; [reflexivity|].
    rewrite Eo. unfold p. rewrite app_length. reflexivity.
  Qed.

  Lemma child_removed_lemma (s : flstate) m x c1 c2 s' tr e :
    child_removed M_dec s m x (Z.of_nat (length c1)) = (s', tr, e) -> fl_ok s -> In m (fl_master s) ->
    fl_children s m = c1 ++ x :: c2 ->
    exists p q, fl_items s = p ++ x :: q /\ fl_items s' = p ++ q /\ same_frame s s' /\ fl_ok s' /\
      fl_children s' = upd (fl_children s) m (c1 ++ c2) /\
      fl_observes (fl_items s) tr (fl_items s') /\
      tr = [LfRem x (Z.of_nat (length p)); LfSelRem (Z.of_nat (length p))] /\ e = None /\
      length p = fl_offset (fl_children s) m (fl_master s) + length c1.
  Proof.
    intros E [Nd Li Ou It] Hm Hc. apply in_split in Hm as (ms1 & ms2 & Em).
    assert (Hn1 : ~ In m ms1 /\ ~ In m ms2).
    { rewrite Em in Nd. pose proof (NoDup_remove_2 _ _ _ Nd) as H. rewrite in_app_iff in H. tauto. }
    destruct Hn1 as [Hn1 Hn2].
    assert (Eo : fl_offset (fl_children s) m (fl_master s) = length (flat_map (fl_children s) ms1)) by (rewrite Em; apply offset_split; exact Hn1).
    set (p := flat_map (fl_children s) ms1 ++ c1). set (q := c2 ++ flat_map (fl_children s) ms2).
    assert (Ei : fl_items s = p ++ x :: q).
    { rewrite It, Em, flat_map_app. simpl. rewrite Hc. unfold p, q. rewrite <- !app_assoc. reflexivity. }
    unfold child_removed in E. rewrite Eo, Hc, py_del_at, Ei in E.
    replace (Z.of_nat (length (flat_map (fl_children s) ms1)) + Z.of_nat (length c1))%Z with (Z.of_nat (length p)) in E
      by (unfold p; rewrite app_length; lia).
    rewrite py_del_at in E. injection E as <- <- <-. exists p, q. simpl.
    assert (Ei' : p ++ q = flat_map (upd (fl_children s) m (c1 ++ c2)) (fl_master s)).
    { rewrite Em, flat_map_app. simpl. rewrite upd_eq, !flat_map_upd by assumption. unfold p, q. rewrite <- !app_assoc. reflexivity. }
    split; [exact Ei|]. split; [reflexivity|]. split; [repeat split|]. split.
    { split; simpl; [exact Nd|exact Li| |exact Ei']. intros m' H. rewrite upd_neq; [apply Ou; exact H|]. intros ->. apply H. rewrite Em.
      apply in_app_iff. right. left. reflexivity. }
    split; [reflexivity|]. split; [rewrite Ei, py_get_at; split; [reflexivity|]; exists (p ++ q); split; [apply py_del_at|reflexivity]|].
    split; [reflexivity|]. split; [reflexivity|]. rewrite Eo. unfold p. rewrite app_length. reflexivity.
  Qed.

  Lemma ch_insert_loop_lemma m xs : forall idx (s : flstate) s' tr,
    ch_insert_loop M_dec m xs idx s = (s', tr) -> fl_ok s -> In m (fl_master s) -> length (fl_children s m) = idx ->
    fl_ok s' /\ same_frame s s' /\ fl_children s' m = fl_children s m ++ xs /\
    (forall m', m' <> m -> fl_children s' m' = fl_children s m') /\ fl_observes (fl_items s) tr (fl_items s').
  Proof.
    induction xs as [|x xs IH]; intros idx s s' tr; cbn [ch_insert_loop].
    - intros [= <- <-] Hok Hm _. rewrite app_nil_r. split; [exact Hok|]. repeat split.
    - intros E Hok Hm Hl. destruct (child_inserted M_dec s m x (Z.of_nat idx)) as [s1 t1] eqn:E1.
      destruct (ch_insert_loop M_dec m xs (S idx) s1) as [s2 t2] eqn:E2. injection E as <- <-. rewrite <- Hl in E1.
      destruct (child_inserted_lemma _ _ _ _ [] _ _ E1 Hok Hm ltac:(rewrite app_nil_r; reflexivity))
        as (p & q & _ & _ & Fr & Ok1 & Ch & Ob & _).
      assert (Fr' := Fr). destruct Fr' as (_ & _ & Fm & _).
      destruct (IH _ _ _ _ E2 Ok1) as (Ok2 & Fr2 & Ch2 & Oth & Ob2).
      { rewrite Fm. exact Hm. } { rewrite Ch, upd_eq, app_length. simpl. lia. }
      split; [exact Ok2|]. split; [eapply same_frame_trans; eassumption|].
      split; [rewrite Ch2, Ch, upd_eq, <- app_assoc; reflexivity|].
      split; [intros m' H; rewrite Oth, Ch, upd_neq by exact H; reflexivity|]. eapply fl_observes_app; eassumption.
  Qed.

  Lemma ch_remove_loop_lemma m xs : forall (s : flstate) s' tr e,
    ch_remove_loop M_dec m xs s = (s', tr, e) -> fl_ok s -> In m (fl_master s) -> fl_children s m = rev xs ->
    e = None /\ fl_ok s' /\ same_frame s s' /\ fl_children s' m = [] /\
    (forall m', m' <> m -> fl_children s' m' = fl_children s m') /\ fl_observes (fl_items s) tr (fl_items s').
  Proof.
    induction xs as [|x xs IH]; intros s s' tr e; cbn [ch_remove_loop].
    - intros [= <- <- <-] Hok Hm Hc. simpl in Hc. split; [reflexivity|]. split; [exact Hok|]. repeat split. exact Hc.
    - intros E Hok Hm Hc. simpl in Hc. rewrite <- (rev_length xs) in E.
      destruct (child_removed M_dec s m x (Z.of_nat (length (rev xs)))) as [[s1 t1] e1] eqn:E1.
      destruct (child_removed_lemma _ _ _ _ [] _ _ _ E1 Hok Hm Hc) as (p & q & _ & _ & Fr & Ok1 & Ch & Ob & _ & -> & _).
      destruct (ch_remove_loop M_dec m xs s1) as [[s2 t2] e2] eqn:E2. injection E as <- <- <-.
      assert (Fr' := Fr). destruct Fr' as (_ & _ & Fm & _).
      destruct (IH _ _ _ _ E2 Ok1) as (-> & Ok2 & Fr2 & Ch2 & Oth & Ob2).
      { rewrite Fm. exact Hm. } { rewrite Ch, upd_eq, app_nil_r. reflexivity. }
      split; [reflexivity|]. split; [exact Ok2|]. split; [eapply same_frame_trans; eassumption|]. split; [exact Ch2|].
      split; [intros m' H; rewrite Oth, Ch, upd_neq by exact H; reflexivity|]. eapply fl_observes_app; eassumption.
  Qed.

  (** children of the masters listed are the objects' own children *)
  Definition fl_synced (s : flstate) : Prop := forall m, In m (fl_master s) -> fl_children s m = fl_kids s m.

  Lemma py_insert_perm_in {T} i (x : T) l : Permutation (py_insert i x l) (x :: l).
  Proof.
    unfold py_insert, insert_at. rewrite <- Permutation_middle, firstn_skipn. reflexivity.
  Qed.

  Lemma master_inserted_lemma (s : flstate) m i s' tr e :
    master_inserted M_dec s m i = (s', tr, e) -> fl_ok s -> fl_synced s -> ~ In m (fl_master s) ->
    e = None /\ fl_ok s' /\ fl_synced s' /\ fl_cont s' = fl_cont s /\ fl_kids s' = fl_kids s /\
    fl_master s' = py_insert i m (fl_master s) /\ fl_observes (fl_items s) tr (fl_items s').
  Proof.
    intros E [Nd Li Ou It] Sy Hm. unfold master_inserted in E. rewrite (proj2 (fl_in_false _ _) Hm) in E.
    set (s1 := Fl _ _ _ _ _ _) in E.
    destruct (ch_insert_loop M_dec m (fl_kids s m) 0 s1) as [s2 t2] eqn:E2. injection E as <- <- <-.
    assert (Hp : Permutation (fl_master s1) (m :: fl_master s)) by apply py_insert_perm_in.
    assert (Hin : forall m', In m' (fl_master s1) <-> m' = m \/ In m' (fl_master s)).
    { intros m'. rewrite Hp. simpl. intuition congruence. }
    assert (Ok1 : fl_ok s1).
    { split.
      - eapply Permutation_NoDup; [symmetry; exact Hp|]. constructor; assumption.
      - intros m'. rewrite Hin. simpl. rewrite Li. intuition congruence.
      - intros m' H. apply Ou. intros Hi. apply H, Hin. auto.
      - simpl. rewrite It. unfold s1; simpl. unfold py_insert, insert_at.
        rewrite flat_map_app. simpl. rewrite (Ou m Hm). simpl. rewrite <- flat_map_app, firstn_skipn. reflexivity. }
    destruct (ch_insert_loop_lemma _ _ _ _ _ _ E2 Ok1) as (Ok2 & (F1 & F2 & F3 & F4) & Ch & Oth & Ob).
    { apply Hin. auto. } { simpl. rewrite (Ou m Hm). reflexivity. }
    split; [reflexivity|]. split; [exact Ok2|]. split.
    { intros m' H. rewrite F2. simpl. destruct (M_dec m' m) as [->|Hne]; [rewrite Ch; simpl; rewrite (Ou m Hm); reflexivity|].
      rewrite Oth by exact Hne. simpl. apply Sy. rewrite F3 in H. apply Hin in H. tauto. }
    split; [exact F1|]. split; [exact F2|]. split; [exact F3|]. exact Ob.
  Qed.

  Lemma master_removed_lemma (s : flstate) m i ms1 ms2 s' tr e :
    master_removed M_dec s m i = (s', tr, e) -> fl_ok s -> fl_synced s ->
    fl_master s = ms1 ++ m :: ms2 -> py_del (fl_master s) i = Ok (ms1 ++ ms2) ->
    e = None /\ fl_ok s' /\ fl_synced s' /\ fl_cont s' = fl_cont s /\ fl_kids s' = fl_kids s /\
    fl_master s' = ms1 ++ ms2 /\ fl_observes (fl_items s) tr (fl_items s').
  Proof.
    intros E Hok Sy Em Hd. unfold master_removed in E.
    destruct (ch_remove_loop M_dec m (rev (fl_kids s m)) s) as [[s1 t1] e1] eqn:E1.
    assert (Hm : In m (fl_master s)) by (rewrite Em; apply in_app_iff; right; left; reflexivity).
    destruct (ch_remove_loop_lemma _ _ _ _ _ _ E1 Hok Hm) as (-> & Ok1 & (F1 & F2 & F3 & F4) & Ch & Oth & Ob).
    { rewrite rev_involutive. apply Sy, Hm. }
    rewrite F3, Hd in E. cbv zeta in E. rewrite (proj2 (fl_in_spec m (fl_listen s1))) in E by (rewrite F4; apply (ok_listen s Hok); exact Hm).
    injection E as <- <- <-.
    destruct Hok as [Nd Li Ou It]. assert (Hno : ~ In m (ms1 ++ ms2)) by (rewrite Em in Nd; apply NoDup_remove_2 in Nd; exact Nd).
    split; [rewrite (proj2 (fl_in_false _ _) Hno); reflexivity|].
    destruct Ok1 as [Nd1 Li1 Ou1 It1]. split.
    { split; simpl.
      - rewrite Em in Nd. apply NoDup_remove_1 in Nd. exact Nd.
      - intros m'. split.
        + intros H. apply in_remove in H as [H Hne]. apply Li1 in H. rewrite F3, Em in H. apply in_app_iff in H as [H|[H|H]]; [|congruence|];
            apply in_app_iff; auto.
        + intros H. apply in_in_remove; [intros ->; contradiction|]. apply Li1. rewrite F3, Em. apply in_app_iff in H. apply in_app_iff. simpl. tauto.
      - intros m' H. destruct (M_dec m' m) as [->|Hne]; [exact Ch|]. apply Ou1. rewrite F3, Em. rewrite in_app_iff in *. simpl.
        intros [H1|[H1|H1]]; [tauto|congruence|tauto].
      - rewrite It1, F3, Em, !flat_map_app. simpl. rewrite Ch. reflexivity. }
    split; [|simpl; repeat split; assumption].
    intros m' H. simpl in *. assert (m' <> m) by (intros ->; contradiction). rewrite Oth by assumption. rewrite F2. apply Sy.
    rewrite Em. apply in_app_iff in H. apply in_app_iff. simpl. tauto.
  Qed.

  Lemma fl_remove_loop_lemma ms : forall (s : flstate) s' tr e,
    fl_remove_loop M_dec ms s = (s', tr, e) -> fl_ok s -> fl_synced s -> fl_master s = rev ms ->
    e = None /\ fl_ok s' /\ fl_synced s' /\ fl_kids s' = fl_kids s /\ fl_master s' = [] /\ fl_observes (fl_items s) tr (fl_items s').
  Proof.
    induction ms as [|m ms IH]; intros s s' tr e; cbn [fl_remove_loop].
    - intros [= <- <- <-] Hok Sy Hm. simpl in Hm. split; [reflexivity|]. split; [exact Hok|]. split; [exact Sy|]. repeat split. exact Hm.
    - intros E Hok Sy Hm. simpl in Hm.
      destruct (master_removed M_dec s m _) as [[s1 t1] e1] eqn:E1.
      destruct (master_removed_lemma _ _ _ (rev ms) [] _ _ _ E1 Hok Sy Hm) as (-> & Ok1 & Sy1 & _ & K1 & M1 & Ob1).
      { rewrite Hm, app_length. simpl. replace (Z.of_nat (length (rev ms) + 1) - 1)%Z with (Z.of_nat (length (rev ms))) by lia. apply py_del_at. }
      destruct (fl_remove_loop M_dec ms s1) as [[s2 t2] e2] eqn:E2. injection E as <- <- <-. rewrite app_nil_r in M1.
      destruct (IH _ _ _ _ E2 Ok1 Sy1 M1) as (-> & Ok2 & Sy2 & K2 & M2 & Ob2).
      split; [reflexivity|]. split; [exact Ok2|]. split; [exact Sy2|]. split; [congruence|]. split; [exact M2|].
      eapply fl_observes_app; eassumption.
  Qed.

  Lemma fl_insert_loop_lemma ms : forall idx (s : flstate) s' tr e,
    fl_insert_loop M_dec ms idx s = (s', tr, e) -> fl_ok s -> fl_synced s -> length (fl_master s) = idx ->
    NoDup (fl_master s ++ ms) ->
    e = None /\ fl_ok s' /\ fl_synced s' /\ fl_cont s' = fl_cont s /\ fl_kids s' = fl_kids s /\
    fl_master s' = fl_master s ++ ms /\ fl_observes (fl_items s) tr (fl_items s').
  Proof.
    induction ms as [|m ms IH]; intros idx s s' tr e; cbn [fl_insert_loop].
    - intros [= <- <- <-] Hok Sy _ _. rewrite app_nil_r. split; [reflexivity|]. split; [exact Hok|]. split; [exact Sy|]. repeat split.
    - intros E Hok Sy Hl Hnd. destruct (master_inserted M_dec s m (Z.of_nat idx)) as [[s1 t1] e1] eqn:E1.
      destruct (master_inserted_lemma _ _ _ _ _ _ E1 Hok Sy) as (-> & Ok1 & Sy1 & C1 & K1 & M1 & Ob1).
      { apply NoDup_remove_2 in Hnd. intros H. apply Hnd, in_app_iff. auto. }
      assert (M1' : fl_master s1 = fl_master s ++ [m]).
      { rewrite M1. unfold py_insert. rewrite py_insert_pos_nat by lia. rewrite <- Hl.
        rewrite <- (app_nil_r (fl_master s)) at 2. rewrite insert_at_app. reflexivity. }
      destruct (fl_insert_loop M_dec ms (S idx) s1) as [[s2 t2] e2] eqn:E2. injection E as <- <- <-.
      destruct (IH _ _ _ _ _ E2 Ok1 Sy1) as (-> & Ok2 & Sy2 & C2 & K2 & M2 & Ob2).
      { rewrite M1', app_length. simpl. lia. } { rewrite M1', <- app_assoc. exact Hnd. }
      split; [reflexivity|]. split; [exact Ok2|]. split; [exact Sy2|]. split; [congruence|]. split; [congruence|].
      split; [rewrite M2, M1', <- app_assoc; reflexivity|]. eapply fl_observes_app; eassumption.
  Qed.

  (** the whole invariant *)
  Definition fl_inv (s : flstate) : Prop := fl_ok s /\ fl_synced s /\ fl_master s = masters s.

  Lemma fl_inv_items s : fl_inv s -> fl_items s = flat_map (fl_kids s) (masters s).
  Proof.
    intros ([_ _ _ It] & Sy & <-). rewrite It. rewrite !flat_map_concat_map. f_equal. apply map_ext_in. exact Sy.
  Qed.

  Lemma with_kids_ok s f : fl_ok s -> fl_ok (with_kids s f).
  Proof. intros []. split; assumption. Qed.

  Lemma fl_step_lemma (s : flstate) o s' tr e :
    fl_step M_dec s o = (s', tr, e) -> fl_inv s -> fl_proper s o ->
    fl_inv s' /\ fl_observes (fl_items s) tr (fl_items s').
  Proof.
    intros E Hinv Ho. pose proof Hinv as (Hok & Sy & Hma).
    destruct o as [i m|i|m i x|m i|c]; cbn [fl_step fl_proper] in *.
    - unfold masters in *. destruct (fl_cont s) as [l|] eqn:Ec; [|injection E as <- <- <-; split; [exact Hinv|reflexivity]].
      apply master_inserted_lemma in E; [|destruct Hok; split; assumption|exact Sy|simpl; rewrite Hma; exact Ho].
      destruct E as (_ & Ok1 & Sy1 & C1 & K1 & M1 & Ob1). split; [|exact Ob1].
      split; [exact Ok1|]. split; [exact Sy1|]. unfold masters. rewrite C1, M1. simpl. rewrite Hma. reflexivity.
    - unfold masters in *. destruct (fl_cont s) as [l|] eqn:Ec; [|injection E as <- <- <-; split; [exact Hinv|reflexivity]].
      destruct (py_get l i) as [m|] eqn:Eg; [|injection E as <- <- <-; split; [exact Hinv|reflexivity]].
      destruct (py_del l i) as [l'|] eqn:Ed; [|injection E as <- <- <-; split; [exact Hinv|reflexivity]].
      assert (Hs : exists l1 l2, l = l1 ++ m :: l2 /\ l' = l1 ++ l2).
      { unfold py_get in Eg. unfold py_del in Ed. destruct (py_index (length l) i) as [k|]; [|discriminate].
        destruct (nth_error l k) as [m'|] eqn:En; [|discriminate]. injection Eg as ->.
        apply nth_error_split in En as (l1 & l2 & -> & <-). rewrite delete_at_app in Ed. injection Ed as <-. eauto. }
      destruct Hs as (l1 & l2 & El & ->).
      apply (master_removed_lemma _ _ _ l1 l2) in E; [|destruct Hok; split; assumption|exact Sy|simpl; rewrite Hma; exact El|simpl; rewrite Hma; exact Ed].
      destruct E as (_ & Ok1 & Sy1 & C1 & K1 & M1 & Ob1). split; [|exact Ob1].
      split; [exact Ok1|]. split; [exact Sy1|]. unfold masters. rewrite C1, M1. reflexivity.
    - set (s1 := with_kids s _) in E. assert (Ok1 : fl_ok s1) by (apply with_kids_ok; exact Hok).
      destruct (fl_in M_dec m (fl_listen s)) eqn:Ein.
      + apply fl_in_spec in Ein. apply (ok_listen s Hok) in Ein. destruct (child_inserted M_dec s1 m x i) as [s2 t2] eqn:E2. injection E as <- <- <-.
        assert (Hc : fl_children s m = fl_kids s m) by (apply Sy, Ein).
        destruct (split_at (fl_kids s m) (Z.to_nat i) ltac:(lia)) as (c1 & c2 & Ek & H1).
        replace i with (Z.of_nat (length c1)) in E2 by lia.
        destruct (child_inserted_lemma _ _ _ _ c2 _ _ E2 Ok1 Ein) as (p & q & _ & _ & (F1 & F2 & F3 & F4) & Ok2 & Ch & Ob & _).
        { simpl. congruence. }
        split; [|exact Ob]. split; [exact Ok2|]. split; [|unfold masters; rewrite F3, F1; exact Hma].
        intros m' H. rewrite Ch, F2. simpl. destruct (M_dec m' m) as [->|Hne].
        * rewrite !upd_eq. rewrite Ek. replace i with (Z.of_nat (length c1)) by lia. rewrite py_insert_at. reflexivity.
        * rewrite !upd_neq by exact Hne. apply Sy. rewrite F3 in H. exact H.
      + apply fl_in_false in Ein. injection E as <- <- <-. split; [|reflexivity]. split; [exact Ok1|]. split; [|exact Hma].
        intros m' H. simpl. rewrite upd_neq; [apply Sy, H|]. intros ->. apply Ein, (ok_listen s Hok), H.
    - destruct (py_get (fl_kids s m) i) as [x|] eqn:Eg; [|injection E as <- <- <-; split; [exact Hinv|reflexivity]].
      destruct (py_del (fl_kids s m) i) as [l'|] eqn:Ed; [|injection E as <- <- <-; split; [exact Hinv|reflexivity]].
      set (s1 := with_kids s _) in E. assert (Ok1 : fl_ok s1) by (apply with_kids_ok; exact Hok).
      assert (Hs : exists l1 l2, fl_kids s m = l1 ++ x :: l2 /\ l' = l1 ++ l2 /\ i = Z.of_nat (length l1)).
      { unfold py_get in Eg. unfold py_del in Ed. destruct (py_index (length (fl_kids s m)) i) as [k|] eqn:Ek; [|discriminate].
        assert (k = Z.to_nat i). { unfold py_index in Ek. repeat (match type of Ek with context [if ?b then _ else _] => destruct b eqn:? end; try discriminate). all: injection Ek; lia. }
        destruct (nth_error (fl_kids s m) k) as [m'|] eqn:En; [|discriminate]. injection Eg as ->.
        apply nth_error_split in En as (l1 & l2 & El & Hk). rewrite El, <- Hk, delete_at_app in Ed. injection Ed as <-.
        exists l1, l2. repeat split; [exact El|lia]. }
      destruct Hs as (c1 & c2 & Ek & -> & ->).
      destruct (fl_in M_dec m (fl_listen s)) eqn:Ein.
      + apply fl_in_spec in Ein. apply (ok_listen s Hok) in Ein.
        assert (Hc : fl_children s m = fl_kids s m) by (apply Sy, Ein).
        destruct (child_removed_lemma _ _ _ _ c2 _ _ _ E Ok1 Ein) as (p & q & _ & _ & (F1 & F2 & F3 & F4) & Ok2 & Ch & Ob & _).
        { simpl. congruence. }
        split; [|exact Ob]. split; [exact Ok2|]. split; [|unfold masters; rewrite F3, F1; exact Hma].
        intros m' H. rewrite Ch, F2. simpl. destruct (M_dec m' m) as [->|Hne].
        * rewrite !upd_eq. reflexivity.
        * rewrite !upd_neq by exact Hne. apply Sy. rewrite F3 in H. exact H.
      + apply fl_in_false in Ein. injection E as <- <- <-. split; [|reflexivity]. split; [exact Ok1|]. split; [|exact Hma].
        intros m' H. simpl. rewrite upd_neq; [apply Sy, H|]. intros ->. apply Ein, (ok_listen s Hok), H.
    - unfold fl_set_container in E.
      assert (P1 : exists s1 t1, (match fl_cont s with None => (s, [], None) | Some old => fl_remove_loop M_dec (rev old) s end) = (s1, t1, None) /\
        fl_ok s1 /\ fl_synced s1 /\ fl_master s1 = [] /\ fl_observes (fl_items s) t1 (fl_items s1)).
      { unfold masters in Hma. destruct (fl_cont s) as [old|] eqn:Ec.
        - destruct (fl_remove_loop M_dec (rev old) s) as [[s1 t1] e1] eqn:E1.
          destruct (fl_remove_loop_lemma _ _ _ _ _ E1 Hok Sy) as (-> & Ok1 & Sy1 & _ & M1 & Ob1); [rewrite rev_involutive; exact Hma|].
          exists s1, t1. auto.
        - exists s, []. repeat split; auto; apply Hok. }
      destruct P1 as (s1 & t1 & Eq & Ok1 & Sy1 & M1 & Ob1). rewrite Eq in E. clear Eq.
      destruct c as [l|].
      + destruct (fl_insert_loop M_dec l 0 (with_fl_cont s1 (Some l))) as [[s3 t3] e3] eqn:E3. injection E as <- <- <-.
        apply fl_insert_loop_lemma in E3; [|destruct Ok1; split; assumption|exact Sy1|simpl; rewrite M1; reflexivity|simpl; rewrite M1; exact Ho].
        destruct E3 as (-> & Ok2 & Sy2 & C2 & K2 & M2 & Ob2). split; [|eapply fl_observes_app; eassumption].
        split; [exact Ok2|]. split; [exact Sy2|]. unfold masters. rewrite C2, M2. simpl. rewrite M1. reflexivity.
      + injection E as <- <- <-. split; [|exact Ob1]. split; [destruct Ok1; split; assumption|]. split; [exact Sy1|]. exact M1.
  Qed.

  Lemma fl_new_inv kids : fl_inv (fl_new kids).
  Proof. split; [split; simpl; try reflexivity; constructor|]. split; [intros m []|reflexivity]. Qed.

  Lemma fl_run_lemma h : forall s : flstate, fl_inv s -> fl_along M_dec fl_proper s h ->
    let '(s', tr) := fl_run M_dec s h in fl_inv s' /\ fl_observes (fl_items s) tr (fl_items s').
  Proof.
    induction h as [|o h IH]; intros s Hi Ha; cbn [fl_run fl_along] in *; [split; [exact Hi|reflexivity]|].
    destruct (fl_step M_dec s o) as [[s1 t1] e1] eqn:E. destruct Ha as [Ho Ha]. simpl in Ha.
    destruct (fl_step_lemma _ _ _ _ _ E Hi Ho) as [Hi1 Ob1]. specialize (IH s1 Hi1 Ha).
    destruct (fl_run M_dec s1 h) as [s2 t2]. destruct IH as [Hi2 Ob2]. split; [exact Hi2|]. eapply fl_observes_app; eassumption.
  Qed.
End F.
