(** Flattened lists under threads: insertions only, observers, one call at a time. *)
From Coq Require Import List ZArith Bool Arith Permutation Lia.
From Verif Require Import PyBase Flattened_Model Flattened_Spec Flattened_Proofs FlatThr_Model FlatThr_Spec FlatThr_Proofs FlatThr_Proofs2.
Import ListNotations.

Section P.
  Context {M X : Type} (M_dec : forall a b : M, {a = b} + {a <> b}).
  Notation flstate := (flstate M X).
  Notation fth := (fth M X).
  Notation upd := (upd M_dec).
  Notation in_flat := (@in_flat M X).

  (** ** insertions only *)
  Definition edit_of (p : kpc M X) : kedit X := match p with PWalk e _ _ | PKid e _ | PFlat e _ | PTell e _ => e end.
  Definition growing (s : fth) : Prop :=
    (forall m p, t_call s m = Some p -> exists i x, edit_of p = KIns i x) /\
    Permutation (fl_items (t_fl s)) (flat_map (in_flat s) (fl_master (t_fl s))).

  Lemma insert_at_perm {A} i (x : A) l : Permutation (insert_at i x l) (x :: l).
  Proof. unfold insert_at. rewrite <- Permutation_middle, firstn_skipn. reflexivity. Qed.

  Lemma calls_set (f : M -> option (kpc M X)) m p (P : kpc M X -> Prop) :
    (forall m' q, f m' = Some q -> P q) -> match p with Some q => P q | None => True end ->
    forall m' q, set_call M_dec f m p m' = Some q -> P q.
  Proof.
    intros H Hp m' q E. destruct (M_dec m' m) as [->|N].
    - rewrite set_call_eq in E. subst p. exact Hp.
    - rewrite set_call_neq in E by exact N. eapply H, E.
  Qed.

  Lemma growing_step (s : fth) a : finv s -> fproper s a -> inserting a -> growing s -> growing (fstep M_dec s a).
  Proof.
    intros Hinv Hp Hin [G1 G2]. destruct a as [m i x|m i|m|o]; try contradiction; cbn [fstep].
    - destruct (t_call s m) eqn:Ec; [split; assumption|].
      destruct (kbegin_other M_dec s m (KIns i x) (insert_at i x (fl_kids (t_fl s) m)) Ec) as (H1 & H2 & H3 & _ & H4). split.
      + unfold kbegin. destruct (fl_in _ _ _); [|exact G1]. cbn. apply calls_set; [exact G1|]. cbn. eauto.
      + rewrite H2, H3, G2. erewrite flat_map_same; [reflexivity|]. intros m' _. symmetry. apply H4.
    - assert (Gc : forall m' q, t_call (kgo M_dec s m) m' = Some q -> exists i x, edit_of q = KIns i x).
      { unfold kgo. destruct (t_call s m) as [p|] eqn:Ec; [|exact G1]. destruct (G1 m p Ec) as (i & x & Ee).
        destruct p as [e acc [|m' rest]|e k|e k|e k]; cbn in Ee; subst e.
        - cbn. apply (calls_set _ m _ _ G1). cbn. eauto.
        - destruct (M_dec m' m); cbn; apply (calls_set _ m _ _ G1); cbn; eauto.
        - cbn. apply (calls_set _ m _ _ G1). cbn. eauto.
        - cbn. apply (calls_set _ m _ _ G1). cbn. eauto.
        - cbn. apply (calls_set _ m _ _ G1). cbn. eauto. }
      split; [exact Gc|].
      destruct (t_call s m) as [[e acc rest|e k|e k|e k]|] eqn:Ec;
        try (destruct (kgo_other M_dec s m Hinv ltac:(congruence)) as (H1 & H2 & H3 & _ & H4 & H5);
             rewrite H2, H3, G2; erewrite flat_map_same; [reflexivity|]; intros m' _; symmetry; apply (for_only_all M_dec m); assumption).
      destruct (G1 m _ Ec) as (i & x & Ee). cbn in Ee. subst e.
      assert (Hm : In m (fl_master (t_fl s))) by (apply (i_call s Hinv); congruence).
      apply in_split in Hm as (a & b & Em).
      destruct (flat_ins M_dec s m i x k a b Hinv Ec Em) as (Fo & R & It & c & C1 & C2 & C3).
      rewrite (ordered_for_only m s _ a b Hinv Fo Em), It, py_insert_min, !insert_at_perm, G2, Em, flat_map_app. simpl.
      rewrite C1, C3. rewrite (insert_at_perm i x c). rewrite <- app_comm_cons, <- Permutation_middle. reflexivity.
  Qed.
  Lemma growing_run h : forall s : fth, finv s -> along M_dec fproper s h -> Forall inserting h -> growing s -> growing (frun M_dec h s).
  Proof.
    induction h as [|a h IH]; intros s Hi Ha Hf Hg; [exact Hg|]. destruct Ha as [Ha Ha']. inversion Hf; subst.
    apply (IH (fstep M_dec s a)); [apply fstep_inv; assumption|exact Ha'|assumption|apply growing_step; assumption].
  Qed.

  (** ** an edit out of place *)
  Lemma insert_at_inj {A} (l : list A) x i j : ~ In x l -> i <= length l -> j <= length l -> insert_at i x l = insert_at j x l -> i = j.
  Proof.
    intros Hn Hi Hj E.
    assert (W : forall i j, i <= length l -> j <= length l -> insert_at i x l = insert_at j x l -> i < j -> False).
    { clear i j Hi Hj E. intros i j Hi Hj E Hlt. apply Hn. assert (E1 : nth_error (insert_at j x l) i = Some x) by (rewrite <- E; apply nth_insert_at, Hi).
      rewrite nth_error_insert_at in E1 by exact Hj. destruct (Nat.ltb_spec i j); [|lia]. eapply nth_error_In, E1. }
    destruct (lt_eq_lt_dec i j) as [[H|H]|H]; [exfalso; eapply (W i j); eauto|exact H|exfalso; eapply (W j i); eauto].
  Qed.
  Lemma delete_at_inj {A} (l : list A) i j : NoDup l -> i < length l -> j < length l -> delete_at i l = delete_at j l -> i = j.
  Proof.
    intros Nd Hi Hj E.
    assert (W : forall i j, i < length l -> j < length l -> delete_at i l = delete_at j l -> i < j -> False).
    { clear i j Hi Hj E. intros i j Hi Hj E Hlt. assert (E1 : nth_error (delete_at i l) i = nth_error (delete_at j l) i) by (rewrite E; reflexivity).
      rewrite !nth_error_delete_at in E1 by assumption. destruct (Nat.ltb_spec i i); [lia|]. destruct (Nat.ltb_spec i j); [|lia].
      rewrite NoDup_nth_error in Nd. specialize (Nd i (S i) Hi (eq_sym E1)). lia. }
    destruct (lt_eq_lt_dec i j) as [[H|H]|H]; [exfalso; eapply (W i j); eauto|exact H|exfalso; eapply (W j i); eauto].
  Qed.
  Lemma out_of_place (s : fth) m e k :
    finv s -> ordered s -> t_call s m = Some (PFlat e k) ->
    NoDup (match e with KIns _ x => x :: fl_items (t_fl s) | KRem _ _ => fl_items (t_fl s) end) ->
    ~ in_place M_dec s (AGo m) ->
    let s' := fstep M_dec s (AGo m) in fl_items (t_fl s') <> flat_map (in_flat s') (fl_master (t_fl s')).
  Proof.
    intros Hinv [O1 O2] Ec Nd Hp. cbv zeta. cbn [fstep in_place] in *. rewrite Ec in Hp. intros E. apply Hp. clear Hp.
    assert (Hm : In m (fl_master (t_fl s))) by (apply (i_call s Hinv); congruence).
    apply in_split in Hm as (a & b & Em). pose proof (i_nodup s Hinv) as Ndm.
    rewrite Em in Ndm |- *. rewrite (before_split M_dec m a b Ndm).
    destruct e as [i x|i x].
    - destruct (flat_ins M_dec s m i x k a b Hinv Ec Em) as (Fo & R & It & c & C1 & C2 & C3).
      rewrite (ordered_for_only m s _ a b Hinv Fo Em), It, py_insert_min in E.
      inversion Nd as [|? ? Hn _]; subst. cbn [lands kindex].
      apply (insert_at_inj (fl_items (t_fl s)) x); [exact Hn|lia| |].
      + rewrite O1, Em, flat_map_app. simpl. rewrite !app_length. lia.
      + rewrite E. rewrite O1, Em, flat_map_app. simpl. rewrite C3.
        rewrite insert_at_front, insert_at_back by exact C2. reflexivity.
    - destruct (flat_rem M_dec s m i x k a b Hinv Ec Em) as (Fo & Hc & c & C1 & C2 & C3).
      rewrite (ordered_for_only m s _ a b Hinv Fo Em), C3 in E.
      assert (Hi : i < length c) by (apply nth_error_Some; congruence).
      destruct Hc as [(Hk & R & It)|(Hk & R & It)]; rewrite It in E.
      + cbn [lands kindex]. apply (delete_at_inj (fl_items (t_fl s))); [exact Nd|exact Hk| |].
        * rewrite O1, Em, flat_map_app. simpl. rewrite C1, !app_length. lia.
        * rewrite E. rewrite O1, Em, flat_map_app. simpl. rewrite C1.
          rewrite delete_at_front, delete_at_back by exact Hi. reflexivity.
      + exfalso. rewrite O1, Em, flat_map_app in E. simpl in E. rewrite C1 in E. apply app_inv_head, app_inv_tail in E.
        apply (f_equal (@length X)) in E. rewrite delete_at_length in E by exact Hi. lia.
  Qed.

  (** ** observers *)
  Lemma follow_app t1 : forall (l l1 : list X) t2, follow l t1 = Some l1 -> follow l (t1 ++ t2) = follow l1 t2.
  Proof.
    induction t1 as [|e t1 IH]; intros l l1 t2; cbn [follow app].
    - intros [= <-]. reflexivity.
    - destruct e; try (apply IH). destruct (py_del l i); [apply IH|discriminate].
  Qed.
  Lemma follow_child_inserted (f : flstate) m x i f1 tr :
    child_inserted M_dec f m x i = (f1, tr) -> follow (fl_items f) tr = Some (fl_items f1).
  Proof. unfold child_inserted. intros [= <- <-]. reflexivity. Qed.
  Lemma follow_child_removed (f : flstate) m x i f1 tr e :
    child_removed M_dec f m x i = (f1, tr, e) -> follow (fl_items f) tr = Some (fl_items f1).
  Proof.
    unfold child_removed. destruct (py_del (fl_children f m) i); [|intros [= <- <- <-]; reflexivity].
    destruct (py_del (fl_items f) _) eqn:E; intros [= <- <- <-]; [|reflexivity]. cbn. rewrite E. reflexivity.
  Qed.
  Lemma follow_ch_insert m xs : forall idx (f f1 : flstate) tr,
    ch_insert_loop M_dec m xs idx f = (f1, tr) -> follow (fl_items f) tr = Some (fl_items f1).
  Proof.
    induction xs as [|x xs IH]; intros idx f f1 tr; cbn [ch_insert_loop]; [intros [= <- <-]; reflexivity|].
    destruct (child_inserted M_dec f m x (Z.of_nat idx)) as [fa ta] eqn:Ea.
    destruct (ch_insert_loop M_dec m xs (S idx) fa) as [fb tb] eqn:Eb. intros [= <- <-].
    rewrite (follow_app _ _ _ _ (follow_child_inserted _ _ _ _ _ _ Ea)). eapply IH, Eb.
  Qed.
  Lemma follow_ch_remove m xs : forall (f f1 : flstate) tr e,
    ch_remove_loop M_dec m xs f = (f1, tr, e) -> follow (fl_items f) tr = Some (fl_items f1).
  Proof.
    induction xs as [|x xs IH]; intros f f1 tr e; cbn [ch_remove_loop]; [intros [= <- <- <-]; reflexivity|].
    destruct (child_removed M_dec f m x _) as [[fa ta] [ea|]] eqn:Ea.
    - intros [= <- <- <-]. eapply follow_child_removed, Ea.
    - destruct (ch_remove_loop M_dec m xs fa) as [[fb tb] eb] eqn:Eb. intros [= <- <- <-].
      rewrite (follow_app _ _ _ _ (follow_child_removed _ _ _ _ _ _ _ Ea)). eapply IH, Eb.
  Qed.
  Lemma follow_master_inserted (f f1 : flstate) m i tr e :
    master_inserted M_dec f m i = (f1, tr, e) -> follow (fl_items f) tr = Some (fl_items f1).
  Proof.
    unfold master_inserted. destruct (fl_in _ _ _); [intros [= <- <- <-]; reflexivity|].
    destruct (ch_insert_loop M_dec m (fl_kids f m) 0 _) as [fb tb] eqn:Eb. intros [= <- <- <-].
    apply follow_ch_insert in Eb. exact Eb.
  Qed.
  Lemma follow_master_removed (f f1 : flstate) m i tr e :
    master_removed M_dec f m i = (f1, tr, e) -> follow (fl_items f) tr = Some (fl_items f1).
  Proof.
    unfold master_removed. destruct (ch_remove_loop M_dec m (rev (fl_kids f m)) f) as [[fa ta] ea] eqn:Ea.
    apply follow_ch_remove in Ea. destruct ea; [intros [= <- <- <-]; exact Ea|].
    destruct (py_del (fl_master fa) i); [|intros [= <- <- <-]; exact Ea]. cbv zeta.
    destruct (fl_in M_dec m (fl_listen fa)); intros [= <- <- <-]; exact Ea.
  Qed.
  Lemma follow_remove_loop ms : forall (f f1 : flstate) tr e,
    fl_remove_loop M_dec ms f = (f1, tr, e) -> follow (fl_items f) tr = Some (fl_items f1).
  Proof.
    induction ms as [|m ms IH]; intros f f1 tr e; cbn [fl_remove_loop]; [intros [= <- <- <-]; reflexivity|].
    destruct (master_removed M_dec f m _) as [[fa ta] [ea|]] eqn:Ea.
    - intros [= <- <- <-]. eapply follow_master_removed, Ea.
    - destruct (fl_remove_loop M_dec ms fa) as [[fb tb] eb] eqn:Eb. intros [= <- <- <-].
      rewrite (follow_app _ _ _ _ (follow_master_removed _ _ _ _ _ _ Ea)). eapply IH, Eb.
  Qed.
  Lemma follow_insert_loop ms : forall idx (f f1 : flstate) tr e,
    fl_insert_loop M_dec ms idx f = (f1, tr, e) -> follow (fl_items f) tr = Some (fl_items f1).
  Proof.
    induction ms as [|m ms IH]; intros idx f f1 tr e; cbn [fl_insert_loop]; [intros [= <- <- <-]; reflexivity|].
    destruct (master_inserted M_dec f m (Z.of_nat idx)) as [[fa ta] [ea|]] eqn:Ea.
    - intros [= <- <- <-]. eapply follow_master_inserted, Ea.
    - destruct (fl_insert_loop M_dec ms (S idx) fa) as [[fb tb] eb] eqn:Eb. intros [= <- <- <-].
      rewrite (follow_app _ _ _ _ (follow_master_inserted _ _ _ _ _ _ Ea)). eapply IH, Eb.
  Qed.
  Lemma follow_fl_step (f f1 : flstate) o tr e :
    fl_step M_dec f o = (f1, tr, e) -> follow (fl_items f) tr = Some (fl_items f1).
  Proof.
    destruct o as [i m|i|m i x|m i|c]; cbn [fl_step].
    - destruct (fl_cont f); [|intros [= <- <- <-]; reflexivity]. intros E. apply follow_master_inserted in E. exact E.
    - destruct (fl_cont f); [|intros [= <- <- <-]; reflexivity].
      destruct (py_get l i); [|intros [= <- <- <-]; reflexivity]. destruct (py_del l i); [|intros [= <- <- <-]; reflexivity].
      intros E. apply follow_master_removed in E. exact E.
    - destruct (fl_in _ _ _); [|intros [= <- <- <-]; reflexivity].
      destruct (child_inserted M_dec _ m x i) as [fa ta] eqn:Ea. intros [= <- <- <-]. apply follow_child_inserted in Ea. exact Ea.
    - destruct (py_get (fl_kids f m) i); [|intros [= <- <- <-]; reflexivity]. destruct (py_del (fl_kids f m) i); [|intros [= <- <- <-]; reflexivity].
      destruct (fl_in _ _ _); [|intros [= <- <- <-]; reflexivity]. intros E. apply follow_child_removed in E. exact E.
    - unfold fl_set_container.
      assert (P : forall s1 t1 e1, (match fl_cont f with None => (f, [], None) | Some old => fl_remove_loop M_dec (rev old) f end) = (s1, t1, e1) ->
        follow (fl_items f) t1 = Some (fl_items s1)).
      { intros s1 t1 e1. destruct (fl_cont f); [apply follow_remove_loop|intros [= <- <- <-]; reflexivity]. }
      destruct (match fl_cont f with None => (f, [], None) | Some old => fl_remove_loop M_dec (rev old) f end) as [[s1 t1] e1] eqn:E1.
      specialize (P s1 t1 e1 eq_refl). destruct e1; [intros [= <- <- <-]; exact P|]. destruct c as [l|]; [|intros [= <- <- <-]; exact P].
      destruct (fl_insert_loop M_dec l 0 _) as [[s3 t3] e3] eqn:E3. intros [= <- <- <-].
      rewrite (follow_app _ _ _ _ P). apply follow_insert_loop in E3. exact E3.
  Qed.

  Definition is_tell (p : option (kpc M X)) : Prop := match p with Some (PTell _ _) => True | _ => False end.
  (** what the call still has to tell *)
  Definition due (p : option (kpc M X)) : list (flev X) :=
    match p with
    | Some (PTell (KIns i x) k) => [LfIns x (Z.of_nat k)]
    | Some (PTell (KRem i x) k) => [LfRem x (Z.of_nat k)]
    | _ => []
    end.
  Definition followed (s : fth) : Prop :=
    exists l, follow [] (t_said s) = Some l /\
      ((forall m, ~ is_tell (t_call s m)) /\ l = fl_items (t_fl s) \/
       exists m, is_tell (t_call s m) /\ (forall m', m' <> m -> ~ is_tell (t_call s m')) /\ follow l (due (t_call s m)) = Some (fl_items (t_fl s))).

  (** a step that tells nothing and leaves the flattened list alone *)
  Lemma followed_same (s s' : fth) m :
    t_said s' = t_said s -> fl_items (t_fl s') = fl_items (t_fl s) -> (forall m', m' <> m -> t_call s' m' = t_call s m') ->
    ~ is_tell (t_call s m) -> ~ is_tell (t_call s' m) -> followed s -> followed s'.
  Proof.
    intros H1 H2 H3 H4 H5 (l & Fo & D). exists l. rewrite H1, H2. split; [exact Fo|].
    destruct D as [[D1 D2]|(m0 & D1 & D2 & D3)].
    - left. split; [|exact D2]. intros m'. destruct (M_dec m' m) as [->|N]; [exact H5|]. rewrite H3 by exact N. apply D1.
    - right. assert (N : m0 <> m) by (intros ->; contradiction). exists m0. rewrite H3 by exact N. split; [exact D1|]. split; [|exact D3].
      intros m' N'. destruct (M_dec m' m) as [->|N2]; [exact H5|]. rewrite H3 by exact N2. apply D2, N'.
  Qed.

  Lemma followed_step (s : fth) a : finv s -> fproper s a -> told_first s a -> followed s -> followed (fstep M_dec s a).
  Proof.
    intros Hinv Hp Ht Hf. destruct a as [m i x|m i|m|o]; cbn [fstep].
    - destruct (t_call s m) eqn:Ec; [exact Hf|].
      apply (followed_same s _ m); try exact Hf; [apply kbegin_other, Ec|apply kbegin_other, Ec|..].
      + intros m' N. unfold kbegin. destruct (fl_in _ _ _); cbn; [apply set_call_neq, N|reflexivity].
      + rewrite Ec. cbn. tauto.
      + unfold kbegin. destruct (fl_in _ _ _); cbn; [rewrite set_call_eq|rewrite Ec]; cbn; tauto.
    - destruct (t_call s m) eqn:Ec; [exact Hf|]. destruct (nth_error (fl_kids (t_fl s) m) i) as [x|] eqn:En; [|exact Hf].
      apply (followed_same s _ m); try exact Hf; [apply kbegin_other, Ec|apply kbegin_other, Ec|..].
      + intros m' N. unfold kbegin. destruct (fl_in _ _ _); cbn; [apply set_call_neq, N|reflexivity].
      + rewrite Ec. cbn. tauto.
      + unfold kbegin. destruct (fl_in _ _ _); cbn; [rewrite set_call_eq|rewrite Ec]; cbn; tauto.
    - cbn in Ht. unfold kgo. destruct (t_call s m) as [[e acc [|m' rest]|[i x|i x] k|e k|e k]|] eqn:Ec; [..|exact Hf].
      + apply (followed_same s _ m); try exact Hf; cbn; try reflexivity; [intros; apply set_call_neq; assumption|rewrite Ec; cbn; tauto|rewrite set_call_eq; cbn; tauto].
      + destruct (M_dec m' m); (apply (followed_same s _ m); try exact Hf; cbn; try reflexivity; [intros; apply set_call_neq; assumption|rewrite Ec; cbn; tauto|rewrite set_call_eq; cbn; tauto]).
      + apply (followed_same s _ m); try exact Hf; cbn; try reflexivity; [intros; apply set_call_neq; assumption|rewrite Ec; cbn; tauto|rewrite set_call_eq; cbn; tauto].
      + destruct (py_del (fl_children (t_fl s) m) (Z.of_nat i)); (apply (followed_same s _ m); try exact Hf; cbn; try reflexivity; [intros; apply set_call_neq; assumption|rewrite Ec; cbn; tauto|rewrite set_call_eq; cbn; tauto]).
      + (* the flattened list is edited *)
        destruct Hf as (l & Fo & D). assert (Hno : forall m', ~ is_tell (t_call s m')).
        { intros m' Hx. destruct (t_call s m') as [[| | |e' k']|] eqn:E'; cbn in Hx; try contradiction. eapply Ht, E'. }
        assert (El : l = fl_items (t_fl s)).
        { destruct D as [[_ D]|(m0 & D & _)]; [exact D|]. exfalso. eapply Hno, D. }
        subst l. destruct e as [i x|i x].
        * exists (fl_items (t_fl s)). split; [exact Fo|]. right. exists m. cbn. rewrite set_call_eq. split; [exact I|]. split; [|reflexivity].
          intros m' N. rewrite set_call_neq by exact N. apply Hno.
        * destruct (py_del (fl_items (t_fl s)) (Z.of_nat k)) as [l1|e1] eqn:Ed.
          -- exists (fl_items (t_fl s)). split; [exact Fo|]. right. exists m. cbn. rewrite set_call_eq. split; [exact I|]. split.
             ++ intros m' N. rewrite set_call_neq by exact N. apply Hno.
             ++ cbn. rewrite Ed. reflexivity.
          -- exists (fl_items (t_fl s)). split; [exact Fo|]. left. split; [|reflexivity]. cbn. intros m'.
             destruct (M_dec m' m) as [->|N]; [rewrite set_call_eq; cbn; tauto|]. rewrite set_call_neq by exact N. apply Hno.
      + (* it is told *)
        destruct Hf as (l & Fo & D). assert (Hd : (forall m', m' <> m -> ~ is_tell (t_call s m')) /\ follow l (due (t_call s m)) = Some (fl_items (t_fl s))).
        { destruct D as [[D _]|(m0 & D1 & D2 & D3)].
          - exfalso. apply (D m). rewrite Ec. exact I.
          - destruct (M_dec m m0) as [->|N]; [auto|]. exfalso. apply (D2 m N). rewrite Ec. exact I. }
        destruct Hd as [D2 D3]. rewrite Ec in D3.
        assert (Hn : forall m', ~ is_tell (set_call M_dec (t_call s) m None m')).
        { intros m'. destruct (M_dec m' m) as [->|N]; [rewrite set_call_eq; cbn; tauto|]. rewrite set_call_neq by exact N. apply D2, N. }
        destruct e as [i x|i x]; cbn in D3 |- *.
        * exists (fl_items (t_fl s)). cbn. split; [|left; auto]. rewrite (follow_app _ _ _ _ Fo). cbn. exact D3.
        * exists (fl_items (t_fl s)). cbn. split; [|left; auto]. rewrite (follow_app _ _ _ _ Fo). cbn. exact D3.
    - destruct (forallb _ _) eqn:Hb; [|exact Hf]. pose proof (idle_of s Hinv Hb) as Hid.
      destruct (fl_step M_dec (t_fl s) o) as [[f tr] e] eqn:E. destruct Hf as (l & Fo & D).
      assert (El : l = fl_items (t_fl s)).
      { destruct D as [[_ D]|(m0 & D & _)]; [exact D|]. exfalso. rewrite (Hid m0) in D. exact D. }
      exists (fl_items f). cbn. split.
      + rewrite (follow_app _ _ _ _ Fo), El. eapply follow_fl_step, E.
      + left. split; [|reflexivity]. intros m. rewrite (Hid m). cbn. tauto.
  Qed.
  Lemma followed_run h : forall s : fth, finv s -> along M_dec fproper s h -> along M_dec told_first s h -> followed s -> followed (frun M_dec h s).
  Proof.
    induction h as [|a h IH]; intros s Hi Ha Hb Ho; [exact Ho|]. destruct Ha as [Ha Ha']. destruct Hb as [Hb Hb'].
    apply (IH (fstep M_dec s a)); [apply fstep_inv; assumption|exact Ha'|exact Hb'|apply followed_step; assumption].
  Qed.
  Lemma followed_new kids : followed (fth_new kids).
  Proof. exists []. split; [reflexivity|]. left. split; [cbn; tauto|reflexivity]. Qed.

  (** ** one call after the other *)
  Definition tracked (s : fth) (m : M) (p : kpc M X) : Prop :=
    match p with
    | PWalk e acc rest => exists done, fl_master (t_fl s) = done ++ rest /\ ~ In m done /\ acc = length (flat_map (fl_children (t_fl s)) done)
    | PKid e k | PFlat e k => k = length (flat_map (fl_children (t_fl s)) (before M_dec m (fl_master (t_fl s)))) + kindex e
    | PTell _ _ => True
    end.
  Definition single (s : fth) : Prop :=
    idle s \/ exists m p, t_call s m = Some p /\ (forall m', m' <> m -> t_call s m' = None) /\ tracked s m p.

  Lemma before_no m ms : ~ In m (before M_dec m ms).
  Proof. induction ms as [|m' ms IH]; simpl; [tauto|]. destruct (M_dec m' m); simpl; [tauto|]. intuition congruence. Qed.
  Lemma before_app m a b : ~ In m a -> before M_dec m (a ++ b) = a ++ before M_dec m b.
  Proof.
    induction a as [|m' a IH]; simpl; intros H; [reflexivity|]. destruct (M_dec m' m); [exfalso; apply H; auto|]. rewrite IH by tauto. reflexivity.
  Qed.
  Lemma single_place (s : fth) a : finv s -> ordered s -> single s -> in_place M_dec s a.
  Proof.
    intros Hinv [O1 O2] Hs. destruct a as [m i x|m i|m|o]; cbn; try exact I.
    destruct (t_call s m) as [[| |e k|]|] eqn:Ec; try exact I.
    destruct Hs as [Hs|(m0 & p & E0 & Oth & Tr)]; [rewrite (Hs m) in Ec; discriminate|].
    destruct (M_dec m m0) as [<-|N]; [|rewrite (Oth m N) in Ec; discriminate]. rewrite Ec in E0. injection E0 as <-. cbn in Tr.
    assert (Eb : flat_map (in_flat s) (before M_dec m (fl_master (t_fl s))) = flat_map (fl_children (t_fl s)) (before M_dec m (fl_master (t_fl s)))).
    { apply flat_map_same. intros m' Hm'. unfold FlatThr_Spec.in_flat. rewrite Oth; [reflexivity|]. intros ->. eapply before_no, Hm'. }
    rewrite Eb, <- Tr. destruct e as [i x|i x]; cbn [lands]; [|reflexivity]. apply Nat.min_l.
    assert (Hm : In m (fl_master (t_fl s))) by (apply (i_call s Hinv); congruence).
    apply in_split in Hm as (a & b & Em). destruct (flat_ins M_dec s m i x k a b Hinv Ec Em) as (_ & _ & _ & c & C1 & C2 & _).
    pose proof (i_nodup s Hinv) as Nd. rewrite Em in *. rewrite before_split in * by exact Nd. cbn in Tr.
    rewrite O1, flat_map_app, Eb. simpl. rewrite C1, !app_length. lia.
  Qed.
  Lemma single_told (s : fth) a : single s -> told_first s a.
  Proof.
    intros Hs. destruct a as [m i x|m i|m|o]; cbn; try exact I. destruct (t_call s m) as [[| |e k|]|] eqn:Ec; try exact I.
    intros m' e' k' E'. destruct Hs as [Hs|(m0 & p & E0 & Oth & _)]; [rewrite (Hs m) in Ec; discriminate|].
    destruct (M_dec m m0) as [->|N]; [|rewrite (Oth m N) in Ec; discriminate].
    destruct (M_dec m' m0) as [->|N]; [|rewrite (Oth m' N) in E'; discriminate]. congruence.
  Qed.

  Lemma single_step (s : fth) a : finv s -> fproper s a -> one_by_one s a -> single s -> single (fstep M_dec s a).
  Proof.
    intros Hinv Hp Ho Hs. destruct a as [m i x|m i|m|o]; cbn [fstep].
    - destruct (t_call s m) eqn:Ec; [exact Hs|]. cbn in Ho. unfold kbegin. destruct (fl_in _ _ _).
      + right. exists m. eexists. cbn. rewrite set_call_eq. split; [reflexivity|]. split.
        * intros m' N. rewrite set_call_neq by exact N. apply Ho.
        * exists []. split; [reflexivity|]. split; [tauto|reflexivity].
      + left. exact Ho.
    - destruct (t_call s m) eqn:Ec; [exact Hs|]. destruct (nth_error (fl_kids (t_fl s) m) i) as [x|] eqn:En; [|exact Hs].
      cbn in Ho. unfold kbegin. destruct (fl_in _ _ _).
      + right. exists m. eexists. cbn. rewrite set_call_eq. split; [reflexivity|]. split.
        * intros m' N. rewrite set_call_neq by exact N. apply Ho.
        * exists []. split; [reflexivity|]. split; [tauto|reflexivity].
      + left. exact Ho.
    - destruct Hs as [Hs|(m0 & p & E0 & Oth & Tr)]; [left; unfold kgo; rewrite (Hs m); exact Hs|].
      destruct (M_dec m m0) as [<-|N].
      2:{ unfold kgo. rewrite (Oth m N). right. exists m0, p. auto. }
      assert (Hm : In m (fl_master (t_fl s))) by (apply (i_call s Hinv); congruence).
      assert (Idl : forall q, q = None -> forall m', set_call M_dec (t_call s) m q m' = None).
      { intros q -> m'. destruct (M_dec m' m) as [->|N]; [apply set_call_eq|]. rewrite set_call_neq by exact N. apply Oth, N. }
      assert (Go : forall f said r q, tracked (Fth f (set_call M_dec (t_call s) m (Some q)) said r) m q ->
                   single (Fth f (set_call M_dec (t_call s) m (Some q)) said r)).
      { intros f said r q Tq. right. exists m, q. cbn. rewrite set_call_eq. split; [reflexivity|]. split; [|exact Tq].
        intros m' N. rewrite set_call_neq by exact N. apply Oth, N. }
      assert (Bu : forall l, flat_map (upd (fl_children (t_fl s)) m l) (before M_dec m (fl_master (t_fl s))) =
                             flat_map (fl_children (t_fl s)) (before M_dec m (fl_master (t_fl s)))).
      { intros l. apply flat_map_upd, before_no. }
      unfold kgo. rewrite E0. destruct p as [e acc [|m' rest]|[i x|i x] k|[i x|i x] k|[i x|i x] k]; cbn in Tr.
      + destruct Tr as (done & E1 & E2 & E3). exfalso. rewrite app_nil_r in E1. apply E2. rewrite <- E1. exact Hm.
      + destruct Tr as (done & E1 & E2 & E3). destruct (M_dec m' m) as [->|N].
        * apply Go. cbn. rewrite E1, before_app by exact E2. simpl. destruct (M_dec m m); [|congruence]. rewrite app_nil_r, E3. reflexivity.
        * apply Go. cbn. exists (done ++ [m']). split; [rewrite E1, <- app_assoc; reflexivity|]. split.
          -- rewrite in_app_iff. simpl. intuition congruence.
          -- rewrite flat_map_app, app_length. simpl. rewrite app_nil_r. lia.
      + apply Go. cbn. rewrite Bu. exact Tr.
      + destruct (py_del (fl_children (t_fl s) m) (Z.of_nat i)) as [l|e]; [apply Go; cbn; rewrite Bu; exact Tr|]. left. intros m'. cbn. apply Idl. reflexivity.
      + apply Go. exact I.
      + destruct (py_del (fl_items (t_fl s)) (Z.of_nat k)) as [l|e]; [apply Go; exact I|]. left. intros m'. cbn. apply Idl. reflexivity.
      + left. intros m'. cbn. apply Idl. reflexivity.
      + left. intros m'. cbn. apply Idl. reflexivity.
    - destruct (forallb _ _) eqn:Hb; [|exact Hs]. pose proof (idle_of s Hinv Hb) as Hid.
      destruct (fl_step M_dec (t_fl s) o) as [[f tr] e]. left. exact Hid.
  Qed.
  Lemma single_run h : forall s : fth, finv s -> along M_dec fproper s h -> along M_dec one_by_one s h -> single s -> ordered s -> followed s ->
    ordered (frun M_dec h s) /\ followed (frun M_dec h s).
  Proof.
    induction h as [|a h IH]; intros s Hi Ha Hb Hs Ho Hf; [auto|]. destruct Ha as [Ha Ha']. destruct Hb as [Hb Hb'].
    apply (IH (fstep M_dec s a)); [apply fstep_inv; assumption|exact Ha'|exact Hb'|apply single_step; assumption| |].
    - apply ordered_step; try assumption. apply single_place; assumption.
    - apply followed_step; try assumption. apply single_told; assumption.
  Qed.

  (** ** a call that is not interrupted *)
  Definition put (s : fth) (m : M) (f : flstate) (c : option (kpc M X)) (said : list (flev X)) (r : list exn) (s' : fth) : Prop :=
    t_fl s' = f /\ t_call s' m = c /\ (forall m', m' <> m -> t_call s' m' = t_call s m') /\ t_said s' = said /\ t_raised s' = r.

  Lemma walk_alone m e : forall rest acc (s : fth), t_call s m = Some (PWalk e acc rest) ->
    exists n, put s m (t_fl s) (Some (PKid e (acc + fl_offset M_dec (fl_children (t_fl s)) m rest + kindex e))) (t_said s) (t_raised s)
      (frun M_dec (repeat (AGo m) n) s).
  Proof.
    induction rest as [|m' rest IH]; intros acc s Ec.
    - exists 1. cbn. unfold kgo. rewrite Ec. unfold put. cbn. rewrite set_call_eq, Nat.add_0_r.
      repeat split. intros m' N. apply set_call_neq, N.
    - simpl. destruct (M_dec m' m) as [->|N] eqn:Ed.
      + exists 1. cbn. unfold kgo. rewrite Ec, Ed. unfold put. cbn. rewrite set_call_eq, Nat.add_0_r. repeat split. intros m' N. apply set_call_neq, N.
      + destruct (IH (acc + length (fl_children (t_fl s) m')) (kgo M_dec s m)) as (n & P1 & P2 & P3 & P4 & P5).
        { unfold kgo. rewrite Ec, Ed. cbn. apply set_call_eq. }
        exists (S n). assert (Ek : kgo M_dec s m = at_pc M_dec s m (Some (PWalk e (acc + length (fl_children (t_fl s) m')) rest))).
        { unfold kgo. rewrite Ec, Ed. reflexivity. }
        cbn [repeat frun fold_left fstep]. change (put s m (t_fl s) (Some (PKid e (acc + (length (fl_children (t_fl s) m') + fl_offset M_dec (fl_children (t_fl s)) m rest) + kindex e))) (t_said s) (t_raised s) (frun M_dec (repeat (AGo m) n) (kgo M_dec s m))).
        rewrite Ek in *. cbn in *. unfold put. split; [exact P1|]. split; [rewrite P2; f_equal; f_equal; lia|].
        split; [intros m2 N2; rewrite P3 by exact N2; apply set_call_neq, N2|]. split; assumption.
  Qed.

  Lemma frun_app h1 h2 (s : fth) : frun M_dec (h1 ++ h2) s = frun M_dec h2 (frun M_dec h1 s).
  Proof. apply fold_left_app. Qed.

  Lemma call_alone m e k (s : fth) : t_call s m = Some (PKid e k) ->
    let '(f, tr, x) :=
      match e with
      | KIns i y => (Fl (fl_cont (t_fl s)) (fl_kids (t_fl s)) (fl_master (t_fl s))
                        (upd (fl_children (t_fl s)) m (py_insert (Z.of_nat i) y (fl_children (t_fl s) m)))
                        (py_insert (Z.of_nat k) y (fl_items (t_fl s))) (fl_listen (t_fl s)),
                     [LfIns y (Z.of_nat k); LfSelIns (Z.of_nat i)], [])
      | KRem i y =>
          match py_del (fl_children (t_fl s) m) (Z.of_nat i) with
          | Err x => (t_fl s, [], [x])
          | Ok l => match py_del (fl_items (t_fl s)) (Z.of_nat k) with
                    | Err x => (with_children (t_fl s) (upd (fl_children (t_fl s)) m l), [], [x])
                    | Ok it => (with_items (with_children (t_fl s) (upd (fl_children (t_fl s)) m l)) it, [LfRem y (Z.of_nat k); LfSelRem (Z.of_nat k)], [])
                    end
          end
      end in
    put s m f None (t_said s ++ tr) (t_raised s ++ x) (frun M_dec (repeat (AGo m) 3) s).
  Proof.
    intros Ec. cbn [repeat frun fold_left fstep]. unfold kgo at 3. rewrite Ec. destruct e as [i y|i y].
    - unfold kgo at 2. cbn. rewrite set_call_eq. unfold kgo. cbn. rewrite set_call_eq. unfold put. cbn. rewrite set_call_eq, app_nil_r.
      repeat split. intros m' N. rewrite !set_call_neq by exact N. reflexivity.
    - destruct (py_del (fl_children (t_fl s) m) (Z.of_nat i)) as [l|x].
      + unfold kgo at 2. cbn. rewrite set_call_eq. destruct (py_del (fl_items (t_fl s)) (Z.of_nat k)) as [it|x].
        * unfold kgo. cbn. rewrite set_call_eq. unfold put. cbn. rewrite set_call_eq, app_nil_r.
          repeat split. intros m' N. rewrite !set_call_neq by exact N. reflexivity.
        * unfold kgo. cbn. rewrite set_call_eq. unfold put. cbn. rewrite set_call_eq, app_nil_r.
          repeat split. intros m' N. rewrite !set_call_neq by exact N. reflexivity.
      + unfold kgo at 2. cbn. rewrite set_call_eq. unfold kgo. cbn. rewrite set_call_eq. unfold put. cbn. rewrite set_call_eq, app_nil_r.
        repeat split. intros m' N. rewrite !set_call_neq by exact N. reflexivity.
  Qed.
End P.
