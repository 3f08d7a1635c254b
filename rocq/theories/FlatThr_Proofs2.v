(** Flattened lists under threads: the invariants. *)
From Coq Require Import List ZArith Bool Arith Permutation Lia.
From Verif Require Import PyBase Flattened_Model Flattened_Spec Flattened_Proofs FlatThr_Model FlatThr_Spec FlatThr_Proofs.
Import ListNotations.

Section P.
  Context {M X : Type} (M_dec : forall a b : M, {a = b} + {a <> b}).
  Notation flstate := (flstate M X).
  Notation fth := (fth M X).
  Notation upd := (upd M_dec).
  Notation set_call := (set_call M_dec).
  Notation in_flat := (@in_flat M X).

  Lemma py_insert_min {A} (l : list A) k x : py_insert (Z.of_nat k) x l = insert_at (Nat.min k (length l)) x l.
  Proof.
    unfold py_insert, py_insert_pos. destruct (Z.ltb_spec (Z.of_nat k) 0); [lia|]. f_equal. lia.
  Qed.
  Lemma set_call_eq (f : M -> option (kpc M X)) m p : set_call f m p m = p.
  Proof. unfold FlatThr_Model.set_call. destruct (M_dec m m); congruence. Qed.
  Lemma set_call_neq (f : M -> option (kpc M X)) m p m' : m' <> m -> set_call f m p m' = f m'.
  Proof. unfold FlatThr_Model.set_call. destruct (M_dec m' m); congruence. Qed.
  Lemma flat_map_same (g g' : M -> list X) ms : (forall m, In m ms -> g' m = g m) -> flat_map g' ms = flat_map g ms.
  Proof. intros H. rewrite !flat_map_concat_map. f_equal. apply map_ext_in. exact H. Qed.
  Lemma flat_map_swap (g g' : M -> list X) m a b :
    (forall m', m' <> m -> g' m' = g m') -> NoDup (a ++ m :: b) ->
    flat_map g' (a ++ m :: b) = flat_map g a ++ g' m ++ flat_map g b.
  Proof.
    intros H Nd. apply NoDup_remove_2 in Nd. rewrite in_app_iff in Nd. rewrite flat_map_app. simpl.
    rewrite (flat_map_same g g' a), (flat_map_same g g' b); [reflexivity|..]; intros m' Hi; apply H; intros ->; tauto.
  Qed.
  Lemma before_split m a b : NoDup (a ++ m :: b) -> before M_dec m (a ++ m :: b) = a.
  Proof.
    intros Nd. apply NoDup_remove_2 in Nd. rewrite in_app_iff in Nd. induction a as [|m' a IH]; simpl.
    - destruct (M_dec m m); congruence.
    - destruct (M_dec m' m) as [->|]; [simpl in Nd; tauto|]. rewrite IH by (simpl in Nd; tauto). reflexivity.
  Qed.

  (** the copy of the children of one master item *)
  Definition local (c : option (kpc M X)) (ch kids : list X) : Prop :=
    match c with
    | Some (PWalk e _ _) | Some (PKid e _) =>
        match e with
        | KIns i x => i <= length ch /\ kids = insert_at i x ch
        | KRem i x => nth_error ch i = Some x /\ kids = delete_at i ch
        end
    | Some (PFlat e _) => ch = kids /\ match e with KIns i x => nth_error ch i = Some x | KRem i x => i <= length ch end
    | Some (PTell _ _) | None => ch = kids
    end.

  Record finv (s : fth) : Prop := {
    i_nodup : NoDup (fl_master (t_fl s));
    i_listen : forall m, In m (fl_listen (t_fl s)) <-> In m (fl_master (t_fl s));
    i_out : forall m, ~ In m (fl_master (t_fl s)) -> fl_children (t_fl s) m = [];
    i_masters : fl_master (t_fl s) = masters (t_fl s);
    i_call : forall m, t_call s m <> None -> In m (fl_master (t_fl s));
    i_local : forall m, In m (fl_master (t_fl s)) -> local (t_call s m) (fl_children (t_fl s) m) (fl_kids (t_fl s) m);
    i_count : length (fl_items (t_fl s)) = length (flat_map (in_flat s) (fl_master (t_fl s))) + length (t_raised s) }.

  Lemma in_flat_same (s s' : fth) m :
    t_call s' m = t_call s m -> fl_children (t_fl s') m = fl_children (t_fl s) m -> in_flat s' m = in_flat s m.
  Proof. unfold FlatThr_Spec.in_flat. intros -> ->. reflexivity. Qed.

  (** a step that concerns [m] only *)
  Record for_only (m : M) (s s' : fth) : Prop := {
    fo_cont : fl_cont (t_fl s') = fl_cont (t_fl s);
    fo_kids : forall m', m' <> m -> fl_kids (t_fl s') m' = fl_kids (t_fl s) m';
    fo_master : fl_master (t_fl s') = fl_master (t_fl s);
    fo_listen : fl_listen (t_fl s') = fl_listen (t_fl s);
    fo_children : forall m', m' <> m -> fl_children (t_fl s') m' = fl_children (t_fl s) m';
    fo_call : forall m', m' <> m -> t_call s' m' = t_call s m' }.

  Lemma for_only_flat m s s' : for_only m s s' -> forall m', m' <> m -> in_flat s' m' = in_flat s m'.
  Proof. intros [] m' H. apply in_flat_same; auto. Qed.

  Lemma finv_for_only m (s s' : fth) :
    finv s -> for_only m s s' -> In m (fl_master (t_fl s)) ->
    local (t_call s' m) (fl_children (t_fl s') m) (fl_kids (t_fl s') m) ->
    length (fl_items (t_fl s')) + length (in_flat s m) + length (t_raised s) =
      length (fl_items (t_fl s)) + length (in_flat s' m) + length (t_raised s') ->
    finv s'.
  Proof.
    intros [Nd Li Ou Ma Ca Lo Co] Fo Hm Hl Hc. pose proof (for_only_flat m s s' Fo) as Hf. destruct Fo as [F1 F2 F3 F4 F5 F6].
    split.
    - rewrite F3. exact Nd.
    - intros m'. rewrite F3, F4. apply Li.
    - intros m' H. rewrite F3 in H. rewrite F5 by (intros ->; contradiction). apply Ou, H.
    - rewrite F3. unfold masters in *. rewrite F1. exact Ma.
    - intros m' H. rewrite F3. destruct (M_dec m' m) as [->|N]; [exact Hm|]. apply Ca. rewrite <- F6; assumption.
    - intros m' H. rewrite F3 in H. destruct (M_dec m' m) as [->|N]; [exact Hl|]. rewrite F6, F5, F2 by exact N. apply Lo, H.
    - rewrite F3. apply in_split in Hm as (a & b & E). rewrite E in *.
      rewrite (flat_map_swap (in_flat s) (in_flat s') m a b Hf Nd).
      rewrite flat_map_app in Co. simpl in Co. rewrite !app_length in *. lia.
  Qed.

  Ltac fo := split; cbn; try reflexivity; intros; try rewrite set_call_neq by assumption; try rewrite upd_neq by assumption; reflexivity.

  (** the kinds of steps of a call *)
  Lemma kgo_inv (s : fth) m : finv s -> finv (kgo M_dec s m).
  Proof.
    intros Hinv. unfold kgo. destruct (t_call s m) as [p|] eqn:Ec; [|exact Hinv].
    assert (Hm : In m (fl_master (t_fl s))) by (apply (i_call s Hinv); congruence).
    pose proof (i_local s Hinv m Hm) as Lo. rewrite Ec in Lo.
    assert (Ef : in_flat s m = in_flat s m) by reflexivity. unfold FlatThr_Spec.in_flat in Ef at 2. rewrite Ec in Ef.
    destruct p as [e acc [|m' rest]|[i x|i x] k|[i x|i x] k|[i x|i x] k].
    - apply (finv_for_only m s); [exact Hinv|fo|exact Hm| |].
      + cbn. rewrite set_call_eq. exact Lo.
      + cbn. unfold FlatThr_Spec.in_flat. cbn. rewrite set_call_eq, Ec. lia.
    - destruct (M_dec m' m).
      + apply (finv_for_only m s); [exact Hinv|fo|exact Hm| |].
        * cbn. rewrite set_call_eq. exact Lo.
        * cbn. unfold FlatThr_Spec.in_flat. cbn. rewrite set_call_eq, Ec. lia.
      + apply (finv_for_only m s); [exact Hinv|fo|exact Hm| |].
        * cbn. rewrite set_call_eq. exact Lo.
        * cbn. unfold FlatThr_Spec.in_flat. cbn. rewrite set_call_eq, Ec. lia.
    - cbn in Lo. destruct Lo as [L1 L2]. apply (finv_for_only m s); [exact Hinv|fo|exact Hm| |].
      + cbn. rewrite set_call_eq, upd_eq, py_insert_nat by exact L1. cbn. split; [auto|]. apply nth_insert_at, L1.
      + cbn. rewrite Ef. unfold FlatThr_Spec.in_flat. cbn. rewrite set_call_eq, upd_eq, py_insert_nat by exact L1.
        rewrite delete_insert_at by exact L1. lia.
    - cbn in Lo. destruct Lo as [L1 L2]. assert (Hi : i < length (fl_children (t_fl s) m)) by (apply nth_error_Some; congruence).
      rewrite py_del_nat by exact Hi. apply (finv_for_only m s); [exact Hinv|fo|exact Hm| |].
      + cbn. rewrite set_call_eq, upd_eq. cbn. split; [auto|]. rewrite delete_at_length; lia.
      + cbn. rewrite Ef. unfold FlatThr_Spec.in_flat. cbn. rewrite set_call_eq, upd_eq.
        rewrite insert_delete_at by exact L1. lia.
    - cbn in Lo. destruct Lo as [L1 L2]. apply (finv_for_only m s); [exact Hinv|fo|exact Hm| |].
      + cbn. rewrite set_call_eq. exact L1.
      + cbn. rewrite Ef. unfold FlatThr_Spec.in_flat. cbn. rewrite set_call_eq, py_insert_length.
        assert (Hi : i < length (fl_children (t_fl s) m)) by (apply nth_error_Some; congruence).
        rewrite delete_at_length by exact Hi. lia.
    - cbn in Lo. destruct Lo as [L1 L2].
      destruct (Nat.lt_ge_cases k (length (fl_items (t_fl s)))) as [Hk|Hk].
      + rewrite py_del_nat by exact Hk. apply (finv_for_only m s); [exact Hinv|fo|exact Hm| |].
        * cbn. rewrite set_call_eq. exact L1.
        * cbn. rewrite Ef. unfold FlatThr_Spec.in_flat. cbn. rewrite set_call_eq, insert_at_length, delete_at_length by exact Hk. lia.
      + rewrite py_del_out by exact Hk. apply (finv_for_only m s); [exact Hinv|fo|exact Hm| |].
        * cbn. rewrite set_call_eq. exact L1.
        * cbn. rewrite Ef. unfold FlatThr_Spec.in_flat. cbn. rewrite set_call_eq, insert_at_length, app_length. simpl. lia.
    - apply (finv_for_only m s); [exact Hinv|fo|exact Hm| |].
      + cbn. rewrite set_call_eq. exact Lo.
      + cbn. rewrite Ef. unfold FlatThr_Spec.in_flat. cbn. rewrite set_call_eq. lia.
    - apply (finv_for_only m s); [exact Hinv|fo|exact Hm| |].
      + cbn. rewrite set_call_eq. exact Lo.
      + cbn. rewrite Ef. unfold FlatThr_Spec.in_flat. cbn. rewrite set_call_eq. lia.
  Qed.

  Lemma kbegin_inv (s : fth) m e l :
    finv s -> t_call s m = None ->
    match e with
    | KIns i x => i <= length (fl_kids (t_fl s) m) /\ l = insert_at i x (fl_kids (t_fl s) m)
    | KRem i x => nth_error (fl_kids (t_fl s) m) i = Some x /\ l = delete_at i (fl_kids (t_fl s) m)
    end -> finv (kbegin M_dec s m e l).
  Proof.
    intros Hinv Ec He. unfold kbegin. cbn [with_kids fl_listen fl_master fl_kids].
    destruct (fl_in M_dec m (fl_listen (t_fl s))) eqn:El.
    - apply fl_in_spec in El. apply (i_listen s Hinv) in El. pose proof (i_local s Hinv m El) as Lo. rewrite Ec in Lo. cbn in Lo.
      apply (finv_for_only m s); [exact Hinv|fo|exact El| |].
      + cbn. rewrite set_call_eq, upd_eq. cbn. rewrite Lo. exact He.
      + cbn. unfold FlatThr_Spec.in_flat. cbn. rewrite set_call_eq, Ec. lia.
    - apply fl_in_false in El. assert (Hn : ~ In m (fl_master (t_fl s))) by (intros Hx; apply El, (i_listen s Hinv), Hx).
      destruct Hinv as [Nd Li Ou Ma Ca Lo Co]. split; cbn; try assumption.
      intros m' H. rewrite upd_neq by (intros ->; contradiction). apply Lo, H.
  Qed.

  Lemma idle_of (s : fth) : finv s -> forallb (no_call (t_call s)) (fl_listen (t_fl s)) = true -> idle s.
  Proof.
    intros Hinv H m. destruct (t_call s m) as [p|] eqn:E; [|reflexivity]. exfalso.
    assert (Hm : In m (fl_listen (t_fl s))) by (apply (i_listen s Hinv), (i_call s Hinv); congruence).
    rewrite forallb_forall in H. specialize (H m Hm). unfold no_call in H. rewrite E in H. discriminate.
  Qed.
  Lemma idle_forallb (s : fth) : idle s -> forallb (no_call (t_call s)) (fl_listen (t_fl s)) = true.
  Proof. intros H. apply forallb_forall. intros m _. unfold no_call. rewrite H. reflexivity. Qed.

  (** with the items in order it would be a state of Flattened_Model.v *)
  Definition straight (s : fth) : flstate := with_items (t_fl s) (flat_map (fl_children (t_fl s)) (fl_master (t_fl s))).
  Lemma straight_inv (s : fth) : finv s -> idle s -> fl_inv (straight s).
  Proof.
    intros [Nd Li Ou Ma Ca Lo Co] Hid. split; [split; cbn; assumption || reflexivity|]. split; [|exact Ma].
    intros m Hm. cbn in *. specialize (Lo m Hm). rewrite (Hid m) in Lo. exact Lo.
  Qed.
  Lemma idle_flat (s : fth) ms : idle s -> flat_map (in_flat s) ms = flat_map (fl_children (t_fl s)) ms.
  Proof. intros Hid. apply flat_map_same. intros m _. unfold FlatThr_Spec.in_flat. rewrite (Hid m). reflexivity. Qed.

  Lemma seq_step (s : fth) o f tr e :
    finv s -> idle s -> fl_proper (t_fl s) o -> fl_step M_dec (t_fl s) o = (f, tr, e) ->
    exists f1, fl_step M_dec (straight s) o = (f1, tr, e) /\ fl_inv f1 /\ f = with_items f1 (fl_items f) /\
      length (fl_items f) = length (fl_items f1) + length (t_raised s).
  Proof.
    intros Hinv Hid Ho E. pose proof (straight_inv s Hinv Hid) as Hs.
    destruct (fl_step M_dec (straight s) o) as [[f1 tr1] e1] eqn:E1.
    assert (Ho' : fl_proper (straight s) o) by (destruct o as [| | | |[]]; exact Ho).
    pose proof (i_count s Hinv) as Co. rewrite (idle_flat s _ Hid) in Co.
    destruct (lift_step M_dec _ _ _ _ _ (fl_items (t_fl s)) E1 Hs Ho') as (L1 & E2 & H2); [cbn; lia|].
    replace (with_items (straight s) (fl_items (t_fl s))) with (t_fl s) in E2 by (destruct s as [[]]; reflexivity).
    rewrite E in E2. injection E2 as -> -> ->. exists f1. split; [reflexivity|].
    split; [apply (fl_step_lemma M_dec _ _ _ _ _ E1 Hs Ho')|]. split; [reflexivity|].
    cbn in *. lia.
  Qed.

  Lemma fstep_inv (s : fth) a : finv s -> fproper s a -> finv (fstep M_dec s a).
  Proof.
    intros Hinv Hp. destruct a as [m i x|m i|m|o]; cbn [fstep fproper] in *.
    - destruct (t_call s m) eqn:Ec; [exact Hinv|]. apply kbegin_inv; auto.
    - destruct (t_call s m) eqn:Ec; [exact Hinv|]. destruct (nth_error (fl_kids (t_fl s) m) i) as [x|] eqn:En; [|exact Hinv].
      apply kbegin_inv; auto.
    - apply kgo_inv, Hinv.
    - destruct (forallb _ _) eqn:Hf; [|exact Hinv]. pose proof (idle_of s Hinv Hf) as Hid.
      destruct (fl_step M_dec (t_fl s) o) as [[f tr] e] eqn:E.
      destruct (seq_step s o f tr e Hinv Hid Hp E) as (f1 & _ & Hi & Ef & Hl). destruct Hi as ([Nd Li Ou It] & Sy & Ma).
      assert (Hid' : idle (Fth f (t_call s) (t_said s ++ tr) (t_raised s))) by exact Hid.
      remember (fl_items f) as L eqn:EL. clear EL E. subst f.
      split; cbn; try assumption.
      + intros m Hm. exfalso. apply Hm. apply Hid.
      + intros m Hm. rewrite (Hid m). cbn. apply Sy, Hm.
      + rewrite (idle_flat _ _ Hid'). cbn. rewrite <- It. exact Hl.
  Qed.
  Lemma frun_inv h : forall s : fth, finv s -> along M_dec fproper s h -> finv (frun M_dec h s).
  Proof.
    induction h as [|a h IH]; intros s Hi Ha; [exact Hi|]. destruct Ha as [Ha Ha']. apply (IH (fstep M_dec s a)); [apply fstep_inv; assumption|exact Ha'].
  Qed.
  Lemma new_inv kids : finv (fth_new kids).
  Proof. split; cbn; try reflexivity; try (constructor; fail); intros; try tauto; congruence. Qed.

  (** ** in place *)
  Definition ordered (s : fth) : Prop := fl_items (t_fl s) = flat_map (in_flat s) (fl_master (t_fl s)) /\ t_raised s = [].

  Lemma ordered_for_only m (s s' : fth) a b :
    finv s -> for_only m s s' -> fl_master (t_fl s) = a ++ m :: b ->
    flat_map (in_flat s') (fl_master (t_fl s')) = flat_map (in_flat s) a ++ in_flat s' m ++ flat_map (in_flat s) b.
  Proof.
    intros Hinv Fo E. pose proof (for_only_flat m s s' Fo) as Hf. rewrite (fo_master _ _ _ Fo), E.
    apply flat_map_swap; [exact Hf|]. rewrite <- E. apply (i_nodup s Hinv).
  Qed.

  Lemma flat_ins (s : fth) m i x k a b :
    finv s -> t_call s m = Some (PFlat (KIns i x) k) -> fl_master (t_fl s) = a ++ m :: b ->
    let s' := kgo M_dec s m in
    for_only m s s' /\ t_raised s' = t_raised s /\ fl_items (t_fl s') = py_insert (Z.of_nat k) x (fl_items (t_fl s)) /\
    exists c, in_flat s m = c /\ i <= length c /\ in_flat s' m = insert_at i x c.
  Proof.
    intros Hinv Ec Em. cbv zeta. unfold kgo. rewrite Ec. split; [fo|]. split; [reflexivity|]. split; [reflexivity|].
    assert (Hm : In m (fl_master (t_fl s))) by (rewrite Em; apply in_app_iff; right; left; reflexivity).
    pose proof (i_local s Hinv m Hm) as Lo. rewrite Ec in Lo. cbn in Lo. destruct Lo as [L1 L2].
    assert (Hi : i < length (fl_children (t_fl s) m)) by (apply nth_error_Some; congruence).
    eexists. split; [reflexivity|]. unfold FlatThr_Spec.in_flat. cbn. rewrite Ec, set_call_eq.
    rewrite insert_delete_at by exact L2. split; [rewrite delete_at_length by exact Hi; lia|reflexivity].
  Qed.
  Lemma flat_rem (s : fth) m i x k a b :
    finv s -> t_call s m = Some (PFlat (KRem i x) k) -> fl_master (t_fl s) = a ++ m :: b ->
    let s' := kgo M_dec s m in
    for_only m s s' /\
    (k < length (fl_items (t_fl s)) /\ t_raised s' = t_raised s /\ fl_items (t_fl s') = delete_at k (fl_items (t_fl s)) \/
     length (fl_items (t_fl s)) <= k /\ t_raised s' = t_raised s ++ [IndexError] /\ fl_items (t_fl s') = fl_items (t_fl s)) /\
    exists c, in_flat s m = c /\ nth_error c i = Some x /\ in_flat s' m = delete_at i c.
  Proof.
    intros Hinv Ec Em. cbv zeta. unfold kgo. rewrite Ec.
    assert (Hm : In m (fl_master (t_fl s))) by (rewrite Em; apply in_app_iff; right; left; reflexivity).
    pose proof (i_local s Hinv m Hm) as Lo. rewrite Ec in Lo. cbn in Lo. destruct Lo as [L1 L2].
    destruct (Nat.lt_ge_cases k (length (fl_items (t_fl s)))) as [Hk|Hk].
    - rewrite py_del_nat by exact Hk. split; [fo|]. split; [left; auto|].
      eexists. split; [reflexivity|]. unfold FlatThr_Spec.in_flat. cbn. rewrite Ec, set_call_eq.
      rewrite delete_insert_at by exact L2. split; [apply nth_insert_at, L2|reflexivity].
    - rewrite py_del_out by exact Hk. split; [fo|]. split; [right; auto|].
      eexists. split; [reflexivity|]. unfold FlatThr_Spec.in_flat. cbn. rewrite Ec, set_call_eq.
      rewrite delete_insert_at by exact L2. split; [apply nth_insert_at, L2|reflexivity].
  Qed.

  (** the other steps of a call leave the flattened list and what should be in it alone *)
  Lemma kgo_other (s : fth) m :
    finv s -> (forall e k, t_call s m <> Some (PFlat e k)) ->
    let s' := kgo M_dec s m in
    t_raised s' = t_raised s /\ fl_items (t_fl s') = fl_items (t_fl s) /\ fl_master (t_fl s') = fl_master (t_fl s) /\
    fl_kids (t_fl s') = fl_kids (t_fl s) /\ for_only m s s' /\ in_flat s' m = in_flat s m.
  Proof.
    intros Hinv Hn. cbv zeta. unfold kgo. destruct (t_call s m) as [p|] eqn:Ec.
    2:{ repeat split. }
    assert (Hm : In m (fl_master (t_fl s))) by (apply (i_call s Hinv); congruence).
    pose proof (i_local s Hinv m Hm) as Lo. rewrite Ec in Lo.
    destruct p as [e acc [|m' rest]|[i x|i x] k|e k|[i x|i x] k]; try (exfalso; eapply Hn; reflexivity).
    - split; [reflexivity|]. do 3 (split; [reflexivity|]). split; [fo|]. unfold FlatThr_Spec.in_flat. cbn. rewrite set_call_eq, Ec. reflexivity.
    - destruct (M_dec m' m); (split; [reflexivity|]; do 3 (split; [reflexivity|]); split; [fo|]; unfold FlatThr_Spec.in_flat; cbn; rewrite set_call_eq, Ec; reflexivity).
    - cbn in Lo. destruct Lo as [L1 L2]. split; [reflexivity|]. do 3 (split; [reflexivity|]). split; [fo|].
      unfold FlatThr_Spec.in_flat. cbn. rewrite set_call_eq, Ec, upd_eq, py_insert_nat, delete_insert_at by exact L1. reflexivity.
    - cbn in Lo. destruct Lo as [L1 L2]. assert (Hi : i < length (fl_children (t_fl s) m)) by (apply nth_error_Some; congruence).
      rewrite py_del_nat by exact Hi. split; [reflexivity|]. do 3 (split; [reflexivity|]). split; [fo|].
      unfold FlatThr_Spec.in_flat. cbn. rewrite set_call_eq, Ec, upd_eq, insert_delete_at by exact L1. reflexivity.
    - split; [reflexivity|]. do 3 (split; [reflexivity|]). split; [fo|]. unfold FlatThr_Spec.in_flat. cbn. rewrite set_call_eq, Ec. reflexivity.
    - split; [reflexivity|]. do 3 (split; [reflexivity|]). split; [fo|]. unfold FlatThr_Spec.in_flat. cbn. rewrite set_call_eq, Ec. reflexivity.
  Qed.

  Lemma kbegin_other (s : fth) m e l :
    t_call s m = None ->
    let s' := kbegin M_dec s m e l in
    t_raised s' = t_raised s /\ fl_items (t_fl s') = fl_items (t_fl s) /\ fl_master (t_fl s') = fl_master (t_fl s) /\
    t_said s' = t_said s /\ (forall m', in_flat s' m' = in_flat s m').
  Proof.
    intros Ec. cbv zeta. unfold kbegin. destruct (fl_in _ _ _).
    - do 4 (split; [reflexivity|]). intros m'. unfold FlatThr_Spec.in_flat. cbn.
      destruct (M_dec m' m) as [->|N]; [rewrite set_call_eq, Ec; reflexivity|rewrite set_call_neq by exact N; reflexivity].
    - repeat split.
  Qed.

  Lemma same_flat (s s' : fth) :
    (forall m, in_flat s' m = in_flat s m) -> fl_master (t_fl s') = fl_master (t_fl s) -> fl_items (t_fl s') = fl_items (t_fl s) ->
    t_raised s' = t_raised s -> ordered s -> ordered s'.
  Proof.
    intros H1 H2 H3 H4 [O1 O2]. split; [|congruence]. rewrite H2, H3, O1. symmetry. apply flat_map_same. intros m _. apply H1.
  Qed.

  Lemma for_only_all m (s s' : fth) : for_only m s s' -> in_flat s' m = in_flat s m -> forall m', in_flat s' m' = in_flat s m'.
  Proof. intros Fo E m'. destruct (M_dec m' m) as [->|N]; [exact E|]. apply (for_only_flat m s s' Fo m' N). Qed.

  Lemma ordered_step (s : fth) a : finv s -> fproper s a -> in_place M_dec s a -> ordered s -> ordered (fstep M_dec s a).
  Proof.
    intros Hinv Hp Hpl Hor. destruct a as [m i x|m i|m|o]; cbn [fstep fproper in_place] in *.
    - destruct (t_call s m) eqn:Ec; [exact Hor|]. destruct (kbegin_other s m (KIns i x) (insert_at i x (fl_kids (t_fl s) m)) Ec) as (H1 & H2 & H3 & _ & H4).
      apply (same_flat s); assumption.
    - destruct (t_call s m) eqn:Ec; [exact Hor|]. destruct (nth_error (fl_kids (t_fl s) m) i) as [x|] eqn:En; [|exact Hor].
      destruct (kbegin_other s m (KRem i x) (delete_at i (fl_kids (t_fl s) m)) Ec) as (H1 & H2 & H3 & _ & H4).
      apply (same_flat s); assumption.
    - destruct (t_call s m) as [[e acc rest|e k|[i x|i x] k|e k]|] eqn:Ec;
        try (destruct (kgo_other s m Hinv ltac:(congruence)) as (H1 & H2 & H3 & _ & H4 & H5);
             apply (same_flat s); try assumption; apply (for_only_all m); assumption).
      + assert (Hm : In m (fl_master (t_fl s))) by (apply (i_call s Hinv); congruence).
        apply in_split in Hm as (a & b & Em). pose proof (i_nodup s Hinv) as Nd.
        destruct (flat_ins s m i x k a b Hinv Ec Em) as (Fo & R & It & c & C1 & C2 & C3).
        rewrite Em in Hpl, Nd. rewrite before_split in Hpl by exact Nd. cbn in Hpl. destruct Hor as [O1 O2].
        split; [|congruence]. rewrite (ordered_for_only m s _ a b Hinv Fo Em), It, O1, Em, flat_map_app. simpl. rewrite C1, C3.
        rewrite O1, Em, flat_map_app in Hpl. simpl in Hpl. rewrite C1 in Hpl.
        rewrite py_insert_min, Hpl. rewrite insert_at_front, insert_at_back by exact C2. reflexivity.
      + assert (Hm : In m (fl_master (t_fl s))) by (apply (i_call s Hinv); congruence).
        apply in_split in Hm as (a & b & Em). pose proof (i_nodup s Hinv) as Nd.
        destruct (flat_rem s m i x k a b Hinv Ec Em) as (Fo & Hc & c & C1 & C2 & C3).
        rewrite Em in Hpl, Nd. rewrite before_split in Hpl by exact Nd. cbn in Hpl. destruct Hor as [O1 O2].
        assert (Hi : i < length c) by (apply nth_error_Some; congruence).
        assert (Hk : k < length (fl_items (t_fl s))) by (rewrite O1, Em, flat_map_app; simpl; rewrite C1, !app_length; lia).
        destruct Hc as [(_ & R & It)|(Hk' & _)]; [|lia].
        split; [|congruence]. rewrite (ordered_for_only m s _ a b Hinv Fo Em), It, O1, Em, flat_map_app. simpl. rewrite C1, C3.
        rewrite Hpl, delete_at_front, delete_at_back by exact Hi. reflexivity.
    - destruct (forallb _ _) eqn:Hf; [|exact Hor]. pose proof (idle_of s Hinv Hf) as Hid.
      destruct (fl_step M_dec (t_fl s) o) as [[f tr] e] eqn:E. destruct Hor as [O1 O2].
      assert (Es : straight s = t_fl s).
      { unfold straight. rewrite <- (idle_flat s _ Hid), <- O1. destruct s as [[]]; reflexivity. }
      destruct (seq_step s o f tr e Hinv Hid Hp E) as (f1 & E1 & Hi & _). rewrite Es, E in E1. injection E1 as <-.
      split; [|exact O2]. cbn. destruct Hi as ([_ _ _ It] & _ & _). rewrite It. symmetry. apply (idle_flat (Fth f (t_call s) (t_said s ++ tr) (t_raised s)) (fl_master f) Hid).
  Qed.
  Lemma ordered_run h : forall s : fth, finv s -> along M_dec fproper s h -> along M_dec (in_place M_dec) s h -> ordered s -> ordered (frun M_dec h s).
  Proof.
    induction h as [|a h IH]; intros s Hi Ha Hb Ho; [exact Ho|]. destruct Ha as [Ha Ha']. destruct Hb as [Hb Hb'].
    apply (IH (fstep M_dec s a)); [apply fstep_inv; assumption|exact Ha'|exact Hb'|apply ordered_step; assumption].
  Qed.
End P.
