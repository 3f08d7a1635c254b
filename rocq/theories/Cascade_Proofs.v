(** Filtered lists in a row: one list under the notifications of the one before it, and the listeners. *)
From Coq Require Import List ZArith Bool Arith Permutation Sorted Lia.
From Verif Require Import PyBase Filtered_Model Filtered_Spec Filtered_Proofs Filtered_Proofs2 Filtered_Proofs3 Chain_Model Chain_Spec Chain_Proofs Chain_Proofs2 Chain_Proofs3
  Cascade_Model Cascade_Spec.
Import ListNotations.

Section P.
  Context {A C K : Type} (A_dec : forall a b : A, {a = b} + {a <> b}) (lt : K -> K -> bool).
  Notation fstate := (fstate A C K).
  Notation inv := (inv (A := A) (C := C) (K := K)).
  Notation deliver := (deliver A_dec lt).
  Notation deliver1 := (deliver1 A_dec lt).

  (** ** what a list fires can be relied on by the next one *)
  Lemma deliver1_phase (s : fstate) e s' t : deliver1 s e = (s', t) ->
    (not_ins e = true -> forallb not_ins t = true) /\ two_phase t.
  Proof.
    unfold Chain_Model.deliver1. destruct (fs_cont s) as [l|] eqn:Ec; [|intros [= <- <-]; split; [reflexivity|apply tp_rem; reflexivity]].
    destruct e; cbn [f_step]; try (destruct (fs_conn s)); try (intros [= <- <-]; split; [reflexivity|apply tp_rem; reflexivity]).
    - rewrite Ec. destruct (item_inserted _ _ _ _ _) as [[s1 t1] e1] eqn:E. cbn [fst]. intros [= <- <-].
      split; [discriminate|]. apply tp_ins. eapply item_inserted_nr. exact E.
    - rewrite Ec. intros [= <- <-]; split; [reflexivity|apply tp_rem; reflexivity].
    - destruct (item_removed _ _ _ _) as [[s1 t1] e1] eqn:E. cbn [fst]. intros [= <- <-].
      apply item_removed_ni in E. split; [auto|apply tp_rem; exact E].
  Qed.
  Lemma deliver1_out (s : fstate) e s' t : deliver1 s e = (s', t) -> NoDup (fs_items s') -> feeds (fs_items s) t (fs_items s').
  Proof. intros E Hd. apply named_feeds; [eapply deliver1_tidy; exact E|apply (deliver1_phase _ _ _ _ E)|exact Hd]. Qed.
  Lemma deliver_ni tr : forall (s : fstate) s' t, deliver s tr = (s', t) -> forallb not_ins tr = true -> forallb not_ins t = true.
  Proof.
    induction tr as [|e tr IH]; intros s s' t E H; [injection E as <- <-; reflexivity|].
    cbn [forallb] in H. apply andb_prop in H as [He H]. cbn in E. destruct (deliver1 s e) as [s1 t1] eqn:E1.
    destruct (deliver s1 tr) as [s2 t2] eqn:E2. injection E as <- <-. rewrite forallb_app.
    rewrite (proj1 (deliver1_phase _ _ _ _ E1) He), (IH _ _ _ E2 H). reflexivity.
  Qed.

  Lemma deliver_out l tr l' : feeds l tr l' -> forall (s : fstate) s' t,
    deliver s tr = (s', t) -> inv s -> fs_cont s = Some l -> feeds (fs_items s) t (fs_items s').
  Proof.
    induction 1 as [l|l e tr l' Hq _ IH|l x k tr l' Hx _ IH|l l1 x l2 tr l' -> _ IH|l tr l' _ IH]; intros s s' t E H Ec.
    - injection E as <- <-. constructor.
    - cbn in E. destruct (deliver1 s e) as [s1 t1] eqn:E1. destruct (deliver s1 tr) as [s2 t2] eqn:E2. injection E as <- <-.
      destruct (deliver_quiet A_dec lt _ _ _ _ _ E1 Hq H Ec) as [K1 C1].
      eapply feeds_app; [eapply deliver1_out; [exact E1|apply inv_nodup, K1]|eapply IH; [exact E2|apply K1|exact C1]].
    - cbn in E. destruct (deliver1 s (FIns x k)) as [s1 t1] eqn:E1. destruct (deliver s1 tr) as [s2 t2] eqn:E2. injection E as <- <-.
      destruct (deliver_ins A_dec lt _ _ _ _ _ _ E1 H Ec Hx) as [K1 C1].
      eapply feeds_app; [eapply deliver1_out; [exact E1|apply inv_nodup, K1]|eapply IH; [exact E2|apply K1|exact C1]].
    - cbn in E. destruct (deliver1 s (FRem x (length l1))) as [s1 t1] eqn:E1. destruct (deliver s1 tr) as [s2 t2] eqn:E2. injection E as <- <-.
      destruct (deliver_rem A_dec lt _ _ _ _ _ _ E1 H Ec) as [K1 C1].
      eapply feeds_app; [eapply deliver1_out; [exact E1|apply inv_nodup, K1]|eapply IH; [exact E2|apply K1|exact C1]].
    - rewrite deliver_app in E. destruct (deliver s (pop_loop l l)) as [s1 t1] eqn:E1. destruct (deliver s1 tr) as [s2 t2] eqn:E2. injection E as <- <-.
      destruct (deliver_pop_kept A_dec lt _ _ _ _ E1 H Ec) as [K1 C1].
      eapply feeds_app; [|eapply IH; [exact E2|apply K1|exact C1]].
      apply names_rem_feeds; [eapply deliver_names; exact E1|]. eapply deliver_ni; [exact E1|apply pop_loop_ni].
  Qed.

  (** ** notifications about one item only *)
  Definition xonly (x : A) (e : fev A) : Prop := match e with FIns y _ | FRem y _ => y = x | _ => True end.
  Lemma content_trace_xonly x t : content_trace x t -> Forall (xonly x) t.
  Proof. intros []; repeat constructor. Qed.
  Lemma deliver1_xonly x (s : fstate) e s' t : deliver1 s e = (s', t) -> xonly x e -> Forall (xonly x) t.
  Proof.
    unfold Chain_Model.deliver1. destruct (fs_cont s) as [l|] eqn:Ec; [|intros [= <- <-]; constructor].
    destruct e; cbn [f_step]; try (destruct (fs_conn s)); try (intros [= <- <-] _; repeat constructor).
    - rewrite Ec. unfold item_inserted. destruct (Filtered_Model.inb _ _ _); [intros [= <- <-] _; constructor|].
      destruct (inserted_master _ _ _ _) as [s2 t2] eqn:E. intros [= <- <-] Hx. cbn in Hx. subst.
      apply inserted_master_trace in E as [->|[k' ->]]; repeat constructor.
    - rewrite Ec. intros [= <- <-] _. constructor.
    - unfold item_removed. destruct (py_del _ _); [|intros [= <- <-] _; constructor]. destruct (Filtered_Model.inb _ _ _); [|intros [= <- <-] _; constructor].
      destruct (removed_master _ _ _) as [s2 t2] eqn:E. intros [= <- <-] Hx. cbn in Hx. subst.
      apply removed_master_trace in E as [->|[k' ->]]; repeat constructor.
  Qed.
  Lemma deliver_xonly x tr : forall (s : fstate) s' t, deliver s tr = (s', t) -> Forall (xonly x) tr -> Forall (xonly x) t.
  Proof.
    induction tr as [|e tr IH]; intros s s' t E H; [injection E as <- <-; constructor|].
    inversion H; subst. cbn in E. destruct (deliver1 s e) as [s1 t1] eqn:E1. destruct (deliver s1 tr) as [s2 t2] eqn:E2. injection E as <- <-.
    apply Forall_app. split; [eapply deliver1_xonly; eassumption|eapply IH; eassumption].
  Qed.
  Lemma pop_xonly x l : forall m, Forall (xonly x) (pop_loop l m) -> Forall (eq x) l.
  Proof. induction l as [|y l IH]; intros m H; [constructor|]. cbn in H. inversion H; subst. constructor; [symmetry; assumption|eapply IH; eassumption]. Qed.
  Lemma only_one (x : A) l : Forall (eq x) l -> NoDup l -> In x l -> l = [x].
  Proof.
    intros H Hd Hi. destruct l as [|a [|b l]]; [destruct Hi|inversion H; subst; reflexivity|].
    inversion H as [|? ? -> H2]; subst. inversion H2; subst. inversion Hd as [|? ? Hn]; subst. destruct Hn. left. reflexivity.
  Qed.

  (** ** listeners *)
  Lemma registered_spec r j (y : A) : registered A_dec r j y = true <-> In (j, y) r.
  Proof.
    unfold registered. rewrite existsb_exists. split.
    - intros ([i z] & Hi & H). cbn in H. apply andb_prop in H as [H1 H2]. apply Nat.eqb_eq in H1. destruct (A_dec z y); [|discriminate]. subst. exact Hi.
    - intros H. exists (j, y). split; [exact H|]. cbn. rewrite Nat.eqb_refl. destruct (A_dec y y); [reflexivity|congruence].
  Qed.
  Lemma relisten_spec j (now : list A) r k y :
    In (k, y) (relisten A_dec j now r) <-> (k <> j /\ In (k, y) r) \/ (k = j /\ In y now).
  Proof.
    unfold relisten. set (kp := filter _ r). rewrite in_app_iff, in_map_iff.
    assert (Hk : In (k, y) kp <-> In (k, y) r /\ (k <> j \/ In y now)).
    { unfold kp. rewrite filter_In. cbn [fst snd]. rewrite orb_true_iff, negb_true_iff, Nat.eqb_neq, (inb_spec A_dec). reflexivity. }
    rewrite Hk. destruct (Nat.eq_dec k j) as [->|Hn].
    - split.
      + intros [[_ [H|H]]|(z & E & Hz)]; [contradiction|right; auto|]. injection E as ->. right. split; [reflexivity|].
        apply filter_In in Hz as [Hz _]. apply nodup_In in Hz. exact Hz.
      + intros [[H _]|[_ H]]; [contradiction|]. destruct (registered A_dec kp j y) eqn:E.
        * apply registered_spec in E. left. apply Hk in E. tauto.
        * right. exists y. split; [reflexivity|]. apply filter_In. split; [apply nodup_In; exact H|rewrite E; reflexivity].
    - split.
      + intros [[H _]|(z & E & _)]; [left; auto|]. congruence.
      + intros [[_ H]|[H _]]; [left; auto|contradiction].
  Qed.
  Lemma relisten_nodup j (now : list A) r : NoDup r -> NoDup (relisten A_dec j now r).
  Proof.
    intros H. unfold relisten. set (kp := filter _ r).
    assert (Hf : forall (l : list A), NoDup l -> (forall y, In y l -> ~ In (j, y) kp) -> NoDup (kp ++ map (pair j) l)).
    { intros l Hl Hn. assert (Hk : NoDup kp) by (apply NoDup_filter; exact H). clear H.
      induction kp as [|p kp IH]; cbn [app].
      - apply FinFun.Injective_map_NoDup; [intros a b E; congruence|exact Hl].
      - inversion Hk; subst. constructor; [|apply IH; [|assumption]].
        + intros Hi. apply in_app_iff in Hi as [Hi|Hi]; [contradiction|]. apply in_map_iff in Hi as (y & E & Hy).
          apply (Hn y Hy). left. symmetry. exact E.
        + intros y Hy Hi. apply (Hn y Hy). right. exact Hi. }
    apply Hf; [apply NoDup_filter, NoDup_nodup|]. intros y Hy Hi. apply filter_In in Hy as [_ Hy].
    apply registered_spec in Hi. rewrite Hi in Hy. discriminate.
  Qed.
  Lemma hear_spec j tr : forall (s : fstate) r k y,
    (In (j, y) r <-> In y (fs_listen s)) ->
    (In (k, y) (hear A_dec lt j s tr r) <-> (k <> j /\ In (k, y) r) \/ (k = j /\ In y (fs_listen (fst (deliver s tr))))).
  Proof.
    induction tr as [|e tr IH]; intros s r k y Hr; cbn [hear].
    - cbn. destruct (Nat.eq_dec k j) as [->|Hn]; tauto.
    - cbn [Chain_Model.deliver]. destruct (deliver1 s e) as [s1 t1]. cbn [fst]. rewrite IH.
      + rewrite relisten_spec. destruct (deliver s1 tr) as [s2 t2]. cbn [fst]. tauto.
      + rewrite relisten_spec. tauto.
  Qed.
  Lemma hear_nodup j tr : forall (s : fstate) r, NoDup r -> NoDup (hear A_dec lt j s tr r).
  Proof. induction tr as [|e tr IH]; intros s r H; [exact H|]. cbn [hear]. apply IH, relisten_nodup, H. Qed.

  (** the listeners recorded are those of the lists [ls], the first of them with number [j] *)
  Definition regs_ok (j : nat) (ls : list fstate) (r : regs) : Prop :=
    forall i y, In (j + i, y) r <-> exists s, nth_error ls i = Some s /\ In y (fs_listen s).
  Lemma regs_ok_cons j s ls r : regs_ok j (s :: ls) r <-> (forall y, In (j, y) r <-> In y (fs_listen s)) /\ regs_ok (S j) ls r.
  Proof.
    split.
    - intros H. split.
      + intros y. specialize (H 0 y). rewrite Nat.add_0_r in H. rewrite H. cbn. split; [intros (s' & E & Hy); congruence|eauto].
      + intros i y. specialize (H (S i) y). replace (j + S i) with (S j + i) in H by lia. exact H.
    - intros [H1 H2] [|i] y.
      + rewrite Nat.add_0_r, H1. cbn. split; [eauto|intros (s' & E & Hy); congruence].
      + replace (j + S i) with (S j + i) by lia. apply H2.
  Qed.
  Definition below_same (j : nat) (r r' : regs (A := A)) : Prop := forall k y, k < j -> (In (k, y) r' <-> In (k, y) r).
  Definition above_same (j : nat) (r r' : regs (A := A)) : Prop := forall k y, j < k -> (In (k, y) r' <-> In (k, y) r).
  Lemma regs_ok_above j ls r r' : above_same j r r' -> regs_ok (S j) ls r -> regs_ok (S j) ls r'.
  Proof. intros H Hr i y. rewrite (H (S j + i) y) by lia. apply Hr. Qed.

  Lemma flow_regs ls : forall j tr r ls' ts r',
    flow A_dec lt j ls tr r = (ls', ts, r') -> regs_ok j ls r -> NoDup r ->
    regs_ok j ls' r' /\ below_same j r r' /\ NoDup r' /\ length ls' = length ls /\ length ts = length ls.
  Proof.
    induction ls as [|s ls IH]; intros j tr r ls' ts r' E Hr Hd.
    - injection E as <- <- <-. split; [exact Hr|]. split; [intros k y _; reflexivity|]. auto.
    - cbn [flow] in E. destruct (deliver s tr) as [s1 t1] eqn:E1.
      destruct (flow A_dec lt (S j) ls t1 (hear A_dec lt j s tr r)) as [[ls2 ts2] r2] eqn:E2. injection E as <- <- <-.
      apply regs_ok_cons in Hr as [Hj Hr].
      assert (Hh : forall k y, In (k, y) (hear A_dec lt j s tr r) <-> (k <> j /\ In (k, y) r) \/ (k = j /\ In y (fs_listen s1))).
      { intros k y. rewrite hear_spec by apply Hj. rewrite E1. reflexivity. }
      destruct (IH _ _ _ _ _ _ E2) as (R2 & B2 & D2 & L2 & T2).
      { eapply regs_ok_above; [|exact Hr]. intros k y Hk. rewrite Hh. split; [intros [[_ H]|[-> _]]; [exact H|lia]|intros H; left; split; [lia|exact H]]. }
      { apply hear_nodup, Hd. }
      split; [|split; [|split; [exact D2|cbn; auto]]].
      + apply regs_ok_cons. split; [|exact R2]. intros y. rewrite (B2 _ y) by lia. rewrite Hh. tauto.
      + intros k y Hk. rewrite (B2 _ y) by lia. rewrite Hh. split; [intros [[_ H]|[-> _]]; [exact H|lia]|intros H; left; split; [lia|exact H]].
  Qed.

  Lemma at_level_regs f g i : (forall j s r, NoDup r ->
      NoDup (g j s (fst (f s)) r) /\ (forall k y, k <> j -> (In (k, y) (g j s (fst (f s)) r) <-> In (k, y) r)) /\
      ((forall y, In (j, y) r <-> In y (fs_listen s)) -> forall y, In (j, y) (g j s (fst (f s)) r) <-> In y (fs_listen (fst (f s))))) ->
    forall ls j r ls' ts r', at_level A_dec lt f g j i ls r = (ls', ts, r') -> regs_ok j ls r -> NoDup r ->
    regs_ok j ls' r' /\ below_same j r r' /\ NoDup r' /\ length ls' = length ls /\ length ts = length ls.
  Proof.
    intros Hg. induction i as [|i IH]; intros ls j r ls' ts r' E Hr Hd; (destruct ls as [|s ls];
      [injection E as <- <- <-; split; [exact Hr|split; [intros k y _; reflexivity|auto]]|]); cbn [at_level] in E; apply regs_ok_cons in Hr as [Hj Hr].
    - specialize (Hg j s r Hd). destruct (f s) as [s1 t1] eqn:Ef. cbn [fst] in Hg. destruct Hg as (G1 & G2 & G3). specialize (G3 Hj).
      destruct (flow _ _ _ _ _ _) as [[ls2 ts2] r2] eqn:E2. injection E as <- <- <-.
      destruct (flow_regs _ _ _ _ _ _ _ E2) as (R2 & B2 & D2 & L2 & T2).
      { eapply regs_ok_above; [|exact Hr]. intros k y Hk. apply G2. lia. } { exact G1. }
      split; [|split; [|split; [exact D2|cbn; auto]]].
      + apply regs_ok_cons. split; [|exact R2]. intros y. rewrite (B2 _ y) by lia. apply G3.
      + intros k y Hk. rewrite (B2 _ y) by lia. apply G2. lia.
    - destruct (at_level _ _ _ _ _ _ _ _) as [[ls2 ts2] r2] eqn:E2. injection E as <- <- <-.
      destruct (IH _ _ _ _ _ _ E2 Hr Hd) as (R2 & B2 & D2 & L2 & T2). split; [|split; [|split; [exact D2|cbn; auto]]].
      + apply regs_ok_cons. split; [|exact R2]. intros y. rewrite (B2 _ y) by lia. apply Hj.
      + intros k y Hk. apply B2. lia.
  Qed.

  Lemma listen_op_good o : forall j (s : fstate) r, NoDup r ->
      NoDup (listen_op A_dec o j s (fst (do_op A_dec lt o s)) r) /\
      (forall k y, k <> j -> (In (k, y) (listen_op A_dec o j s (fst (do_op A_dec lt o s)) r) <-> In (k, y) r)) /\
      ((forall y, In (j, y) r <-> In y (fs_listen s)) -> forall y, In (j, y) (listen_op A_dec o j s (fst (do_op A_dec lt o s)) r) <-> In y (fs_listen (fst (do_op A_dec lt o s)))).
  Proof.
    intros j s r Hd. set (s' := fst (do_op A_dec lt o s)).
    assert (H1 : NoDup (relisten A_dec j (fs_listen s') r) /\
      (forall k y, k <> j -> (In (k, y) (relisten A_dec j (fs_listen s') r) <-> In (k, y) r)) /\
      ((forall y, In (j, y) r <-> In y (fs_listen s)) -> forall y, In (j, y) (relisten A_dec j (fs_listen s') r) <-> In y (fs_listen s'))).
    { split; [apply relisten_nodup, Hd|]. split; intros; rewrite relisten_spec; tauto. }
    destruct o; try exact H1. cbn [listen_op]. split; [apply relisten_nodup, relisten_nodup, Hd|]. split; intros; rewrite relisten_spec, relisten_spec; tauto.
  Qed.

  Lemma updated_master_listen (s : fstate) x : fs_listen (fst (updated_master A_dec lt s x)) = fs_listen s.
  Proof.
    assert (I : forall s0 : fstate, fs_listen (fst (inserted_master A_dec lt s0 x)) = fs_listen s0).
    { intros s0. unfold inserted_master, do_insert. destruct (0 <? _)%Z; [reflexivity|]. destruct (matching s0 x); reflexivity. }
    assert (R : forall s0 : fstate, fs_listen (fst (removed_master A_dec s0 x)) = fs_listen s0).
    { intros s0. unfold removed_master. destruct (0 <? _)%Z; [reflexivity|]. destruct (index_of _ _ _); reflexivity. }
    unfold updated_master. destruct (0 <? _)%Z; [reflexivity|].
    repeat match goal with
    | |- context [if ?b then _ else _] => destruct b
    | |- context [match ?o with Some _ => _ | None => _ end] => destruct o
    end; try reflexivity; try apply I; try apply R.
    all: unfold remove_then_insert; pose proof (R s) as Rs; destruct (removed_master A_dec s x) as [s1 t1]; cbn [fst] in Rs;
      pose proof (I s1) as Is; destruct (inserted_master A_dec lt s1 x) as [s2 t2]; cbn [fst] in Is |- *; congruence.
  Qed.
  Lemma heard_good x : forall j (s : fstate) r, NoDup r ->
      NoDup ((fun (_ : nat) (_ _ : fstate) (r : regs) => r) j s (fst (heard A_dec lt x s)) r) /\
      (forall k y, k <> j -> (In (k, y) r <-> In (k, y) r)) /\
      ((forall y : A, In (j, y) r <-> In y (fs_listen s)) -> forall y : A, In (j, y) r <-> In y (fs_listen (fst (heard A_dec lt x s)))).
  Proof.
    intros j s r Hd. split; [exact Hd|]. split; [reflexivity|]. intros H y. unfold heard. rewrite updated_master_listen. apply H.
  Qed.

  Lemma fire_regs x snap : forall closed ls r ls' ts r',
    fire A_dec lt x snap closed ls r = (ls', ts, r') -> regs_ok 0 ls r -> NoDup r ->
    regs_ok 0 ls' r' /\ NoDup r' /\ length ls' = length ls.
  Proof.
    induction snap as [|i snap IH]; intros closed ls r ls' ts r' E Hr Hd; cbn [fire] in E.
    - injection E as <- <- <-. auto.
    - destruct (existsb _ _); [eapply IH; eassumption|]. destruct (negb _); [injection E as <- <- <-; auto|].
      destruct (at_level _ _ _ _ _ _ _ _) as [[ls1 t1] r1] eqn:E1. destruct (fire _ _ _ _ _ _ _) as [[ls2 t2] r2] eqn:E2.
      injection E as <- <- <-.
      destruct (at_level_regs _ _ i (heard_good x) _ _ _ _ _ _ E1 Hr Hd) as (R1 & _ & D1 & L1 & _).
      destruct (IH _ _ _ _ _ _ E2 R1 D1) as (R2 & D2 & L2). rewrite L2. auto.
  Qed.
End P.
