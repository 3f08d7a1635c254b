(** Chained filtered lists: the two lists after every history. *)
From Coq Require Import List ZArith Bool Arith Permutation Sorted Lia.
From Verif Require Import PyBase Filtered_Model Filtered_Spec Filtered_Proofs Filtered_Proofs2 Filtered_Proofs3 Chain_Model Chain_Spec Chain_Proofs Chain_Proofs2.
Import ListNotations.

Section P.
  Context {A C K : Type} (A_dec : forall a b : A, {a = b} + {a <> b}) (lt : K -> K -> bool).
  Notation fstate := (fstate A C K).
  Notation inb := (inb A_dec).
  Notation inv := (inv (A := A) (C := C) (K := K)).
  Notation uns := (uns (A := A) (C := C) (K := K)).
  Notation sor := (sor (A := A) (C := C) lt).
  Notation deliver := (deliver A_dec lt).
  Notation deliver1 := (deliver1 A_dec lt).
  Notation sets := (sets (A := A) (C := C) (K := K)).
  Notation kept := (kept lt).
  Notation view := (view A C K).
  Notation chain := (chain A C K).

  (** ** fields changed by one step *)
  Definition fixed (s s' : fstate) : Prop := sets s s' /\ fs_cont s' = fs_cont s /\ fs_conn s' = fs_conn s.
  Lemma fixed_refl s : fixed s s.
  Proof. split; [apply sets_refl|auto]. Qed.
  Lemma fixed_trans s1 s2 s3 : fixed s1 s2 -> fixed s2 s3 -> fixed s1 s3.
  Proof. intros (A1 & A2 & A3) (B1 & B2 & B3). split; [eapply sets_trans; eassumption|]. split; congruence. Qed.

  Lemma inserted_master_fixed (s : fstate) x s' tr : inserted_master A_dec lt s x = (s', tr) -> fixed s s'.
  Proof.
    unfold inserted_master, do_insert. destruct (0 <? _)%Z; [intros [= <- <-]; apply fixed_refl|].
    destruct (matching s x); intros [= <- <-]; repeat split.
  Qed.
  Lemma removed_master_fixed (s : fstate) x s' tr : removed_master A_dec s x = (s', tr) -> fixed s s'.
  Proof.
    unfold removed_master. destruct (0 <? _)%Z; [intros [= <- <-]; apply fixed_refl|].
    destruct (index_of _ _ _); intros [= <- <-]; repeat split.
  Qed.
  Lemma updated_master_fixed (s : fstate) x s' tr : updated_master A_dec lt s x = (s', tr) -> fixed s s'.
  Proof.
    assert (R : remove_then_insert A_dec lt s x = (s', tr) -> fixed s s').
    { unfold remove_then_insert. destruct (removed_master A_dec s x) as [s1 t1] eqn:E1.
      destruct (inserted_master A_dec lt s1 x) as [s2 t2] eqn:E2. intros [= <- <-].
      eapply fixed_trans; [eapply removed_master_fixed; exact E1|eapply inserted_master_fixed; exact E2]. }
    assert (Z : (s, @nil (fev A)) = (s', tr) -> fixed s s') by (intros [= <- <-]; apply fixed_refl).
    unfold updated_master. destruct (0 <? _)%Z; [exact Z|]. destruct (matching s x).
    - destruct (fs_key s).
      + destruct (index_of _ _ _); [|apply inserted_master_fixed]. destruct (_ <? _); [exact R|]. destruct (_ <? _); [exact R|exact Z].
      + destruct (Filtered_Model.inb _ _ _); [exact Z|apply inserted_master_fixed].
    - apply removed_master_fixed.
  Qed.
  Lemma item_inserted_fixed (s : fstate) x i s' tr e : item_inserted A_dec lt s x i = (s', tr, e) -> fixed s s'.
  Proof.
    unfold item_inserted. destruct (Filtered_Model.inb _ _ _); [intros [= <- <- <-]; apply fixed_refl|].
    destruct (inserted_master _ _ _ x) as [s2 t2] eqn:E. intros [= <- <- <-]. apply inserted_master_fixed in E. exact E.
  Qed.
  Lemma item_removed_fixed (s : fstate) x i s' tr e : item_removed A_dec s x i = (s', tr, e) -> fixed s s'.
  Proof.
    unfold item_removed. destruct (py_del _ _); [|intros [= <- <- <-]; apply fixed_refl].
    destruct (Filtered_Model.inb _ _ _); [|intros [= <- <- <-]; repeat split].
    destruct (removed_master _ _ x) as [s2 t2] eqn:E. intros [= <- <- <-]. apply removed_master_fixed in E. exact E.
  Qed.
  Lemma update_items_fixed ord (s : fstate) s' tr e : update_items A_dec lt ord s = (s', tr, e) -> fixed s s'.
  Proof.
    unfold update_items. destruct (0 <? _)%Z; [intros [= <- <- <-]; apply fixed_refl|].
    destruct (negb _); [intros [= <- <- <-]; apply fixed_refl|].
    match goal with |- (let '(items, tr) := ?x in _) = _ -> _ => destruct x as [it t1] end.
    intros [= <- <- <-]. repeat split.
  Qed.
  Lemma remove_loop_fixed xs : forall (s : fstate) s' tr e, remove_loop A_dec xs s = (s', tr, e) -> fixed s s'.
  Proof.
    induction xs as [|x xs IH]; intros s s' tr e; simpl; [intros [= <- <- <-]; apply fixed_refl|].
    destruct (item_removed _ s x _) as [[s1 t1] [e1|]] eqn:E1.
    - intros [= <- <- <-]. eapply item_removed_fixed. exact E1.
    - destruct (remove_loop A_dec xs s1) as [[s2 t2] e2] eqn:E2. intros [= <- <- <-].
      eapply fixed_trans; [eapply item_removed_fixed; exact E1|eapply IH; exact E2].
  Qed.
  Lemma insert_loop_fixed xs : forall idx (s : fstate) s' tr e, insert_loop A_dec lt xs idx s = (s', tr, e) -> fixed s s'.
  Proof.
    induction xs as [|x xs IH]; intros idx s s' tr e; simpl; [intros [= <- <- <-]; apply fixed_refl|].
    destruct (item_inserted _ _ s x _) as [[s1 t1] [e1|]] eqn:E1.
    - intros [= <- <- <-]. eapply item_inserted_fixed. exact E1.
    - destruct (insert_loop A_dec lt xs (S idx) s1) as [[s2 t2] e2] eqn:E2. intros [= <- <- <-].
      eapply fixed_trans; [eapply item_inserted_fixed; exact E1|eapply IH; exact E2].
  Qed.
  Lemma attach_sets (s : fstate) c s' tr e : attach A_dec lt s c = (s', tr, e) -> sets s s'.
  Proof.
    unfold attach. destruct c as [l|]; [|intros [= <- <- <-]; repeat split].
    destruct (insert_loop _ _ l 0 _) as [[s2 t2] e2] eqn:E. intros [= <- <- <-]. apply insert_loop_fixed in E as [E _]. exact E.
  Qed.
  Lemma set_container_sets (s : fstate) c s' tr e : set_container A_dec lt s c = (s', tr, e) -> sets s s'.
  Proof.
    unfold set_container. destruct (fs_cont s) as [old|]; [|apply attach_sets].
    destruct (fs_conn s); [|intros [= <- <- <-]; apply sets_refl].
    destruct (remove_loop _ _ _) as [[s1 t1] [e1|]] eqn:E1; apply remove_loop_fixed in E1 as [E1 _].
    - intros [= <- <- <-]. exact E1.
    - destruct (attach _ _ s1 c) as [[s2 t2] e2] eqn:E2. intros [= <- <- <-]. apply attach_sets in E2.
      eapply sets_trans; [|exact E2]. exact E1.
  Qed.

  (** agreement of a list with the settings made by the client *)
  Definition agree (s : fstate) (e : settings C K) (w : A -> C) : Prop :=
    fs_filter s = se_filter e /\ fs_key s = se_key e /\ fs_rev s = se_rev e /\ fs_level s = se_blocks e /\ fs_content s = w.
  Lemma agree_sets s s' e w : agree s e w -> sets s s' -> agree s' e w.
  Proof. unfold agree, Chain_Proofs2.sets. intuition congruence. Qed.

  Record linked (v : view) (c : chain) : Prop := Lk {
    lk_up : inv (c_up c); lk_down : inv (c_down c);
    lk_src : fs_cont (c_up c) = v_source v;
    lk_cont : fs_cont (c_down c) = if v_attached v then Some (fs_items (c_up c)) else None;
    lk_aup : agree (c_up c) (v_up v) (v_content v);
    lk_adown : agree (c_down c) (v_down v) (v_content v) }.

  Lemma inv_nodup s : inv s -> NoDup (fs_items s).
  Proof. intros [[(_ & _ & H) _] _]. exact H. Qed.

  (** an operation on the upstream list *)
  Lemma up_step (v : view) c o c' t :
    on_up A_dec lt c o = (c', t) -> linked v c -> inv (fst (fst (f_step A_dec lt (c_up c) o))) ->
    c_up c' = fst (fst (f_step A_dec lt (c_up c) o)) /\ kept (c_down c) (c_down c') /\
    fs_cont (c_down c') = if v_attached v then Some (fs_items (c_up c')) else None.
  Proof.
    unfold on_up. intros E L Hi. destruct (f_step A_dec lt (c_up c) o) as [[u tu] eu] eqn:Eu. cbn [fst] in Hi |- *.
    destruct (deliver (c_down c) tu) as [d t2] eqn:Ed. injection E as <- <-. split; [reflexivity|]. cbn [c_down c_up].
    pose proof (lk_cont _ _ L) as Hc. destruct (v_attached v).
    - eapply deliver_feeds; [|exact Ed|apply (lk_down _ _ L)|exact Hc]. eapply step_feeds; [exact Eu|apply inv_nodup; exact Hi].
    - rewrite (deliver_none A_dec lt _ _ Hc) in Ed. injection Ed as <- <-. split; [apply kept_refl, (lk_down _ _ L)|exact Hc].
  Qed.

  Lemma contents_source v c : linked v c -> contents (c_up c) = source v.
  Proof. intros L. unfold contents, source. rewrite (lk_src _ _ L). reflexivity. Qed.

  (** fields after a step of one list *)
  Lemma settings_sets (s : fstate) f k r s' tr e : reset_and_update A_dec lt (with_settings s f k r) = (s', tr, e) ->
    fixed (with_settings s f k r) s'.
  Proof.
    unfold reset_and_update. destruct (update_items _ _ _ _) as [[s1 t1] e1] eqn:E. intros [= <- <- <-].
    eapply update_items_fixed. exact E.
  Qed.

  (** the content handlers *)
  Definition rem_events (x : A) (k : nat) : list (fev A) := [FBegin; FRem x k; FEnd].
  Definition ins_events (x : A) (k : nat) : list (fev A) := [FBegin; FIns x k; FEnd].
  Inductive content_trace (x : A) : list (fev A) -> Prop :=
  | ct_none : content_trace x []
  | ct_rem k : content_trace x (rem_events x k)
  | ct_ins k : content_trace x (ins_events x k)
  | ct_move k k' : content_trace x (rem_events x k ++ ins_events x k').

  Lemma inserted_master_trace (s : fstate) x s' tr : inserted_master A_dec lt s x = (s', tr) -> tr = [] \/ exists k, tr = ins_events x k.
  Proof.
    unfold inserted_master, do_insert. destruct (0 <? _)%Z; [intros [= <- <-]; auto|].
    destruct (matching s x); intros [= <- <-]; [right; eexists; reflexivity|auto].
  Qed.
  Lemma removed_master_trace (s : fstate) x s' tr : removed_master A_dec s x = (s', tr) -> tr = [] \/ exists k, tr = rem_events x k.
  Proof.
    unfold removed_master. destruct (0 <? _)%Z; [intros [= <- <-]; auto|].
    destruct (index_of _ _ _); intros [= <- <-]; [right; eexists; reflexivity|auto].
  Qed.
  Lemma updated_master_trace (s : fstate) x s' tr : updated_master A_dec lt s x = (s', tr) -> content_trace x tr.
  Proof.
    assert (R : remove_then_insert A_dec lt s x = (s', tr) -> content_trace x tr).
    { unfold remove_then_insert. destruct (removed_master A_dec s x) as [s1 t1] eqn:E1.
      destruct (inserted_master A_dec lt s1 x) as [s2 t2] eqn:E2. intros [= <- <-].
      apply removed_master_trace in E1. apply inserted_master_trace in E2.
      destruct E1 as [->|[k ->]], E2 as [->|[k' ->]]; rewrite ?app_nil_r; constructor. }
    assert (Z : (s, @nil (fev A)) = (s', tr) -> content_trace x tr) by (intros [= <- <-]; constructor).
    assert (I : inserted_master A_dec lt s x = (s', tr) -> content_trace x tr).
    { intros E. apply inserted_master_trace in E as [->|[k ->]]; constructor. }
    unfold updated_master. destruct (0 <? _)%Z; [exact Z|]. destruct (matching s x).
    - destruct (fs_key s).
      + destruct (index_of _ _ _); [|exact I]. destruct (_ <? _); [exact R|]. destruct (_ <? _); [exact R|exact Z].
      + destruct (Filtered_Model.inb _ _ _); [exact Z|exact I].
    - intros E. apply removed_master_trace in E as [->|[k ->]]; constructor.
  Qed.
  Lemma content_step_trace (s : fstate) x v s' tr e : f_step A_dec lt s (FContent x v) = (s', tr, e) -> content_trace x tr.
  Proof.
    cbn [f_step]. destruct (Filtered_Model.inb _ _ (fs_listen s)); [|intros [= <- <- <-]; constructor].
    destruct (Filtered_Model.inb _ _ (fs_master s)); [|intros [= <- <- <-]; constructor].
    destruct (updated_master _ _ _ _) as [s2 t2] eqn:E. intros [= <- <- <-]. eapply updated_master_trace. exact E.
  Qed.

  (** removals do not look at contents *)
  Lemma removed_master_content (s : fstate) x w :
    removed_master A_dec (with_content s w) x = (let '(s', t) := removed_master A_dec s x in (with_content s' w, t)).
  Proof.
    unfold removed_master. cbn [fs_level fs_items with_content]. destruct (0 <? _)%Z; [reflexivity|].
    destruct (index_of _ _ _); reflexivity.
  Qed.
  Lemma item_removed_content (s : fstate) x i w :
    item_removed A_dec (with_content s w) x i = (let '(s', t, e) := item_removed A_dec s x i in (with_content s' w, t, e)).
  Proof.
    unfold item_removed. cbn [fs_master fs_listen with_content]. destruct (py_del _ _) as [m|]; [|reflexivity].
    destruct (Filtered_Model.inb _ _ _); [|reflexivity].
    match goal with |- context [removed_master _ (with_master (with_content s w) ?a ?b) x] =>
      change (with_master (with_content s w) a b) with (with_content (with_master s a b) w) end.
    rewrite removed_master_content. destruct (removed_master _ _ _); reflexivity.
  Qed.
  Lemma deliver1_content (s : fstate) e w : not_ins e = true ->
    deliver1 (with_content s w) e = (let '(s', t) := deliver1 s e in (with_content s' w, t)).
  Proof.
    unfold deliver1, Chain_Model.deliver1. cbn [fs_cont with_content]. destruct (fs_cont s) as [l|]; [|reflexivity].
    destruct e; cbn [not_ins]; try discriminate; intros _; cbn [fs_conn with_content]; try (destruct (fs_conn s); reflexivity); try reflexivity.
    destruct (fs_conn s); [|reflexivity].
    change (with_cont (with_content s w) (Some (delete_at k l)) true) with (with_content (with_cont s (Some (delete_at k l)) true) w).
    rewrite item_removed_content. destruct (item_removed _ _ _ _) as [[? ?] ?]; reflexivity.
  Qed.
  Lemma deliver_content tr : forall (s : fstate) w, forallb not_ins tr = true ->
    deliver (with_content s w) tr = (let '(s', t) := deliver s tr in (with_content s' w, t)).
  Proof.
    induction tr as [|e tr IH]; intros s w Hn; [reflexivity|]. cbn [forallb] in Hn. apply andb_prop in Hn as [He Hn].
    cbn [Chain_Model.deliver]. rewrite deliver1_content by exact He. destruct (deliver1 s e) as [s1 t1]. rewrite IH by exact Hn.
    destruct (deliver s1 tr) as [s2 t2]. reflexivity.
  Qed.

  (** content changes of an item that is not in the list *)
  Lemma unlisted_content (s : fstate) x v : inv s -> ~ In x (fs_master s) ->
    f_step A_dec lt s (FContent x v) = (with_content s (update_content A_dec (fs_content s) x v), [], None).
  Proof.
    intros [[(_ & Hl & _) _] _] Hx. cbn [f_step]. destruct (Filtered_Model.inb A_dec x (fs_listen s)) eqn:E; [|reflexivity].
    apply (inb_spec A_dec) in E. apply Hl in E. contradiction.
  Qed.

  Definition key_kept (s : fstate) x (v : C) : Prop := forall k, fs_key s = Some k -> In x (fs_items s) -> k v = k (fs_content s x).

  Lemma content_kept (s : fstate) x v s' tr e : f_step A_dec lt s (FContent x v) = (s', tr, e) -> inv s ->
    inv s' /\ agree s' (Se (fs_filter s) (fs_key s) (fs_rev s) (fs_level s)) (update_content A_dec (fs_content s) x v) /\
    fs_cont s' = fs_cont s /\ (uns s -> uns s') /\ (strict_weak_order lt -> key_kept s x v -> sor s -> sor s').
  Proof.
    intros E H. destruct (content_step_inv A_dec lt _ _ _ _ _ _ E H) as (_ & Hi & _ & F & U & S & _).
    destruct F as (Fc & _ & _ & Ff & Fk & Fr & Fl & Fw). split; [exact Hi|]. split; [repeat split; assumption|].
    split; [exact Fc|]. split; [exact U|]. exact S.
  Qed.

  Lemma key_kept_unlisted (s : fstate) x v : ~ In x (fs_items s) -> key_kept s x v.
  Proof. intros H k _ Hx. contradiction. Qed.

  Lemma items_sub (s : fstate) x : inv s -> (fs_level s <= 0)%Z -> In x (fs_items s) -> In x (fs_master s).
  Proof. intros [[_ Hp] _] Hl Hx. rewrite (Hp Hl) in Hx. apply filter_In in Hx. tauto. Qed.

  Lemma in_split_unique (l1 l2 : list A) x : NoDup (l1 ++ x :: l2) -> ~ In x (l1 ++ l2).
  Proof. intros H. apply nodup_app_parts in H. tauto. Qed.

  Lemma content_step (v : view) c x y c' t :
    on_content A_dec lt c x y = (c', t) -> linked v c ->
    linked (v_step A_dec v (CContent x y)) c' /\ (uns (c_up c) -> uns (c_up c')) /\ (uns (c_down c) -> uns (c_down c')) /\
    (strict_weak_order lt -> key_kept (c_down c) x y -> sor (c_down c) -> sor (c_down c')).
  Proof.
    unfold on_content. intros E L. set (d0 := with_content (c_down c) _) in E.
    destruct (f_step A_dec lt (c_up c) (FContent x y)) as [[u tu] eu] eqn:Eu.
    pose proof (content_step_trace _ _ _ _ _ _ Eu) as CT.
    destruct (content_kept _ _ _ _ _ _ Eu (lk_up _ _ L)) as (Iu & Au & Cu & Uu & _).
    pose proof (step_feeds A_dec lt _ _ _ _ _ Eu (inv_nodup _ Iu)) as F.
    pose proof (lk_cont _ _ L) as Hc. pose proof (lk_down _ _ L) as Id. pose proof (lk_adown _ _ L) as Ad. pose proof (lk_aup _ _ L) as Aup.
    (* it is enough to describe the downstream list *)
    assert (Done : forall d, c' = Chain u d -> inv d ->
      agree d (v_down v) (fun z => if A_dec z x then y else v_content v z) ->
      fs_cont d = (if v_attached v then Some (fs_items u) else None) -> (uns (c_down c) -> uns d) ->
      (strict_weak_order lt -> key_kept (c_down c) x y -> sor (c_down c) -> sor d) ->
      linked (v_step A_dec v (CContent x y)) c' /\ (uns (c_up c) -> uns (c_up c')) /\ (uns (c_down c) -> uns (c_down c')) /\
      (strict_weak_order lt -> key_kept (c_down c) x y -> sor (c_down c) -> sor (c_down c'))).
    { intros d -> Hd Hag Hcd Hud Hsd. split; [|auto]. constructor; cbn [c_up c_down v_step v_source v_attached v_up v_down v_content].
      - exact Iu.
      - exact Hd.
      - rewrite Cu. apply (lk_src _ _ L).
      - exact Hcd.
      - destruct Aup as (B1 & B2 & B3 & B4 & B5). destruct Au as (D1 & D2 & D3 & D4 & D5). cbn in D1, D2, D3, D4.
        unfold agree. rewrite D1, D2, D3, D4, D5, B1, B2, B3, B4, B5. repeat split.
      - exact Hag. }
    assert (Own : forall d t' e', f_step A_dec lt (c_down c) (FContent x y) = (d, t', e') ->
        fs_items u = fs_items (c_up c) -> c' = Chain u d ->
        linked (v_step A_dec v (CContent x y)) c' /\ (uns (c_up c) -> uns (c_up c')) /\ (uns (c_down c) -> uns (c_down c')) /\
        (strict_weak_order lt -> key_kept (c_down c) x y -> sor (c_down c) -> sor (c_down c'))).
    { intros d t' e' Ed Hit Ec'. destruct (content_kept _ _ _ _ _ _ Ed Id) as (Hd & Ag & Cd & Ud & Sd).
      apply (Done d Ec' Hd); [|rewrite Cd, Hc, Hit; reflexivity|exact Ud|exact Sd].
      destruct Ad as (B1 & B2 & B3 & B4 & B5). destruct Ag as (D1 & D2 & D3 & D4 & D5). cbn in D1, D2, D3, D4.
      unfold agree. rewrite D1, D2, D3, D4, D5, B1, B2, B3, B4, B5. repeat split. }
    (* removal first, then the content, then the insertion *)
    assert (Move : forall tr1 tr2 d1 u1 d2 u2 l1, tu = tr1 ++ tr2 -> forallb not_ins tr1 = true -> v_attached v = true ->
        feeds (fs_items (c_up c)) tr1 l1 -> feeds l1 tr2 (fs_items u) -> ~ In x l1 ->
        deliver (c_down c) tr1 = (d1, u1) -> deliver (with_content d1 (update_content A_dec (fs_content (c_down c)) x y)) tr2 = (d2, u2) ->
        c' = Chain u d2 ->
        linked (v_step A_dec v (CContent x y)) c' /\ (uns (c_up c) -> uns (c_up c')) /\ (uns (c_down c) -> uns (c_down c')) /\
        (strict_weak_order lt -> key_kept (c_down c) x y -> sor (c_down c) -> sor (c_down c'))).
    { intros tr1 tr2 d1 u1 d2 u2 l1 -> Hn Hatt F1 F2 Hx E1 E2 Ec'. rewrite Hatt in Hc.
      destruct (deliver_feeds A_dec lt _ _ _ F1 _ _ _ E1 Id Hc) as [(I1 & S1 & U1 & So1) C1].
      assert (Hx1 : ~ In x (fs_master d1)) by (destruct (inv_conn _ _ I1 C1) as [_ ->]; exact Hx).
      assert (Hw : fs_content d1 = fs_content (c_down c)) by apply S1.
      pose proof (unlisted_content d1 x y I1 Hx1) as Eu1. rewrite Hw in Eu1.
      destruct (content_kept _ _ _ _ _ _ Eu1 I1) as (I2 & A2 & C2 & U2 & So2). rewrite Hw in A2. rewrite C1 in C2.
      destruct (deliver_feeds A_dec lt _ _ _ F2 _ _ _ E2 I2 C2) as [(I3 & S3 & U3 & So3) C3].
      apply (Done d2 Ec' I3); [|rewrite Hatt; exact C3|auto|].
      - eapply agree_sets; [|exact S3]. destruct Ad as (B1 & B2 & B3 & B4 & B5). destruct A2 as (D1 & D2 & D3 & D4 & D5).
        destruct S1 as (G1 & G2 & G3 & G4 & G5). cbn in D1, D2, D3, D4, D5. unfold agree. cbn. rewrite G1, G2, G3, G4, B1, B2, B3, B4, B5. repeat split.
      - intros Hsw Hkk Hs. apply So3; [exact Hsw|]. apply So2; [exact Hsw| |apply So1; assumption].
        intros k Hk Hin. destruct S1 as (G1 & G2 & G3 & G4 & G5). rewrite G5. destruct (Z_le_gt_dec (fs_level d1) 0) as [Hl|Hl].
        + destruct (Hx1 (items_sub _ _ I1 Hl Hin)).
        + apply Hkk; [congruence|]. revert Hin. assert (Hgt : (0 < fs_level (c_down c))%Z) by lia. clear - E1 Hgt.
          assert (Hd : forall tr (s s' : fstate) t, deliver s tr = (s', t) -> (0 < fs_level s)%Z -> fs_items s' = fs_items s).
          { clear. induction tr as [|e tr IH]; intros s s' t E Hl; [injection E as <- <-; reflexivity|].
            cbn in E. destruct (deliver1 s e) as [s1 t1] eqn:E1. destruct (deliver s1 tr) as [s2 t2] eqn:E2. injection E as <- <-.
            assert (G : fs_items s1 = fs_items s /\ fs_level s1 = fs_level s).
            { unfold deliver1, Chain_Model.deliver1 in E1. destruct (fs_cont s) as [l|]; [|injection E1 as <- <-; auto].
              destruct e; cbn [f_step fst] in E1; try (destruct (fs_conn s); injection E1 as <- <-; auto); try (injection E1 as <- <-; auto).
              - destruct (fs_cont s) as [l0|]; [|injection E1 as <- <-; auto]. destruct (fs_conn s); [|injection E1 as <- <-; auto].
                unfold item_inserted in E1. destruct (Filtered_Model.inb _ _ _); [injection E1 as <- <-; auto|].
                unfold inserted_master in E1. cbn [fs_level with_master with_cont] in E1. destruct (Z.ltb_spec 0 (fs_level s)); [|lia].
                injection E1 as <- <-; auto.
              - destruct (fs_conn s); [|injection E1 as <- <-; auto]. unfold item_removed in E1. destruct (py_del _ _); [|injection E1 as <- <-; auto].
                destruct (Filtered_Model.inb _ _ _); [|injection E1 as <- <-; auto].
                unfold removed_master in E1. cbn [fs_level with_master with_cont] in E1. destruct (Z.ltb_spec 0 (fs_level s)); [|lia].
                injection E1 as <- <-; auto. }
            destruct G as [G1 G2]. rewrite (IH _ _ _ E2) by (rewrite G2; exact Hl). exact G1. }
          rewrite (Hd _ _ _ _ E1 Hgt). auto. }
    (* detached *)
    destruct (v_attached v) eqn:Hatt.
    2:{ assert (Hd0 : deliver d0 tu = (d0, [])) by (apply deliver_none; exact Hc). rewrite Hd0 in E.
        assert (Hm : fs_master (c_down c) = []) by (destruct Id as [_ Hl]; unfold link in Hl; rewrite Hc in Hl; exact Hl).
        assert (Hx : ~ In x (fs_master (c_down c))) by (rewrite Hm; intros []).
        pose proof (unlisted_content _ x y Id Hx) as Ed. fold d0 in Ed.
        assert (Hli : Filtered_Model.inb A_dec x (fs_listen (c_down c)) = false).
        { apply (inb_false A_dec). destruct Id as [[(_ & Hl & _) _] _]. rewrite Hl. exact Hx. }
        rewrite Hli in E. cbn [andb] in E. injection E as <- <-.
        destruct (content_kept _ _ _ _ _ _ Ed Id) as (Hd & Ag & Cd & Ud & Sd).
        apply (Done d0 eq_refl Hd); [|congruence|exact Ud|exact Sd].
        destruct Ad as (B1 & B2 & B3 & B4 & B5). destruct Ag as (D1 & D2 & D3 & D4 & D5). cbn in D1, D2, D3, D4, D5.
        unfold agree. cbn. rewrite B1, B2, B3, B4, B5. repeat split. }
    assert (Hlis : In x (fs_listen (c_down c)) <-> In x (fs_items (c_up c))).
    { destruct (inv_conn _ _ Id Hc) as [_ Hm]. destruct Id as [[(_ & Hl & _) _] _]. rewrite Hl, Hm. reflexivity. }
    inversion CT as [Ht|k Ht|k Ht|k k' Ht]; subst tu.
    - (* no notification *)
      cbn [Chain_Model.deliver existsb negb] in E. rewrite andb_true_r in E.
      assert (Hit : fs_items u = fs_items (c_up c)) by (apply f_step_trace in Eu as (Hf & _); symmetry; exact Hf).
      destruct (f_step A_dec lt (c_down c) (FContent x y)) as [[d t'] e'] eqn:Ed. apply (Own d t' e' eq_refl Hit).
      cbn [f_step] in Ed. fold d0 in Ed. destruct (Filtered_Model.inb A_dec x (fs_listen (c_down c))).
      + change (fs_master d0) with (fs_master (c_down c)) in E. destruct (Filtered_Model.inb A_dec x (fs_master (c_down c))).
        * destruct (updated_master A_dec lt d0 x) as [d2 t2]. injection Ed as <- <- <-. injection E as <- <-. reflexivity.
        * injection Ed as <- <- <-. injection E as <- <-. reflexivity.
      + injection Ed as <- <- <-. injection E as <- <-. reflexivity.
    - (* removed upstream *)
      assert (Hr : existsb (removes A_dec x) (rem_events x k) = true).
      { cbn. destruct (A_dec x x); [reflexivity|congruence]. }
      rewrite Hr, andb_false_r in E. destruct (deliver d0 (rem_events x k)) as [d1 t1] eqn:E1. injection E as <- <-.
      unfold d0 in E1. rewrite deliver_content in E1 by reflexivity.
      destruct (deliver (c_down c) (rem_events x k)) as [d' t'] eqn:E2. injection E1 as <- <-.
      eapply (Move (rem_events x k) [] d' t' _ [] (fs_items u)); [rewrite app_nil_r; reflexivity|reflexivity|reflexivity|exact F|constructor| |exact E2|reflexivity|reflexivity].
      apply f_step_trace in Eu as (_ & Hn & _). specialize (Hn ltac:(intros [])). cbn in Hn. destruct Hn as [Hn Hd].
      apply nth_error_split in Hn as (l1 & l2 & El & <-). rewrite El, delete_at_app in Hd. rewrite <- Hd.
      apply in_split_unique. rewrite <- El. apply inv_nodup. apply (lk_up _ _ L).
    - (* inserted upstream *)
      apply f_step_trace in Eu as (_ & Hn & _). specialize (Hn ltac:(intros [])). cbn in Hn.
      assert (Hx : ~ In x (fs_items (c_up c))) by (apply (nodup_inserted k); rewrite Hn; apply inv_nodup; exact Iu).
      destruct (Filtered_Model.inb A_dec x (fs_listen (c_down c))) eqn:Hli; [apply (inb_spec A_dec) in Hli; tauto|].
      cbn [andb] in E. destruct (deliver d0 (ins_events x k)) as [d1 t1] eqn:E1. injection E as <- <-.
      eapply (Move [] (ins_events x k) (c_down c) [] d1 t1 (fs_items (c_up c))); [reflexivity|reflexivity|reflexivity|constructor|exact F|exact Hx|reflexivity|exact E1|reflexivity].
    - (* moved upstream *)
      assert (Hr : existsb (removes A_dec x) (rem_events x k ++ ins_events x k') = true).
      { cbn. destruct (A_dec x x); [reflexivity|congruence]. }
      rewrite Hr, andb_false_r in E. destruct (deliver d0 (rem_events x k ++ ins_events x k')) as [d1 t1] eqn:E1. injection E as <- <-.
      rewrite deliver_app in E1. unfold d0 in E1. rewrite deliver_content in E1 by reflexivity.
      destruct (deliver (c_down c) (rem_events x k)) as [d' t'] eqn:E2.
      destruct (deliver (with_content d' _) (ins_events x k')) as [d2 t2] eqn:E3. injection E1 as <- <-.
      apply f_step_trace in Eu as (_ & Hn & _). specialize (Hn ltac:(intros [])). cbn in Hn. destruct Hn as [Hn Hd].
      apply nth_error_split in Hn as (l1 & l2 & El & <-). rewrite El, delete_at_app in Hd.
      assert (Hx : ~ In x (l1 ++ l2)). { apply in_split_unique. rewrite <- El. apply inv_nodup. apply (lk_up _ _ L). }
      eapply (Move (rem_events x (length l1)) (ins_events x k') d' t' d2 t2 (l1 ++ l2)); [reflexivity|reflexivity|reflexivity| | |exact Hx|exact E2|exact E3|reflexivity].
      + apply feeds_quiet; [reflexivity|]. eapply feeds_rem; [exact El|]. apply feeds_quiet; [reflexivity|constructor].
      + apply feeds_quiet; [reflexivity|]. apply feeds_ins; [exact Hx|]. rewrite Hd. apply feeds_quiet; [reflexivity|constructor].
  Qed.

  (** an operation on the upstream list that keeps its settings up to [g] *)
  Lemma up_linked (v v' : view) c o c' t :
    on_up A_dec lt c o = (c', t) -> linked v c ->
    inv (fst (fst (f_step A_dec lt (c_up c) o))) ->
    fs_cont (fst (fst (f_step A_dec lt (c_up c) o))) = v_source v' ->
    agree (fst (fst (f_step A_dec lt (c_up c) o))) (v_up v') (v_content v') ->
    v_attached v' = v_attached v -> v_down v' = v_down v -> v_content v' = v_content v ->
    linked v' c' /\ c_up c' = fst (fst (f_step A_dec lt (c_up c) o)) /\ kept (c_down c) (c_down c').
  Proof.
    intros E L Hi Hs Ha H1 H2 H3. destruct (up_step v c o c' t E L Hi) as (Eu & Kd & Cd).
    split; [|auto]. constructor.
    - rewrite Eu. exact Hi.
    - apply Kd.
    - rewrite Eu. exact Hs.
    - rewrite H1. exact Cd.
    - rewrite Eu. exact Ha.
    - rewrite H2, H3. eapply agree_sets; [apply (lk_adown _ _ L)|apply Kd].
  Qed.
  Lemma down_linked (v v' : view) c o c' t :
    on_down A_dec lt c o = (c', t) -> linked v c ->
    inv (fst (fst (f_step A_dec lt (c_down c) o))) ->
    fs_cont (fst (fst (f_step A_dec lt (c_down c) o))) = (if v_attached v' then Some (fs_items (c_up c)) else None) ->
    agree (fst (fst (f_step A_dec lt (c_down c) o))) (v_down v') (v_content v') ->
    v_source v' = v_source v -> v_up v' = v_up v -> v_content v' = v_content v ->
    linked v' c' /\ c_up c' = c_up c /\ c_down c' = fst (fst (f_step A_dec lt (c_down c) o)).
  Proof.
    unfold on_down. intros E L Hi Hs Ha H1 H2 H3. destruct (f_step A_dec lt (c_down c) o) as [[d td] ed].
    cbn [fst] in *. injection E as <- <-. cbn [c_up c_down]. split; [|auto]. constructor; cbn [c_up c_down].
    - apply (lk_up _ _ L).
    - exact Hi.
    - rewrite H1. apply (lk_src _ _ L).
    - exact Hs.
    - rewrite H2, H3. apply (lk_aup _ _ L).
    - exact Ha.
  Qed.

  Lemma cont_insert (s : fstate) i x :
    fs_cont (fst (fst (f_step A_dec lt s (FInsert i x)))) = option_map (py_insert i x) (fs_cont s) /\
    sets s (fst (fst (f_step A_dec lt s (FInsert i x)))).
  Proof.
    cbn [f_step]. destruct (fs_cont s) as [l|] eqn:Ec; [|cbn; rewrite Ec; split; [reflexivity|apply sets_refl]].
    destruct (fs_conn s); [|split; [reflexivity|repeat split]].
    destruct (item_inserted _ _ _ _ _) as [[s1 t1] e1] eqn:E. apply item_inserted_fixed in E as (F1 & F2 & _). split; [exact F2|exact F1].
  Qed.
  Lemma cont_remove (s : fstate) i :
    fs_cont (fst (fst (f_step A_dec lt s (FRemove i)))) =
      option_map (fun l => match py_del l i with Ok l' => l' | Err _ => l end) (fs_cont s) /\
    sets s (fst (fst (f_step A_dec lt s (FRemove i)))).
  Proof.
    cbn [f_step]. destruct (fs_cont s) as [l|] eqn:Ec; [|cbn; rewrite Ec; split; [reflexivity|apply sets_refl]].
    assert (Hb : match py_get l i, py_del l i with Ok _, Ok _ => True | Err _, Err _ => True | _, _ => False end).
    { unfold py_get, py_del. destruct (py_index (length l) i) as [k|] eqn:E; [|exact I]. destruct (nth_error l k) eqn:N; [exact I|].
      apply nth_error_None in N. unfold py_index in E. destruct (i <? 0)%Z; destruct ((0 <=? _) && _)%Z eqn:B; try discriminate;
      injection E as <-; apply andb_prop in B as [B1 B2]; apply Z.leb_le in B1; apply Z.ltb_lt in B2; lia. }
    cbn [option_map]. destruct (py_get l i) as [x|], (py_del l i) as [l'|]; try destruct Hb; cbn.
    - destruct (fs_conn s); [|split; [reflexivity|repeat split]].
      destruct (item_removed _ _ _ _) as [[s1 t1] e1] eqn:E. apply item_removed_fixed in E as (F1 & F2 & _). split; [exact F2|exact F1].
    - rewrite Ec. split; [reflexivity|apply sets_refl].
  Qed.

  Definition set_op (o : fop A C K) (e : settings C K) : settings C K :=
    match o with
    | FSetFilter f => Se f (se_key e) (se_rev e) (se_blocks e)
    | FSetKey k => Se (se_filter e) k (se_rev e) (se_blocks e)
    | FSetRev b => Se (se_filter e) (se_key e) b (se_blocks e)
    | FBeginChange => Se (se_filter e) (se_key e) (se_rev e) (se_blocks e + 1)
    | FEndChange _ => Se (se_filter e) (se_key e) (se_rev e) (se_blocks e - 1)
    | _ => e
    end.
  Definition setting (o : fop A C K) : bool :=
    match o with FSetFilter _ | FSetKey _ | FSetRev _ | FBeginChange | FEndChange _ => true | _ => false end.
  Lemma setting_fields (s : fstate) o e w : setting o = true -> agree s e w ->
    agree (fst (fst (f_step A_dec lt s o))) (set_op o e) w /\ fs_cont (fst (fst (f_step A_dec lt s o))) = fs_cont s.
  Proof.
    intros Hs (B1 & B2 & B3 & B4 & B5).
    assert (R : forall f k r e', (f, k, r, fs_level s, w) = (se_filter e', se_key e', se_rev e', se_blocks e', fs_content s) ->
      agree (fst (fst (reset_and_update A_dec lt (with_settings s f k r)))) e' w /\
      fs_cont (fst (fst (reset_and_update A_dec lt (with_settings s f k r)))) = fs_cont s).
    { intros f k r e' [= -> -> -> E4 E5]. destruct (reset_and_update _ _ _) as [[s1 t1] e1] eqn:E.
      apply settings_sets in E as ((F1 & F2 & F3 & F4 & F5) & F6 & _). cbn in *. split; [|exact F6].
      unfold agree. rewrite F1, F2, F3, F4, F5, <- E4. repeat split; congruence. }
    destruct o; try discriminate; cbn [f_step set_op].
    - apply R. cbn. rewrite B2, B3, B4, B5. reflexivity.
    - apply R. cbn. rewrite B1, B3, B4, B5. reflexivity.
    - apply R. cbn. rewrite B1, B2, B4, B5. reflexivity.
    - cbn. split; [|reflexivity]. unfold agree. cbn. rewrite B4. auto.
    - cbn [fs_level with_level]. destruct (fs_level s - 1 =? 0)%Z.
      + destruct (update_items _ _ _ _) as [[s1 t1] e1] eqn:E. apply update_items_fixed in E as ((F1 & F2 & F3 & F4 & F5) & F6 & _).
        cbn in *. split; [|exact F6]. unfold agree. cbn. rewrite F1, F2, F3, F4, F5, B4. auto.
      + cbn. split; [|reflexivity]. unfold agree. cbn. rewrite B4. auto.
  Qed.
  Lemma setting_inv (s : fstate) o : setting o = true -> (match o with FEndChange ord => forall l, Permutation (ord l) l | _ => True end) -> inv s ->
    inv (fst (fst (f_step A_dec lt s o))) /\
    (match o with FEndChange _ => False | _ => True end -> uns s -> uns (fst (fst (f_step A_dec lt s o)))) /\
    (strict_weak_order lt -> sor s -> sor (fst (fst (f_step A_dec lt s o)))).
  Proof.
    intros Hs Ho H.
    destruct (f_step A_dec lt s o) as [[s' tr] e] eqn:E. cbn [fst].
    assert (I : inv s' /\ (strict_weak_order lt -> keeps_keys s o -> sor s -> sor s')).
    { eapply step_inv; [exact E|exact H| |]; destruct o; try discriminate; try exact I; exact Ho. }
    destruct I as [I S]. split; [exact I|]. split; [|intros Hw Hso; apply S; [exact Hw| |exact Hso]; destruct o; try discriminate; exact Logic.I].
    destruct o; try discriminate; cbn [f_step] in E.
    - intros _ _. apply (settings_step_inv A_dec lt _ _ _ _ _ _ _ E H).
    - intros _ _. apply (settings_step_inv A_dec lt _ _ _ _ _ _ _ E H).
    - intros _ _. apply (settings_step_inv A_dec lt _ _ _ _ _ _ _ E H).
    - injection E as <- <- <-. intros _ Hu Hlev Hk. cbn in *. apply Hu; [lia|exact Hk].
    - intros [].
  Qed.

  Lemma set_container_facts (s : fstate) l : inv s -> match l with Some l => NoDup l | None => True end ->
    inv (fst (fst (f_step A_dec lt s (FSetContainer l)))) /\ fs_cont (fst (fst (f_step A_dec lt s (FSetContainer l)))) = l /\
    sets s (fst (fst (f_step A_dec lt s (FSetContainer l)))) /\
    (uns s -> uns (fst (fst (f_step A_dec lt s (FSetContainer l))))) /\
    (strict_weak_order lt -> sor s -> sor (fst (fst (f_step A_dec lt s (FSetContainer l))))).
  Proof.
    intros H Hl. cbn [f_step]. destruct (set_container A_dec lt s l) as [[s' tr] e] eqn:E. cbn [fst].
    destruct (set_container_inv A_dec lt _ _ _ _ _ E H Hl) as (_ & Hi & Hc & _ & Hu & Hs).
    split; [exact Hi|]. split; [exact Hc|]. split; [eapply set_container_sets; exact E|]. auto.
  Qed.

  (** ** one step of the chain *)
  Lemma c_step_linked (v : view) c o c' t :
    c_step A_dec lt c o = (c', t) -> linked v c -> op_ok v o ->
    linked (v_step A_dec v o) c' /\
    (blockless Up o -> uns (c_up c) -> uns (c_up c')) /\
    (blockless Down o -> uns (c_down c) -> uns (c_down c')) /\
    (strict_weak_order lt -> keeps_down_key v o -> sor (c_down c) -> sor (c_down c')).
  Proof.
    intros E L Hok. pose proof (lk_up _ _ L) as Iu. pose proof (lk_down _ _ L) as Id.
    pose proof (lk_aup _ _ L) as Au. pose proof (lk_adown _ _ L) as Ad.
    assert (SetUp : forall fo v', setting fo = true -> on_up A_dec lt c fo = (c', t) ->
      (match fo with FEndChange ord => forall l, Permutation (ord l) l | _ => True end) ->
      v' = on_settings Up (set_op fo) v ->
      linked v' c' /\ (match fo with FEndChange _ => False | _ => True end -> uns (c_up c) -> uns (c_up c')) /\
      (uns (c_down c) -> uns (c_down c')) /\ (strict_weak_order lt -> sor (c_down c) -> sor (c_down c'))).
    { intros fo v' Hs E' Ho ->. destruct (setting_inv (c_up c) fo Hs Ho Iu) as (I1 & U1 & _).
      destruct (setting_fields (c_up c) fo _ _ Hs Au) as (A1 & C1).
      destruct (up_linked v (on_settings Up (set_op fo) v) c fo c' t E' L I1) as (L' & Eu & KK); try reflexivity.
      { rewrite C1. apply (lk_src _ _ L). } { exact A1. }
      split; [exact L'|]. rewrite Eu. split; [exact U1|]. destruct KK as (_ & _ & K3 & K4). auto. }
    assert (SetDown : forall fo v', setting fo = true -> on_down A_dec lt c fo = (c', t) ->
      (match fo with FEndChange ord => forall l, Permutation (ord l) l | _ => True end) ->
      v' = on_settings Down (set_op fo) v ->
      linked v' c' /\ (uns (c_up c) -> uns (c_up c')) /\
      (match fo with FEndChange _ => False | _ => True end -> uns (c_down c) -> uns (c_down c')) /\
      (strict_weak_order lt -> sor (c_down c) -> sor (c_down c'))).
    { intros fo v' Hs E' Ho ->. destruct (setting_inv (c_down c) fo Hs Ho Id) as (I1 & U1 & S1).
      destruct (setting_fields (c_down c) fo _ _ Hs Ad) as (A1 & C1).
      destruct (down_linked v (on_settings Down (set_op fo) v) c fo c' t E' L I1) as (L' & Eu & KK); try reflexivity.
      { rewrite C1. apply (lk_cont _ _ L). } { exact A1. }
      split; [exact L'|]. rewrite Eu, KK. auto. }
    destruct o as [i x|i|l|x y|st f|st k|st b|st|st ord| |]; cbn [c_step] in E; cbn [op_ok] in Hok.
    - assert (I1 : inv (fst (fst (f_step A_dec lt (c_up c) (FInsert i x)))) /\ (uns (c_up c) -> uns (fst (fst (f_step A_dec lt (c_up c) (FInsert i x)))))).
      { destruct (f_step A_dec lt (c_up c) (FInsert i x)) as [[s1 t1] e1] eqn:E1.
        destruct (insert_step_inv A_dec lt _ _ _ _ _ _ E1 Iu) as (J1 & _ & _ & _ & _ & _ & J2 & _); [rewrite (contents_source _ _ L); exact Hok|]. auto. }
      destruct I1 as [I1 U1]. destruct (cont_insert (c_up c) i x) as [C1 S1].
      destruct (up_linked v (v_step A_dec v (CInsert i x)) c (FInsert i x) c' t E L I1) as (L' & Eu & KK); try reflexivity.
      { rewrite C1, (lk_src _ _ L). reflexivity. } { eapply agree_sets; [exact Au|exact S1]. }
      split; [exact L'|]. rewrite Eu. destruct KK as (_ & _ & K3 & K4). auto.
    - assert (I1 : inv (fst (fst (f_step A_dec lt (c_up c) (FRemove i)))) /\ (uns (c_up c) -> uns (fst (fst (f_step A_dec lt (c_up c) (FRemove i)))))).
      { destruct (f_step A_dec lt (c_up c) (FRemove i)) as [[s1 t1] e1] eqn:E1.
        destruct (remove_step_inv A_dec lt _ _ _ _ _ E1 Iu) as (J1 & _ & _ & _ & _ & J2 & _). auto. }
      destruct I1 as [I1 U1]. destruct (cont_remove (c_up c) i) as [C1 S1].
      destruct (up_linked v (v_step A_dec v (CRemove i)) c (FRemove i) c' t E L I1) as (L' & Eu & KK); try reflexivity.
      { rewrite C1, (lk_src _ _ L). reflexivity. } { eapply agree_sets; [exact Au|exact S1]. }
      split; [exact L'|]. rewrite Eu. destruct KK as (_ & _ & K3 & K4). auto.
    - destruct (set_container_facts (c_up c) l Iu Hok) as (I1 & C1 & S1 & U1 & _).
      destruct (up_linked v (v_step A_dec v (CSource l)) c (FSetContainer l) c' t E L I1) as (L' & Eu & KK); try reflexivity.
      { exact C1. } { eapply agree_sets; [exact Au|exact S1]. }
      split; [exact L'|]. rewrite Eu. destruct KK as (_ & _ & K3 & K4). auto.
    - destruct (content_step v c x y c' t E L) as (L' & Uu & Ud & Sd). split; [exact L'|]. split; [auto|]. split; [auto|].
      intros Hw Hk Hs. apply Sd; [exact Hw| |exact Hs]. intros k Ek _. destruct Ad as (_ & B2 & _ & _ & B5). rewrite B5.
      apply Hk. congruence.
    - destruct st; cbn [on] in E.
      + destruct (SetUp (FSetFilter f) _ eq_refl E I eq_refl) as (L' & J1 & J2 & J3). split; [exact L'|]. auto.
      + destruct (SetDown (FSetFilter f) _ eq_refl E I eq_refl) as (L' & J1 & J2 & J3). split; [exact L'|]. auto.
    - destruct st; cbn [on] in E.
      + destruct (SetUp (FSetKey k) _ eq_refl E I eq_refl) as (L' & J1 & J2 & J3). split; [exact L'|]. auto.
      + destruct (SetDown (FSetKey k) _ eq_refl E I eq_refl) as (L' & J1 & J2 & J3). split; [exact L'|]. auto.
    - destruct st; cbn [on] in E.
      + destruct (SetUp (FSetRev b) _ eq_refl E I eq_refl) as (L' & J1 & J2 & J3). split; [exact L'|]. auto.
      + destruct (SetDown (FSetRev b) _ eq_refl E I eq_refl) as (L' & J1 & J2 & J3). split; [exact L'|]. auto.
    - destruct st; cbn [on] in E.
      + destruct (SetUp (FBeginChange) _ eq_refl E I eq_refl) as (L' & J1 & J2 & J3). split; [exact L'|]. auto.
      + destruct (SetDown (FBeginChange) _ eq_refl E I eq_refl) as (L' & J1 & J2 & J3). split; [exact L'|]. auto.
    - destruct st; cbn [on] in E.
      + destruct (SetUp (FEndChange ord) _ eq_refl E Hok eq_refl) as (L' & J1 & J2 & J3). split; [exact L'|]. cbn [blockless]. auto.
      + destruct (SetDown (FEndChange ord) _ eq_refl E Hok eq_refl) as (L' & J1 & J2 & J3). split; [exact L'|]. cbn [blockless]. auto.
    - destruct (set_container_facts (c_down c) (Some (fs_items (c_up c))) Id (inv_nodup _ Iu)) as (I1 & C1 & S1 & U1 & So1).
      destruct (down_linked v (v_step A_dec v CAttach) c _ c' t E L I1) as (L' & Eu & KK); try reflexivity.
      { exact C1. } { eapply agree_sets; [exact Ad|exact S1]. }
      split; [exact L'|]. rewrite Eu, KK. auto.
    - destruct (set_container_facts (c_down c) None Id I) as (I1 & C1 & S1 & U1 & So1).
      destruct (down_linked v (v_step A_dec v CDetach) c _ c' t E L I1) as (L' & Eu & KK); try reflexivity.
      { exact C1. } { eapply agree_sets; [exact Ad|exact S1]. }
      split; [exact L'|]. rewrite Eu, KK. auto.
  Qed.

  Lemma c_run_linked h : forall (v : view) c,
    linked v c -> all_along A_dec op_ok v h ->
    let c' := fst (c_run A_dec lt c h) in
    linked (v_run A_dec v h) c' /\
    (Forall (blockless Up) h -> uns (c_up c) -> uns (c_up c')) /\
    (Forall (blockless Down) h -> uns (c_down c) -> uns (c_down c')) /\
    (strict_weak_order lt -> all_along A_dec keeps_down_key v h -> sor (c_down c) -> sor (c_down c')).
  Proof.
    induction h as [|o h IH]; intros v c L Hok; [cbn; auto|].
    destruct Hok as [Ho Hok]. cbn [c_run]. destruct (c_step A_dec lt c o) as [c1 t1] eqn:E.
    destruct (c_step_linked _ _ _ _ _ E L Ho) as (L1 & U1 & D1 & S1).
    destruct (IH _ _ L1 Hok) as (L2 & U2 & D2 & S2). destruct (c_run A_dec lt c1 h) as [c2 t2]. cbn [fst] in *.
    split; [exact L2|]. split; [|split].
    - intros HF. inversion HF; subst. auto.
    - intros HF. inversion HF; subst. auto.
    - intros Hw [Hk HK]. auto.
  Qed.

  Lemma c_new_linked w : linked (v_new w) (c_new (A := A) (C := C) (K := K) w) /\
    uns (c_up (c_new w)) /\ uns (c_down (c_new w)) /\ sor (c_down (c_new w)).
  Proof.
    destruct (new_inv (A := A) (C := C) A_dec lt w) as (H & U & S & _). split; [|auto].
    constructor; cbn; try exact H; try reflexivity; repeat split.
  Qed.

  (** ** the notifications of the downstream list *)
  Lemma deliver1_tidy (s : fstate) e s' t : deliver1 s e = (s', t) -> f_names (fs_items s) t (fs_items s').
  Proof.
    unfold deliver1, Chain_Model.deliver1. destruct (fs_cont s) as [l|] eqn:Ec; [|intros [= <- <-]; reflexivity].
    destruct e; cbn [f_step]; try (destruct (fs_conn s); intros [= <- <-]; reflexivity); try (intros [= <- <-]; reflexivity).
    - rewrite Ec. destruct (fs_conn s); [|intros [= <- <-]; reflexivity].
      destruct (item_inserted _ _ _ _ _) as [[s1 t1] e1] eqn:E. cbn [fst]. intros [= <- <-].
      apply item_inserted_tidy in E as [E _]. exact E.
    - destruct (fs_conn s); [|intros [= <- <-]; reflexivity].
      destruct (item_removed _ _ _ _) as [[s1 t1] e1] eqn:E. cbn [fst]. intros [= <- <-].
      apply item_removed_tidy in E as [E _]. exact E.
  Qed.
  Lemma deliver_names tr : forall (s : fstate) s' t, deliver s tr = (s', t) -> f_names (fs_items s) t (fs_items s').
  Proof.
    induction tr as [|e tr IH]; intros s s' t E; [injection E as <- <-; reflexivity|].
    cbn in E. destruct (deliver1 s e) as [s1 t1] eqn:E1. destruct (deliver s1 tr) as [s2 t2] eqn:E2. injection E as <- <-.
    eapply f_names_app; [eapply deliver1_tidy; exact E1|eapply IH; exact E2].
  Qed.
  (** the change blocks the downstream list opens: those of the upstream list, and its own *)
  Definition live (s : fstate) : bool := match fs_cont s with Some _ => fs_conn s | None => false end.
  Lemma deliver1_blocks (s : fstate) e s' t : deliver1 s e = (s', t) ->
    live s' = live s /\
    if live s then match e with FBegin => t = [FBegin] | FEnd => t = [FEnd] | _ => nesting 0 t = Some 0 end else t = [].
  Proof.
    unfold deliver1, Chain_Model.deliver1, live. destruct (fs_cont s) as [l|] eqn:Ec; [|intros [= <- <-]; rewrite Ec; auto].
    destruct e; cbn [f_step]; try solve [destruct (fs_conn s) eqn:En; intros [= <- <-]; cbn [fs_cont fs_conn with_sorted]; rewrite Ec, En; auto].
    - rewrite Ec. destruct (fs_conn s) eqn:En; [|intros [= <- <-]; cbn; auto].
      destruct (item_inserted _ _ _ _ _) as [[s1 t1] e1] eqn:E. cbn [fst]. intros [= <- <-].
      pose proof (item_inserted_fixed _ _ _ _ _ _ E) as (_ & F1 & F2). cbn [fs_cont fs_conn with_cont] in F1, F2. rewrite F1, F2.
      apply item_inserted_tidy in E as [_ E]. auto.
    - destruct (fs_conn s) eqn:En; [|intros [= <- <-]; cbn; auto].
      destruct (item_removed _ _ _ _) as [[s1 t1] e1] eqn:E. cbn [fst]. intros [= <- <-].
      pose proof (item_removed_fixed _ _ _ _ _ _ E) as (_ & F1 & F2). cbn [fs_cont fs_conn with_cont] in F1, F2. rewrite F1, F2.
      apply item_removed_tidy in E as [_ E]. auto.
  Qed.
  Lemma deliver_blocks tr : forall (s : fstate) s' t n n1, deliver s tr = (s', t) -> nesting n tr = Some n1 ->
    live s' = live s /\ if live s then nesting n t = Some n1 else t = [].
  Proof.
    induction tr as [|e tr IH]; intros s s' t n n1 E N; [injection E as <- <-; split; [reflexivity|destruct (live s); [exact N|reflexivity]]|].
    cbn in E. destruct (deliver1 s e) as [s1 t1] eqn:E1. destruct (deliver s1 tr) as [s2 t2] eqn:E2. injection E as <- <-.
    destruct (deliver1_blocks _ _ _ _ E1) as [L1 T1].
    assert (G : forall n2, nesting n2 tr = Some n1 -> (if live s then nesting n t1 = Some n2 else t1 = []) ->
      live s2 = live s /\ if live s then nesting n (t1 ++ t2) = Some n1 else t1 ++ t2 = []).
    { intros n2 N2 Ht. destruct (IH _ _ _ _ _ E2 N2) as [L2 T2]. rewrite L1 in L2, T2. split; [exact L2|].
      destruct (live s); [rewrite (nesting_app _ _ _ n2 Ht); exact T2|rewrite Ht, T2; reflexivity]. }
    assert (Q : (if live s then nesting 0 t1 = Some 0 else t1 = []) -> if live s then nesting n t1 = Some n else t1 = []).
    { destruct (live s); [apply nesting_at|auto]. }
    destruct e; cbn [nesting] in N.
    - apply (G (S n) N). destruct (live s); [rewrite T1; reflexivity|exact T1].
    - destruct n as [|n]; [discriminate|]. apply (G n N). destruct (live s); [rewrite T1; reflexivity|exact T1].
    - apply (G n N), Q, T1.
    - destruct n as [|n]; [discriminate|]. apply (G (S n) N), Q, T1.
    - destruct n as [|n]; [discriminate|]. apply (G (S n) N), Q, T1.
    - apply (G n N), Q, T1.
    - apply (G n N), Q, T1.
  Qed.
  Lemma deliver_closed tr (s : fstate) s' t : deliver s tr = (s', t) -> nesting 0 tr = Some 0 -> nesting 0 t = Some 0.
  Proof. intros E N. destruct (deliver_blocks _ _ _ _ _ _ E N) as [_ H]. destruct (live s); [exact H|rewrite H; reflexivity]. Qed.
  Lemma c_step_blocks (c : chain) o : nesting 0 (snd (c_step A_dec lt c o)) = Some 0.
  Proof.
    assert (U : forall fo, fo <> FContBegin -> fo <> FContEnd -> nesting 0 (snd (on_up A_dec lt c fo)) = Some 0).
    { intros fo H1 H2. unfold on_up. destruct (f_step A_dec lt (c_up c) fo) as [[u tu] eu] eqn:E. apply f_step_trace in E as (_ & _ & N).
      destruct (deliver (c_down c) tu) as [d1 t1] eqn:E1. eapply deliver_closed; [exact E1|auto]. }
    assert (D : forall fo, fo <> FContBegin -> fo <> FContEnd -> nesting 0 (snd (on_down A_dec lt c fo)) = Some 0).
    { intros fo H1 H2. unfold on_down. destruct (f_step A_dec lt (c_down c) fo) as [[d td] ed] eqn:E. apply f_step_trace in E as (_ & _ & N). auto. }
    destruct o as [i x|i|l|x y|st f|st k|st b|st|st ord| |]; cbn [c_step]; try (apply U; discriminate); try (apply D; discriminate);
      try (destruct st; [apply U|apply D]; discriminate).
    unfold on_content. destruct (f_step _ _ _ _) as [[u tu] eu] eqn:E. apply f_step_trace in E as (_ & _ & N).
    destruct (deliver _ tu) as [d1 t1] eqn:E1. apply deliver_closed in E1; [|apply N; discriminate].
    destruct (_ && _); [|exact E1]. destruct (Filtered_Model.inb _ _ _); [|exact E1].
    destruct (updated_master _ _ _ _) as [d2 t2] eqn:E2. apply updated_master_tidy in E2 as [_ E2].
    cbn [snd]. rewrite (nesting_app _ _ _ 0 E1). exact E2.
  Qed.

  Lemma content_names (c : chain) x y c' t : on_content A_dec lt c x y = (c', t) -> f_names (fs_items (c_down c)) t (fs_items (c_down c')).
  Proof.
    unfold on_content. destruct (f_step _ _ _ _) as [[u tu] eu]. destruct (deliver _ tu) as [d1 t1] eqn:E1.
    apply deliver_names in E1. cbn [fs_items with_content] in E1.
    destruct (_ && _); [|intros [= <- <-]; exact E1]. destruct (Filtered_Model.inb _ _ _); [|intros [= <- <-]; exact E1].
    destruct (updated_master _ _ _ _) as [d2 t2] eqn:E2. intros [= <- <-]. apply updated_master_tidy in E2 as [E2 _].
    eapply f_names_app; [exact E1|exact E2].
  Qed.
  Lemma c_step_follows (c : chain) o c' t : c_step A_dec lt c o = (c', t) -> f_follows (fs_items (c_down c)) t (fs_items (c_down c')).
  Proof.
    assert (U : forall fo, on_up A_dec lt c fo = (c', t) -> f_follows (fs_items (c_down c)) t (fs_items (c_down c'))).
    { intros fo. unfold on_up. destruct (f_step _ _ _ _) as [[u tu] eu]. destruct (deliver _ tu) as [d1 t1] eqn:E1.
      intros [= <- <-]. apply f_names_follows. eapply deliver_names. exact E1. }
    assert (D : forall fo, on_down A_dec lt c fo = (c', t) -> f_follows (fs_items (c_down c)) t (fs_items (c_down c'))).
    { intros fo. unfold on_down. destruct (f_step _ _ _ _) as [[d td] ed] eqn:E. intros [= <- <-].
      apply f_step_trace in E as (E & _). exact E. }
    destruct o as [i x|i|l|x y|st f|st k|st b|st|st ord| |]; cbn [c_step]; try apply U; try apply D; try (destruct st; [apply U|apply D]).
    intros E. apply f_names_follows. eapply content_names. exact E.
  Qed.
End P.
