(** Proofs for PersistStore_Props: the steps. *)
From Coq Require Import String ZArith Bool List Lia.
From Verif Require Import PyBase PersistDict_Model PersistDict_Spec PersistDict_Proofs PersistStore_Model PersistStore_Spec PersistStore_Proofs PersistStore_Proofs2.
Import ListNotations.

Section Steps.
  Context {A V U M : Type}.
  Variable ustr : U -> json A.
  Variable class : nat -> classdef A V.
  Variable cls : nat -> nat.
  Variable uu : nat -> U.
  Variable m0 : M.
  Notation heap := (heap A V).
  Notation path := (list (string + nat)).
  Hypothesis all_plain : forall c, plain (class c).
  Notation held := (held class cls).
  Notation below := (below class cls).
  Notation view := (view ustr class cls uu).
  Notation shows := (shows ustr class cls uu).
  Notation struct := (struct class cls).
  Notation top := (top class cls).
  Notation write_to_dict := (write_to_dict ustr class cls uu m0).
  Notation set_context := (set_context class cls).

  Definition correct (h : heap) : Prop := forall s d, h_store h s = Some d -> shows h s (JDict d).
  Definition inctx (h : heap) : Prop := forall s y, h_store h s <> None -> below h s y -> h_ctx h y = true.
  Record inv (h : heap) : Prop := Inv { i_struct : struct h; i_correct : correct h; i_ctx : inctx h }.

  (** ** heaps with the same objects *)
  Definition same_objs (h h' : heap) : Prop := h_props h' = h_props h /\ h_items h' = h_items h /\ h_rels h' = h_rels h.
  Lemma same_view h h' p r : same_objs h h' -> view h' p r = view h p r.
  Proof. intros (E1 & E2 & E3). apply view_frame. intros y _. unfold agree. rewrite E1, E2, E3. auto. Qed.
  Lemma held_sub_below h h' : (forall r pl x, held h' r pl x -> held h r pl x) -> forall x y, below h' x y -> below h x y.
  Proof. intros H x y Hb. induction Hb as [|y pl z Hb IH Hh]; [apply below_refl|]. exact (below_held _ _ _ _ _ _ _ IH (H _ _ _ Hh)). Qed.
  Lemma same_held h h' r pl x : h_items h' = h_items h -> h_rels h' = h_rels h -> held h' r pl x -> held h r pl x.
  Proof. intros E1 E2. destruct pl; simpl; rewrite ?E1, ?E2; auto. Qed.
  Lemma same_below h h' x y : h_items h' = h_items h -> h_rels h' = h_rels h -> below h' x y -> below h x y.
  Proof. intros E1 E2. apply held_sub_below. intros r pl z. apply same_held; assumption. Qed.

  (** ** the context *)
  Lemma in_children h r x : In x (children class cls h r) <-> exists pl, held h r pl x.
  Proof.
    unfold children. rewrite in_app_iff, !in_flat_map. split.
    - intros [(i & Hi & Hx)|(d & Hd & Hx)].
      + destruct (h_items h r (i_name i)) as [y|] eqn:E; [|destruct Hx]. destruct Hx as [->|[]].
        exists (AtItem (i_name i)). split; [apply in_map; exact Hi|exact E].
      + exists (InRel (r_name d)). split; [apply in_map; exact Hd|exact Hx].
    - intros [[n|n] [Hn Hx]]; apply in_map_iff in Hn; destruct Hn as (i & <- & Hi).
      + left. exists i. split; [exact Hi|]. rewrite Hx. left. reflexivity.
      + right. exists i. auto.
  Qed.
  Lemma below_left h x y : below h x y -> y = x \/ exists pl z, held h x pl z /\ below h z y.
  Proof.
    intros H. induction H as [|y pl z H IH Hh]; [auto|]. right. destruct IH as [->|(pl' & w & H1 & H2)].
    - exists pl, z. split; [exact Hh|apply below_refl].
    - exists pl', w. split; [exact H1|]. exact (below_held _ _ _ _ _ _ _ H2 Hh).
  Qed.
  Definition ctx_only (h h' : heap) : Prop :=
    h_props h' = h_props h /\ h_items h' = h_items h /\ h_rels h' = h_rels h /\ h_parent h' = h_parent h /\ h_store h' = h_store h.
  Lemma ctx_only_refl h : ctx_only h h.
  Proof. repeat split. Qed.
  Lemma ctx_only_trans h h' h'' : ctx_only h h' -> ctx_only h' h'' -> ctx_only h h''.
  Proof. intros (A1 & A2 & A3 & A4 & A5) (B1 & B2 & B3 & B4 & B5). repeat split; congruence. Qed.
  Lemma set_context_spec f b r h h' :
    set_context f b r h = Ok h' ->
    ctx_only h h' /\ (forall y, h_ctx h' y = h_ctx h y \/ (below h r y /\ h_ctx h' y = b)) /\ (forall y, below h r y -> h_ctx h' y = b).
  Proof.
    revert r h h'. induction f as [|f IH]; intros r h h'; [discriminate|]. cbn [PersistStore_Model.set_context].
    destruct (h_ctx h r && b); [discriminate|].
    assert (Hc : forall x, In x (children class cls h r) -> exists pl, held h r pl x) by (intros x; apply in_children).
    assert (Hc2 : forall pl x, held h r pl x -> In x (children class cls h r)) by (intros pl x Hx; apply in_children; eauto).
    revert Hc Hc2. generalize (children class cls h r) as l. intros l Hc Hc2 E.
    enough (G : ctx_only h h' /\ (forall y, h_ctx h' y = h_ctx h y \/ (below h r y /\ h_ctx h' y = b)) /\ h_ctx h' r = b /\
                (forall x y, In x l -> below h x y -> h_ctx h' y = b)).
    { destruct G as (G1 & G2 & G3 & G4). split; [exact G1|]. split; [exact G2|]. intros y Hy. apply below_left in Hy.
      destruct Hy as [->|(pl & z & Hz & Hy)]; [exact G3|]. exact (G4 _ _ (Hc2 _ _ Hz) Hy). }
    assert (Ind : forall l h1, (forall x, In x l -> exists pl, held h r pl x) -> ctx_only h h1 ->
              (forall y, h_ctx h1 y = h_ctx h y \/ (below h r y /\ h_ctx h1 y = b)) ->
              fold_left (fun o x => then_ o (set_context f b x)) l (Ok h1) = Ok h' ->
              ctx_only h h' /\ (forall y, h_ctx h' y = h_ctx h y \/ (below h r y /\ h_ctx h' y = b)) /\
              (forall y, h_ctx h1 y = b -> h_ctx h' y = b) /\ (forall x y, In x l -> below h x y -> h_ctx h' y = b)).
    { clear -IH. intros l. induction l as [|x l IHl]; intros h1 Hc C0 C1 E.
      - injection E as <-. split; [exact C0|]. split; [exact C1|]. split; [auto|]. intros x y [].
      - cbn [fold_left then_] in E. destruct (set_context f b x h1) as [h2|] eqn:E2.
        2:{ exfalso. clear -E. induction l; [discriminate|]. apply IHl. exact E. }
        destruct (IH _ _ _ E2) as (D0 & D1 & D2).
        assert (Bel : forall u v, below h1 u v <-> below h u v).
        { destruct C0 as (_ & Q1 & Q2 & _). intros u v. split; apply same_below; congruence. }
        destruct (Hc x) as [pl Hx]; [left; reflexivity|].
        destruct (IHl h2) as (G0 & G1 & G2 & G3).
        + intros z Hz. apply Hc. right. exact Hz.
        + exact (ctx_only_trans _ _ _ C0 D0).
        + intros y. destruct (D1 y) as [->|[Hb ->]]; [apply C1|]. right. split; [|reflexivity].
          apply Bel in Hb. exact (below_trans _ _ _ _ _ _ (held_below _ _ _ _ _ _ Hx) Hb).
        + exact E.
        + split; [exact G0|]. split; [exact G1|]. split.
          * intros y Hy. apply G2. destruct (D1 y) as [->|[_ ->]]; auto.
          * intros z y [->|Hz]; [|apply G3; exact Hz]. intros Hy. apply G2. apply D2. apply Bel. exact Hy. }
    destruct (Ind l (put_ctx r b h) Hc) as (G0 & G1 & G2 & G3).
    - repeat split.
    - intros y. cbn [h_ctx put_ctx]. unfold upd. destruct (Nat.eqb_spec y r) as [->|]; [|auto]. right. split; [apply below_refl|reflexivity].
    - exact E.
    - split; [exact G0|]. split; [exact G1|]. split; [|exact G3]. apply G2. cbn [h_ctx put_ctx]. unfold upd. rewrite Nat.eqb_refl. reflexivity.
  Qed.

  (** ** a change of one object *)
  Lemma below_keep h h' s r : struct h -> top h s -> (forall y, y <> r -> agree h h' y) -> below h s r -> below h' s r.
  Proof.
    intros S T Hag Hb. assert (G : forall w, below h s w -> below h w r -> below h' s w); [|apply G; [exact Hb|apply below_refl]].
    intros w Hw. induction Hw as [|y pl z Hy IH Hh]; intros Hr; [apply below_refl|].
    refine (below_held _ _ _ _ _ _ _ (IH (below_trans _ _ _ _ _ _ (held_below _ _ _ _ _ _ Hh) Hr)) _).
    refine (agree_held _ _ _ _ _ _ _ _ Hh). apply Hag. intros ->. exact (no_loop _ _ _ _ _ _ _ S T Hy Hh Hr).
  Qed.
  Lemma not_below_view h h' r x : (forall y, y <> r -> agree h h' y) -> ~ below h' x r -> forall p, view h p x = view h' p x.
  Proof. intros Hag N p. symmetry. apply view_frame. intros y Hy. apply agree_sym. apply Hag. intros ->. exact (N Hy). Qed.
  Lemma quiet_correct h h' r :
    correct h -> (forall y, y <> r -> agree h h' y) -> h_store h' = h_store h -> (forall s, h_store h' s <> None -> ~ below h' s r) -> correct h'.
  Proof.
    intros C Hag Es N s d Hd p. rewrite Es in Hd. rewrite (C s d Hd). apply (not_below_view h h' r); [exact Hag|]. apply N. rewrite Es. congruence.
  Qed.
  Lemma tell_spec f r c h h' h'' s :
    struct h' -> h_store h' s <> None -> below h' s r -> (forall y, y <> r -> agree h h' y) -> h_store h' = h_store h -> correct h ->
    (forall d d', shows h r (JDict d) -> handle c d = Ok d' -> shows h' r (JDict d')) ->
    tell f r c h' = Ok h'' ->
    correct h'' /\ exists d, h'' = put_store s (Some d) h'.
  Proof.
    intros S Hs Hb Hag Es C Hc E. unfold tell in E.
    destruct (storage_of f h' r) as [o|] eqn:Eo; [|discriminate]. rewrite (storage_right _ _ _ _ _ _ _ S Hs Hb Eo) in E.
    destruct (path_to f h' s r) as [l|] eqn:El; [|discriminate]. destruct (h_store h' s) as [d|] eqn:Ed; [|discriminate].
    destruct (change_at l (handle c) (JDict d)) as [j|] eqn:Ej; [|discriminate]. destruct j as [| | |d']; try discriminate. injection E as <-.
    assert (T := st_top _ _ _ S s ltac:(congruence)).
    assert (Hsh : shows h' s (JDict d')).
    { apply (change_shows ustr class cls uu all_plain h h' s r (handle c) l S T Hag Hc s (JDict d)); [apply below_refl| | |exact Ej].
      - exact (path_leads _ _ _ _ _ _ _ S Hb El).
      - apply C. congruence. }
    split; [|eauto]. intros s' d'' H. cbn [h_store put_store] in H. unfold upd in H.
    assert (Sv : forall p x, view (put_store s (Some d') h') p x = view h' p x) by (intros; apply same_view; repeat split).
    intros p. rewrite Sv. destruct (Nat.eqb_spec s' s) as [->|N].
    - injection H as <-. apply Hsh.
    - rewrite Es in H. rewrite (C s' d'' H). apply (not_below_view h h' r _ Hag). intros Hb'. apply N.
      apply (top_one _ _ _ _ _ r S T); [|exact Hb|exact Hb']. apply (st_top _ _ _ S). rewrite Es. congruence.
  Qed.
  Lemma dget_without q k (d : dict A) : dget q (without k d) = if string_dec q k then None else dget q d.
  Proof.
    unfold without, dget. induction d as [|[k' j] d IH]; [simpl; destruct (string_dec q k); reflexivity|]. cbn [filter fst].
    destruct (String.eqb_spec k' k) as [->|N]; simpl.
    - rewrite IH. destruct (string_dec q k); reflexivity.
    - rewrite IH. destruct (string_dec q k') as [->|]; [|reflexivity]. destruct (string_dec k' k); [congruence|reflexivity].
  Qed.
  (** the handler changes what stands under one key, [n], and [h'] differs from [h] only there *)
  Lemma effect_shows h h' s r n (d d' : dict A) :
    struct h' -> top h' s -> below h' s r -> (forall y, y <> r -> agree h h' y) ->
    (forall k, k <> n -> h_props h' r k = h_props h r k /\ h_items h' r k = h_items h r k /\ h_rels h' r k = h_rels h r k) ->
    shows h r (JDict d) -> (forall k, k <> n -> dget k d' = dget k d) ->
    (forall p, olook p (dget n d') = view h' (inl n :: p) r) ->
    shows h' r (JDict d').
  Proof.
    intros S T Hb Hag Hk Hd Ho Hn [|[k|i] p]; [reflexivity| |reflexivity]. rewrite look_dict.
    destruct (string_dec k n) as [->|N]; [apply Hn|]. rewrite (Ho k N), <- look_dict, Hd. destruct (Hk k N) as (E1 & E2 & E3).
    apply view_other; auto. intros pl x _ Hx. apply (not_below_view h h' r _ Hag). intros C. exact (no_loop _ _ _ _ _ _ _ S T Hb Hx C).
  Qed.

  (** what a step does once the objects are changed and the storage has been told *)
  Lemma usable_cases h h' r :
    inv h -> struct h' -> (forall y, y <> r -> agree h h' y) -> h_store h' = h_store h -> usable class cls h r ->
    (h_ctx h r = true /\ exists s, h_store h' s <> None /\ below h' s r /\ below h s r) \/
    (h_ctx h r = false /\ forall s, h_store h' s <> None -> ~ below h' s r).
  Proof.
    intros [S C I] S' Hag Es Hu. destruct (h_ctx h r) eqn:E.
    - left. split; [reflexivity|]. destruct (Hu E) as (s & Hs & Hb). exists s. rewrite Es. split; [exact Hs|]. split; [|exact Hb].
      apply (below_keep h h' s r S); [apply (st_top _ _ _ S); exact Hs|exact Hag|exact Hb].
    - right. split; [reflexivity|]. intros s Hs Hb. assert (below h s r).
      { apply (below_keep h' h s r S'); [apply (st_top _ _ _ S'); exact Hs|intros y Hy; apply agree_sym; auto|exact Hb]. }
      rewrite Es in Hs. rewrite (I s r Hs H) in E. discriminate.
  Qed.
  Lemma told_inv f r c h h1 h' :
    inv h -> struct h1 -> (forall y, y <> r -> agree h h1 y) -> h_store h1 = h_store h -> h_ctx h1 = h_ctx h ->
    (forall x y pl, held h1 x pl y -> held h x pl y) -> usable class cls h r ->
    (forall s d d', top h1 s -> below h1 s r -> shows h r (JDict d) -> handle c d = Ok d' -> shows h1 r (JDict d')) ->
    told f r c h1 = Ok h' -> inv h'.
  Proof.
    intros HI S1 Hag Es Ec Hsub Hu Heff E.
    assert (Hx : inctx h1).
    { intros s y Hs Hb. rewrite Ec. rewrite Es in Hs. apply (i_ctx _ HI s); [exact Hs|]. apply (held_sub_below h h1); [auto|exact Hb]. }
    unfold told in E. rewrite Ec in E.
    destruct (usable_cases h h1 r HI S1 Hag Es Hu) as [[Ek (s & Hs & Hb & _)]|[Ek Hn]]; rewrite Ek in E.
    - destruct (tell_spec f r c h h1 h' s S1 Hs Hb Hag Es (i_correct _ HI)) as (C & d & ->); [|exact E|].
      + intros d d'. apply (Heff s); [|exact Hb]. apply (st_top _ _ _ S1). exact Hs.
      + assert (Bel : forall x y, below (put_store s (Some d) h1) x y -> below h1 x y) by (intros x y; apply same_below; reflexivity).
        assert (Hst : forall s', h_store (put_store s (Some d) h1) s' <> None -> h_store h1 s' <> None).
        { intros s'. cbn [h_store put_store]. unfold upd. destruct (Nat.eqb_spec s' s) as [->|]; auto. }
        constructor; [|exact C|].
        * destruct S1 as [P1 P2 P3]. constructor; [exact P1|exact P2|]. intros s' Hs'. exact (P3 s' (Hst _ Hs')).
        * intros s' y Hs' Hb'. exact (Hx s' y (Hst _ Hs') (Bel _ _ Hb')).
    - injection E as <-. constructor; [exact S1| |exact Hx]. apply (quiet_correct h h1 r); auto. exact (i_correct _ HI).
  Qed.
  Lemma upd_other {X} (f : nat -> X) r x y : y <> r -> upd f r x y = f y.
  Proof. intros H. unfold upd. destruct (Nat.eqb_spec y r); congruence. Qed.
  Lemma upd_same {X} (f : nat -> X) r x : upd f r x r = x.
  Proof. unfold upd. rewrite Nat.eqb_refl. reflexivity. Qed.
  Lemma upd_name_other {X} (f : string -> X) n x k : k <> n -> upd_name f n x k = f k.
  Proof. intros H. unfold upd_name. destruct (String.eqb_spec k n); congruence. Qed.
  Lemma upd_name_same {X} (f : string -> X) n x : upd_name f n x n = x.
  Proof. unfold upd_name. rewrite String.eqb_refl. reflexivity. Qed.

  Lemma set_property_inv f r n v h h' : inv h -> usable class cls h r -> set_property class cls f r n v h = Ok h' -> inv h'.
  Proof.
    intros HI Hu. unfold set_property. destruct (prop_def class cls r n) as [p|] eqn:Ep; [|discriminate].
    destruct (find_name_some p_name _ _ _ Ep) as [Hp En]. destruct (all_plain (cls r)) as (_ & Hpl & _). destruct (Hpl p Hp) as [Ekey Hc].
    set (v' := set_value p v). set (h1 := put_prop r n v' h).
    assert (Hag : forall y, y <> r -> agree h h1 y).
    { intros y Hy. unfold h1, agree. cbn [h_props h_items h_rels put_prop]. rewrite upd_other by exact Hy. auto. }
    assert (S1 : struct h1) by (destruct (i_struct _ HI) as [P1 P2 P3]; constructor; [exact P1|exact P2|exact P3]).
    destruct (class_parts class all_plain (cls r)) as (_ & _ & _ & _ & _ & Dk & _).
    assert (Hin : In n (map p_name (k_props (class (cls r))))) by (rewrite <- En; apply in_map; exact Hp).
    assert (Hview : forall q, view h1 (inl n :: q) r = olook q (written p v')).
    { intros q. cbn [PersistStore_Proofs.view]. destruct (string_dec n "uuid") as [Q|]; [exfalso; destruct (Dk n (or_introl Q)) as (B & _); auto|].
      destruct (string_dec n "type") as [Q|]; [exfalso; destruct (Dk n (or_intror Q)) as (B & _); auto|].
      rewrite Ep. unfold h1. cbn [h_props put_prop]. rewrite upd_same, upd_name_same. reflexivity. }
    assert (Hoth : forall k, k <> n -> h_props h1 r k = h_props h r k /\ h_items h1 r k = h_items h r k /\ h_rels h1 r k = h_rels h r k).
    { intros k Hk. unfold h1. cbn [h_props h_items h_rels put_prop]. rewrite upd_same, upd_name_other by exact Hk. auto. }
    assert (Hset : forall j, written p v' = Some j -> told f r (SetProp n j) h1 = Ok h' -> inv h').
    { intros j Hj. apply (told_inv f r (SetProp n j) h h1 h' HI S1 Hag); [reflexivity|reflexivity|auto|exact Hu|].
      intros s d d' T Hb Hd [= <-]. apply (effect_shows h h1 s r n d); auto.
      - intros k Hk. rewrite dget_dset. destruct (string_dec k n); [congruence|reflexivity].
      - intros q. rewrite Hview, dget_dset, Hj. destruct (string_dec n n); [reflexivity|congruence]. }
    assert (Hclr : written p v' = None -> told f r (ClearProp n) h1 = Ok h' -> inv h').
    { intros Hj. apply (told_inv f r (ClearProp n) h h1 h' HI S1 Hag); [reflexivity|reflexivity|auto|exact Hu|].
      intros s d d' T Hb Hd [= <-]. apply (effect_shows h h1 s r n d); auto.
      - intros k Hk. rewrite dget_without. destruct (string_dec k n); [congruence|reflexivity].
      - intros q. rewrite Hview, dget_without, Hj. destruct (string_dec n n); [reflexivity|congruence]. }
    unfold write_prop, written in *. unfold is_custom in Hc. rewrite Ekey, En. destruct (p_kind p) as [get set|wr rd|w rd]; [| |tauto].
    - destruct (get v') as [| | |] eqn:Eg; [exact (Hclr eq_refl)|exact (Hset _ eq_refl)|exact (Hset _ eq_refl)|exact (Hset _ eq_refl)].
    - destruct v' as [y|]; [exact (Hset _ eq_refl)|exact (Hclr eq_refl)].
  Qed.

  Lemma written_shows f h x d : write_to_dict f h x = Ok d -> shows h x (JDict d).
  Proof.
    unfold PersistStore_Model.write_to_dict. destruct (unload class cls uu m0 f h x) as [o|] eqn:E; [|discriminate]. intros W.
    destruct (write_shows ustr class cls uu m0 all_plain _ _ _ _ E) as (d' & W' & H). rewrite W in W'. injection W' as <-. exact H.
  Qed.
  (** an object is put at a place *)
  Lemma added_inv f r pl x (c : dict A -> hcall A) h h1 h' :
    inv h -> usable class cls h r -> free class cls h x ->
    (forall y, y <> r -> agree h h1 y) -> h_store h1 = h_store h -> h_ctx h1 = h_ctx h ->
    h_parent h1 = upd (h_parent h) x (Some (r, pl)) ->
    (forall r' pl' y, held h1 r' pl' y -> (r' = r /\ pl' = pl /\ y = x) \/ held h r' pl' y) ->
    (forall r' n, NoDup (h_rels h1 r' n)) ->
    (forall s d d0 d', struct h1 -> top h1 s -> below h1 s r -> shows h r (JDict d0) -> shows h1 x (JDict d) -> handle (c d) d0 = Ok d' -> shows h1 r (JDict d')) ->
    (if h_ctx h1 r then match write_to_dict f h1 x with Err e => Err e | Ok d => then_ (tell f r (c d) h1) (set_context f true x) end else Ok h1) = Ok h' ->
    inv h'.
  Proof.
    intros HI Hu [Hfree Hns] Hag Es Ec Epar Hnew Hnd Heff E.
    assert (S1 : struct h1).
    { destruct (i_struct _ HI) as [P1 P2 P3]. constructor; [|exact Hnd|].
      - intros r' pl' y Hy. rewrite Epar. unfold upd. destruct (Hnew _ _ _ Hy) as [(-> & -> & ->)|Ho]; [rewrite Nat.eqb_refl; reflexivity|].
        destruct (Nat.eqb_spec y x) as [->|]; [exfalso; exact (Hfree _ _ Ho)|exact (P1 _ _ _ Ho)].
      - intros s Hs r' pl' Hy. rewrite Es in Hs. destruct (Hnew _ _ _ Hy) as [(-> & -> & ->)|Ho]; [congruence|exact (P3 s Hs _ _ Ho)]. }
    destruct (usable_cases h h1 r HI S1 Hag Es Hu) as [[Ek (s & Hs & Hb & Hb0)]|[Ek Hn]].
    - rewrite Ec, Ek in E. destruct (write_to_dict f h1 x) as [d|] eqn:Hw; [|discriminate].
      destruct (tell f r (c d) h1) as [h2|] eqn:E2; [|discriminate]. cbn [then_] in E.
      assert (Hx1 := written_shows _ _ _ _ Hw).
      destruct (tell_spec f r (c d) h h1 h2 s S1 Hs Hb Hag Es (i_correct _ HI)) as (C2 & d2 & ->); [|exact E2|].
      { intros d0 d' H0. apply (Heff s d); auto. apply (st_top _ _ _ S1). exact Hs. }
      destruct (set_context_spec _ _ _ _ _ E) as ((F1 & F2 & F3 & F4 & F5) & Hc1 & Hc2).
      assert (Bel : forall a b, below h' a b -> below h1 a b) by (intros a b; apply same_below; assumption).
      assert (Hst : forall s', h_store h' s' <> None -> h_store h1 s' <> None).
      { intros s'. rewrite F5. cbn [h_store put_store]. unfold upd. destruct (Nat.eqb_spec s' s) as [->|]; auto. }
      constructor.
      + destruct S1 as [P1 P2 P3]. constructor.
        * intros r' pl' y Hy. rewrite F4. apply P1. revert Hy. apply same_held; assumption.
        * intros r' n. rewrite F3. apply P2.
        * intros s' Hs' r' pl' Hy. apply (P3 s' (Hst _ Hs') r' pl'). revert Hy. apply same_held; assumption.
      + intros s' d' H p. rewrite (same_view (put_store s (Some d2) h1) h') by (repeat split; assumption).
        apply C2. rewrite <- F5. exact H.
      + intros s' y Hs' Hy. assert (Hs1 := Hst _ Hs'). rewrite Es in Hs1. apply Bel in Hy.
        assert (G : below h s' y \/ below h1 x y).
        { clear -Hy Hnew. induction Hy as [|y pl' z Hy IH Hh]; [left; apply below_refl|].
          destruct (Hnew _ _ _ Hh) as [(-> & -> & ->)|Ho]; [right; apply below_refl|].
          destruct IH as [IH|IH]; [left; exact (below_held _ _ _ _ _ _ _ IH Ho)|right; exact (below_held _ _ _ _ _ _ _ IH Hh)]. }
        destruct G as [G|G].
        * destruct (Hc1 y) as [->|[_ ->]]; [|reflexivity]. cbn [h_ctx put_store]. rewrite Ec. exact (i_ctx _ HI s' y Hs1 G).
        * apply Hc2. revert G. apply same_below; reflexivity.
    - rewrite Ec, Ek in E. injection E as <-. constructor; [exact S1| |].
      + apply (quiet_correct h h1 r); auto. exact (i_correct _ HI).
      + intros s' y Hs' Hy. rewrite Ec. assert (Hs1 := Hs'). rewrite Es in Hs1. apply (i_ctx _ HI s'); [exact Hs1|].
        assert (Hnr := Hn s' Hs'). clear -Hy Hnew Hnr.
        induction Hy as [|y pl' z Hy IH Hh]; [apply below_refl|].
        destruct (Hnew _ _ _ Hh) as [(-> & -> & ->)|Ho]; [exfalso; exact (Hnr Hy)|]. exact (below_held _ _ _ _ _ _ _ IH Ho).
  Qed.

  Lemma set_item_inv f r n x h h' :
    inv h -> usable class cls h r -> match x with Some x => free class cls h x | None => True end ->
    set_item ustr class cls uu m0 f r n x h = Ok h' -> inv h'.
  Proof.
    intros HI Hu Hx. unfold set_item. destruct (item_def class cls r n) as [i|] eqn:Ei; [|discriminate].
    assert (Hin := item_def_in _ _ _ _ _ Ei).
    assert (Hag : forall z y, y <> r -> agree h (put_item r n z h) y).
    { intros z y Hy. unfold agree. cbn [h_props h_items h_rels put_item]. rewrite upd_other by exact Hy. auto. }
    assert (Hoth : forall z k, k <> n -> h_props (put_item r n z h) r k = h_props h r k /\ h_items (put_item r n z h) r k = h_items h r k /\ h_rels (put_item r n z h) r k = h_rels h r k).
    { intros z k Hk. cbn [h_props h_items h_rels put_item]. rewrite upd_same, upd_name_other by exact Hk. auto. }
    assert (Hheld : forall z r' pl y, held (put_item r n z h) r' pl y -> (r' = r /\ pl = AtItem n /\ z = Some y) \/ held h r' pl y).
    { intros z r' [m|m] y; cbn [PersistStore_Spec.held h_items h_rels put_item]; [|auto]. intros [Hm Hy].
      destruct (Nat.eq_dec r' r) as [->|Nr]; [|rewrite upd_other in Hy by exact Nr; auto]. rewrite upd_same in Hy.
      destruct (string_dec m n) as [->|Nm]; [rewrite upd_name_same in Hy; auto|rewrite upd_name_other in Hy by exact Nm; auto]. }
    destruct x as [x|].
    - set (h1 := put_parent x (Some (r, AtItem n)) (put_item r n (Some x) h)).
      apply (added_inv f r (AtItem n) x (fun d => SetItemIn n (Some d)) h h1 h' HI Hu Hx).
      + intros y Hy. exact (Hag (Some x) y Hy).
      + reflexivity.
      + reflexivity.
      + reflexivity.
      + intros r' pl' y Hy. destruct (Hheld (Some x) r' pl' y Hy) as [(-> & -> & [= <-])|Ho]; auto.
      + intros r' m. exact (st_nodup _ _ _ (i_struct _ HI) r' m).
      + intros s d d0 d' S1 T Hb Hd0 Hd [= <-]. apply (effect_shows h h1 s r n d0); auto.
        * intros y Hy. exact (Hag (Some x) y Hy).
        * exact (Hoth (Some x)).
        * intros k Hk. rewrite dget_dset. destruct (string_dec k n); [congruence|reflexivity].
        * intros p. rewrite dget_dset. destruct (string_dec n n); [|congruence]. rewrite (view_item _ _ _ _ all_plain h1 r n x).
          -- exact (Hd p).
          -- split; [exact Hin|]. unfold h1. cbn [h_items put_item put_parent]. rewrite upd_same, upd_name_same. reflexivity.
    - apply (told_inv f r (SetItemIn n None) h (put_item r n None h) h' HI).
      + destruct (i_struct _ HI) as [P1 P2 P3]. constructor; [|exact P2|].
        * intros r' pl' y Hy. destruct (Hheld None r' pl' y Hy) as [(_ & _ & C)|Ho]; [discriminate|exact (P1 _ _ _ Ho)].
        * intros s Hs r' pl' Hy. destruct (Hheld None r' pl' s Hy) as [(_ & _ & C)|Ho]; [discriminate|exact (P3 s Hs _ _ Ho)].
      + exact (Hag None).
      + reflexivity.
      + reflexivity.
      + intros r' y pl' Hy. destruct (Hheld None r' pl' y Hy) as [(_ & _ & C)|Ho]; [discriminate|exact Ho].
      + exact Hu.
      + intros s d d' T Hb Hd [= <-]. apply (effect_shows h (put_item r n None h) s r n d); auto.
        * destruct (i_struct _ HI) as [P1 P2 P3]. constructor; [|exact P2|].
          -- intros r' pl' y Hy. destruct (Hheld None r' pl' y Hy) as [(_ & _ & C)|Ho]; [discriminate|exact (P1 _ _ _ Ho)].
          -- intros s' Hs r' pl' Hy. destruct (Hheld None r' pl' s' Hy) as [(_ & _ & C)|Ho]; [discriminate|exact (P3 s' Hs _ _ Ho)].
        * intros k Hk. rewrite dget_without. destruct (string_dec k n); [congruence|reflexivity].
        * intros p. rewrite dget_without. destruct (string_dec n n); [|congruence]. cbn [olook PersistStore_Proofs.view].
          destruct (class_parts class all_plain (cls r)) as (_ & _ & _ & Dp & _ & Dk & _).
          destruct (string_dec n "uuid") as [Q|]; [exfalso; destruct (Dk n (or_introl Q)) as (_ & B & _); auto|].
          destruct (string_dec n "type") as [Q|]; [exfalso; destruct (Dk n (or_intror Q)) as (_ & B & _); auto|].
          destruct (prop_def class cls r n) as [q|] eqn:Eq.
          { exfalso. destruct (Dp n) as [B _]; [apply (find_name_in p_name); exists q; exact Eq|auto]. }
          rewrite Ei. cbn [h_items put_item]. rewrite upd_same, upd_name_same. reflexivity.
  Qed.

  (** ** relationships *)
  Lemma in_insert_at {X} k (x : X) l y : In y (insert_at k x l) <-> y = x \/ In y l.
  Proof.
    unfold insert_at. rewrite in_app_iff. cbn [In]. rewrite <- (firstn_skipn k l) at 3. rewrite in_app_iff.
    split; intros H; repeat destruct H as [H|H]; auto.
  Qed.
  Lemma nodup_insert_at {X} k (x : X) l : NoDup l -> ~ In x l -> NoDup (insert_at k x l).
  Proof.
    intros H N. unfold insert_at. apply (NoDup_Add (a := x) (l := firstn k l ++ skipn k l)); [apply Add_app|]. rewrite firstn_skipn. auto.
  Qed.
  Lemma in_delete_at {X} k (l : list X) y : In y (delete_at k l) -> In y l.
  Proof.
    unfold delete_at. rewrite in_app_iff. intros [H|H].
    - rewrite <- (firstn_skipn k l). apply in_or_app. auto.
    - rewrite <- (firstn_skipn (S k) l). apply in_or_app. auto.
  Qed.
  Lemma split_nth {X} k (l : list X) x : nth_error l k = Some x -> l = firstn k l ++ x :: skipn (S k) l.
  Proof.
    revert l. induction k as [|k IH]; intros [|y l] E; try discriminate; simpl in *; [injection E as ->; reflexivity|]. f_equal. auto.
  Qed.
  Lemma nodup_delete_at {X} k (l : list X) x : NoDup l -> nth_error l k = Some x -> NoDup (delete_at k l) /\ ~ In x (delete_at k l).
  Proof.
    intros H E. rewrite (split_nth _ _ _ E) in H. unfold delete_at. split; [exact (NoDup_remove_1 _ _ _ H)|exact (NoDup_remove_2 _ _ _ H)].
  Qed.
  Lemma rel_list h r n d :
    shows h r (JDict d) -> In n (map r_name (k_rels (class (cls r)))) ->
    exists l, dget n d = Some (JList l) /\ length l = length (h_rels h r n) /\
      forall k p, olook p (nth_error l k) = match nth_error (h_rels h r n) k with Some x => view h p x | None => None end.
  Proof.
    intros Hd Hn. assert (H0 := Hd [inl n]). rewrite look_dict, view_rel in H0 by assumption.
    destruct (dget n d) as [j|] eqn:Ej; [|discriminate]. destruct j as [| |l|]; try discriminate. injection H0 as H0.
    exists l. split; [reflexivity|]. split; [exact H0|]. intros k p. assert (H1 := Hd (inl n :: inr k :: p)).
    rewrite look_dict, Ej, view_rel in H1 by assumption. exact H1.
  Qed.
  Lemma list_rel h r n (l : list (json A)) :
    In n (map r_name (k_rels (class (cls r)))) -> length l = length (h_rels h r n) ->
    (forall k p, olook p (nth_error l k) = match nth_error (h_rels h r n) k with Some x => view h p x | None => None end) ->
    forall p, olook p (Some (JList l)) = view h (inl n :: p) r.
  Proof.
    intros Hn Hl Hk p. rewrite view_rel by assumption. destruct p as [|[k|k] p]; [cbn [olook look]; rewrite Hl; reflexivity|reflexivity|]. apply Hk.
  Qed.
  Lemma put_rel_held r n l (h : heap) r' pl y :
    held (put_rel r n l h) r' pl y -> (r' = r /\ pl = InRel n /\ In y l) \/ (held h r' pl y /\ ~ (r' = r /\ pl = InRel n)).
  Proof.
    destruct pl as [m|m]; cbn [PersistStore_Spec.held h_items h_rels put_rel]; [intros H; right; split; [exact H|intros [_ C]; discriminate]|]. intros [Hm Hy].
    destruct (Nat.eq_dec r' r) as [->|Nr]; [|rewrite upd_other in Hy by exact Nr; right; split; [auto|tauto]]. rewrite upd_same in Hy.
    destruct (string_dec m n) as [->|Nm]; [rewrite upd_name_same in Hy; auto|rewrite upd_name_other in Hy by exact Nm; right; split; [auto|]].
    intros [_ [= C]]. auto.
  Qed.
  Lemma put_rel_agree r n l (h : heap) y : y <> r -> agree h (put_rel r n l h) y.
  Proof. intros Hy. unfold agree. cbn [h_props h_items h_rels put_rel]. rewrite upd_other by exact Hy. auto. Qed.
  Lemma put_rel_other r n l (h : heap) k : k <> n -> h_props (put_rel r n l h) r k = h_props h r k /\ h_items (put_rel r n l h) r k = h_items h r k /\ h_rels (put_rel r n l h) r k = h_rels h r k.
  Proof. intros Hk. cbn [h_props h_items h_rels put_rel]. rewrite upd_same, upd_name_other by exact Hk. auto. Qed.
  Lemma put_rel_same r n l (h : heap) : h_rels (put_rel r n l h) r n = l.
  Proof. cbn [h_rels put_rel]. rewrite upd_same, upd_name_same. reflexivity. Qed.
  Lemma put_rel_nodup r n l (h : heap) r' m : (forall r' m, NoDup (h_rels h r' m)) -> NoDup l -> NoDup (h_rels (put_rel r n l h) r' m).
  Proof.
    intros H Hl. cbn [h_rels put_rel]. destruct (Nat.eq_dec r' r) as [->|Nr]; [rewrite upd_same|rewrite upd_other by exact Nr; apply H].
    destruct (string_dec m n) as [->|Nm]; [rewrite upd_name_same; exact Hl|rewrite upd_name_other by exact Nm; apply H].
  Qed.

  Lemma insert_item_inv f r n i x h h' :
    inv h -> usable class cls h r -> free class cls h x -> insert_item ustr class cls uu m0 f r n i x h = Ok h' -> inv h'.
  Proof.
    intros HI Hu Hx. unfold insert_item. destruct (rel_def class cls r n) as [t|] eqn:Et; [|discriminate].
    assert (Hin := rel_def_in _ _ _ _ _ Et). set (L := h_rels h r n).
    assert (Hni : ~ In x L) by (intros C; apply (proj1 Hx r (InRel n)); split; assumption).
    set (h0 := put_rel r n (py_insert i x L) h). set (h1 := put_parent x (Some (r, InRel n)) h0).
    apply (added_inv f r (InRel n) x (fun d => InsertIn n i d) h h1 h' HI Hu Hx).
    - intros y Hy. exact (put_rel_agree r n _ h y Hy).
    - reflexivity.
    - reflexivity.
    - reflexivity.
    - intros r' pl' y Hy. destruct (put_rel_held r n _ h r' pl' y Hy) as [(-> & -> & Hl)|[Ho _]]; [|auto].
      apply in_insert_at in Hl. destruct Hl as [->|Hl]; [auto|]. right. split; assumption.
    - intros r' m. apply (put_rel_nodup r n _ h r' m); [exact (st_nodup _ _ _ (i_struct _ HI))|].
      apply nodup_insert_at; [exact (st_nodup _ _ _ (i_struct _ HI) r n)|exact Hni].
    - intros s d d0 d' S1 T Hb Hd0 Hd E. destruct (rel_list _ _ _ _ Hd0 Hin) as (l & El & Hl & Hk). fold L in Hl, Hk.
      cbn [handle] in E. rewrite El in E. injection E as <-. apply (effect_shows h h1 s r n d0); auto.
      + intros y Hy. exact (put_rel_agree r n _ h y Hy).
      + exact (put_rel_other r n _ h).
      + intros k Hkn. rewrite dget_dset. destruct (string_dec k n); [congruence|reflexivity].
      + intros p. rewrite dget_dset. destruct (string_dec n n); [|congruence]. apply list_rel; [exact Hin| |].
        * change (h_rels h1 r n) with (h_rels h0 r n). unfold h0. rewrite put_rel_same. unfold py_insert. rewrite !insert_at_length, Hl. reflexivity.
        * intros k q. change (h_rels h1 r n) with (h_rels h0 r n). unfold h0. rewrite put_rel_same. unfold py_insert. rewrite Hl.
          rewrite !nth_error_insert_at by (rewrite ?Hl; apply py_insert_pos_le).
          assert (Fr : forall j, match nth_error L j with Some z => view h q z | None => None end = match nth_error L j with Some z => view h1 q z | None => None end).
          { intros j. destruct (nth_error L j) as [z|] eqn:Ez; [|reflexivity].
            apply (not_below_view h h1 r); [intros y Hy; exact (put_rel_agree r n _ h y Hy)|].
            apply (no_loop _ _ _ _ _ _ (InRel n) S1 T Hb). split; [exact Hin|]. change (h_rels h1 r n) with (h_rels h0 r n).
            unfold h0. rewrite put_rel_same. apply in_insert_at. right. exact (nth_error_In _ _ Ez). }
          repeat match goal with |- context [Nat.ltb ?a ?b] => destruct (Nat.ltb a b) | |- context [Nat.eqb ?a ?b] => destruct (Nat.eqb a b) end;
            first [rewrite Hk; apply Fr|exact (Hd q)|idtac].
  Qed.

  Lemma remove_item_inv f r n x h h' :
    inv h -> usable class cls h r -> remove_item class cls f r n x h = Ok h' -> inv h'.
  Proof.
    intros HI Hu. unfold remove_item. destruct (rel_def class cls r n) as [t|] eqn:Et; [|discriminate].
    assert (Hin := rel_def_in _ _ _ _ _ Et). set (L := h_rels h r n).
    destruct (index_of x L) as [i|] eqn:Ei; [|discriminate]. assert (Hi := index_of_nth _ _ _ Ei).
    assert (Hhx : held h r (InRel n) x) by (split; [exact Hin|exact (nth_error_In _ _ Hi)]).
    destruct (nodup_delete_at _ _ _ (st_nodup _ _ _ (i_struct _ HI) r n) Hi) as [Hnd Hnx]. fold L in Hnd, Hnx.
    set (h1 := put_rel r n (delete_at i L) h).
    assert (Hsub : forall r' pl' y, held h1 r' pl' y -> held h r' pl' y /\ y <> x).
    { intros r' pl' y Hy. destruct (put_rel_held r n _ h r' pl' y Hy) as [(-> & -> & Hl)|[Ho N]].
      - split; [|intros ->; exact (Hnx Hl)]. split; [exact Hin|exact (in_delete_at _ _ _ Hl)].
      - split; [exact Ho|]. intros ->. apply N. destruct (held_one _ _ _ _ _ _ _ _ (i_struct _ HI) Hhx Ho) as [-> ->]. auto. }
    assert (S1 : struct h1).
    { destruct (i_struct _ HI) as [P1 P2 P3]. constructor.
      - intros r' pl' y Hy. exact (P1 _ _ _ (proj1 (Hsub _ _ _ Hy))).
      - intros r' m. apply put_rel_nodup; [exact P2|exact Hnd].
      - intros s Hs r' pl' Hy. exact (P3 s Hs _ _ (proj1 (Hsub _ _ _ Hy))). }
    assert (Hag : forall y, y <> r -> agree h h1 y) by (intros y Hy; exact (put_rel_agree r n _ h y Hy)).
    destruct (set_context f false x h1) as [h2|] eqn:E2; [|discriminate]. cbn [then_].
    destruct (set_context_spec _ _ _ _ _ E2) as ((F1 & F2 & F3 & F4 & F5) & Hc1 & Hc2).
    (* what holds of any heap that differs from [h1] in the contexts below [x], the parent of [x] and the dicts *)
    assert (Hfin : forall h3, h_props h3 = h_props h1 -> h_items h3 = h_items h1 -> h_rels h3 = h_rels h1 -> h_parent h3 = h_parent h1 ->
              (forall s, h_store h3 s <> None -> h_store h1 s <> None) -> (forall s d, h_store h3 s = Some d -> shows h1 s (JDict d)) ->
              (forall y, h_ctx h3 y = h_ctx h y \/ below h1 x y) -> inv (put_parent x None h3)).
    { intros h3 G1 G2 G3 G4 G5 G6 G7. constructor.
      - destruct S1 as [P1 P2 P3]. constructor.
        + intros r' pl' y Hy. assert (Hy1 : held h1 r' pl' y) by (revert Hy; apply same_held; assumption).
          cbn [h_parent put_parent]. rewrite upd_other by (exact (proj2 (Hsub _ _ _ Hy1))). rewrite G4. exact (P1 _ _ _ Hy1).
        + intros r' m. cbn [h_rels put_parent]. rewrite G3. apply P2.
        + intros s Hs r' pl' Hy. apply (P3 s (G5 s Hs) r' pl'). revert Hy. apply same_held; assumption.
      - intros s d Hd p. rewrite (same_view h1) by (repeat split; assumption). exact (G6 s d Hd p).
      - intros s y Hs Hy. assert (Hs1 := G5 s Hs). assert (Hy1 : below h1 s y) by (revert Hy; apply same_below; assumption).
        assert (Hout : ~ below h1 x y).
        { clear Hy. induction Hy1 as [|y pl z Hy1 IH Hh]; intros C.
          - assert (E := below_top _ _ _ _ _ (st_top _ _ _ S1 s Hs1) C). subst s. exact (st_top _ _ _ (i_struct _ HI) x Hs1 _ _ Hhx).
          - apply below_inv in C. destruct C as [->|(w & pw & C & Hw)]; [exact (proj2 (Hsub _ _ _ Hh) eq_refl)|].
            destruct (held_one _ _ _ _ _ _ _ _ S1 Hh Hw) as [-> ->]. exact (IH C). }
        cbn [h_ctx put_parent]. destruct (G7 y) as [->|C]; [|tauto]. apply (i_ctx _ HI s); [exact Hs1|].
        apply (held_sub_below h h1); [|exact Hy1]. intros r' pl' z Hz. exact (proj1 (Hsub _ _ _ Hz)). }
    assert (Hag2 : forall y, y <> r -> agree h h2 y).
    { intros y Hy. unfold agree. rewrite F1, F2, F3. apply Hag. exact Hy. }
    assert (S2 : struct h2).
    { destruct S1 as [P1 P2 P3]. constructor.
      - intros r' pl' y Hy. rewrite F4. apply P1. revert Hy. apply same_held; assumption.
      - intros r' m. rewrite F3. apply P2.
      - intros s Hs r' pl' Hy. rewrite F5 in Hs. apply (P3 s Hs r' pl'). revert Hy. apply same_held; assumption. }
    assert (Bel : forall a b, below h2 a b <-> below h1 a b) by (intros a b; split; apply same_below; congruence).
    destruct (usable_cases h h2 r HI S2 Hag2 F5 Hu) as [[Ek (s & Hs & Hb & Hb0)]|[Ek Hn]].
    - assert (Hnr : ~ below h1 x r).
      { intros C. assert (below h x r) by (revert C; apply held_sub_below; intros r' pl' z Hz; exact (proj1 (Hsub _ _ _ Hz))).
        rewrite F5 in Hs. exact (no_loop _ _ _ _ _ _ _ (i_struct _ HI) (st_top _ _ _ (i_struct _ HI) s Hs) Hb0 Hhx H). }
      assert (Ek2 : h_ctx h2 r = true).
      { destruct (Hc1 r) as [->|[C _]]; [exact Ek|tauto]. }
      rewrite Ek2. destruct (tell f r (RemoveAt n i) h2) as [h3|] eqn:E3; [|discriminate]. cbn [then_].
      destruct (set_context f false x h3) as [h4|] eqn:E4; [|discriminate]. cbn [then_]. intros [= <-].
      destruct (tell_spec f r (RemoveAt n i) h h2 h3 s S2 Hs Hb Hag2) as (C3 & d3 & ->); [exact F5|exact (i_correct _ HI)| |exact E3|].
      + intros d0 d' Hd0 E. assert (T2 := st_top _ _ _ S2 s Hs). destruct (rel_list _ _ _ _ Hd0 Hin) as (l & El & Hl & Hk). fold L in Hl, Hk.
        cbn [handle] in E. rewrite El in E. assert (Hlt : i < length L) by (apply nth_error_Some; congruence).
        rewrite Hl in E. rewrite (proj2 (Nat.ltb_lt _ _) Hlt) in E. injection E as <-. apply (effect_shows h h2 s r n d0); auto.
        * intros k Hkn. rewrite F1, F2, F3. exact (put_rel_other r n _ h k Hkn).
        * intros k Hkn. rewrite dget_dset. destruct (string_dec k n); [congruence|reflexivity].
        * assert (E2n : h_rels h2 r n = delete_at i L) by (rewrite F3; apply put_rel_same).
          intros p. rewrite dget_dset. destruct (string_dec n n); [|congruence]. apply list_rel; [exact Hin| |].
          -- rewrite E2n, !delete_at_length by lia. lia.
          -- intros k q. rewrite E2n. rewrite !nth_error_delete_at by lia.
             assert (Fr : forall j, In j (delete_at i L) -> view h q j = view h2 q j).
             { intros j Hj. apply (not_below_view h h2 r); [exact Hag2|]. apply (no_loop _ _ _ _ _ _ (InRel n) S2 T2 Hb).
               split; [exact Hin|rewrite E2n; exact Hj]. }
             assert (Ek' : nth_error (delete_at i L) k = if Nat.ltb k i then nth_error L k else nth_error L (S k)) by (apply nth_error_delete_at; exact Hlt).
             destruct (Nat.ltb k i); rewrite Hk.
             ++ destruct (nth_error L k) as [z|] eqn:Ez; [|reflexivity]. apply Fr. apply (nth_error_In _ k). exact Ek'.
             ++ destruct (nth_error L (S k)) as [z|] eqn:Ez; [|reflexivity]. apply Fr. apply (nth_error_In _ k). exact Ek'.
      + destruct (set_context_spec _ _ _ _ _ E4) as ((K1 & K2 & K3 & K4 & K5) & Kc1 & Kc2). cbn in K1, K2, K3, K4.
        apply Hfin.
        * rewrite K1. exact F1.
        * rewrite K2. exact F2.
        * rewrite K3. exact F3.
        * rewrite K4. exact F4.
        * intros s' H. rewrite <- F5. rewrite K5 in H. cbn [h_store put_store] in H. unfold upd in H.
          destruct (Nat.eqb_spec s' s) as [Q|Q]; [rewrite Q; exact Hs|exact H].
        * intros s' d H p. rewrite K5 in H. rewrite (C3 s' d H p). apply same_view. repeat split; assumption.
        * intros y. destruct (Kc1 y) as [->|[C _]].
          -- cbn [h_ctx put_store]. destruct (Hc1 y) as [->|[C _]]; [left; reflexivity|auto].
          -- right. apply Bel. revert C. apply same_below; reflexivity.
    - assert (Ek2 : h_ctx h2 r = false) by (destruct (Hc1 r) as [->|[_ ->]]; [exact Ek|reflexivity]).
      rewrite Ek2. cbn [then_]. intros [= <-]. apply Hfin; try assumption.
      + intros s. rewrite F5. auto.
      + intros s d Hd p. assert (C2 := quiet_correct h h2 r (i_correct _ HI) Hag2 F5 Hn s d Hd p). rewrite C2. apply same_view. repeat split; assumption.
      + intros y. destruct (Hc1 y) as [->|[C _]]; auto.
  Qed.

  Lemma open_inv f s h h' : inv h -> free class cls h s -> open ustr class cls uu m0 f s h = Ok h' -> inv h'.
  Proof.
    intros HI [Hfree Hns]. unfold open. destruct (write_to_dict f h s) as [d|] eqn:Ew; [|discriminate]. intros E.
    destruct (set_context_spec _ _ _ _ _ E) as ((F1 & F2 & F3 & F4 & F5) & Hc1 & Hc2). cbn in F1, F2, F3, F4.
    assert (Hst : forall s', h_store h' s' <> None -> s' = s \/ h_store h s' <> None).
    { intros s'. rewrite F5. cbn [h_store put_store]. unfold upd. destruct (Nat.eqb_spec s' s); auto. }
    constructor.
    - destruct (i_struct _ HI) as [P1 P2 P3]. constructor.
      + intros r' pl' y Hy. rewrite F4. apply P1. revert Hy. apply same_held; assumption.
      + intros r' m. rewrite F3. apply P2.
      + intros s' Hs r' pl' Hy. assert (Hy0 : held h r' pl' s') by (revert Hy; apply same_held; assumption).
        destruct (Hst s' Hs) as [->|Hs0]; [exact (Hfree _ _ Hy0)|exact (P3 s' Hs0 _ _ Hy0)].
    - intros s' d' Hd p. rewrite (same_view h) by (repeat split; assumption). rewrite F5 in Hd. cbn [h_store put_store] in Hd. unfold upd in Hd.
      destruct (Nat.eqb_spec s' s) as [->|]; [|exact (i_correct _ HI s' d' Hd p)]. injection Hd as <-. exact (written_shows _ _ _ _ Ew p).
    - intros s' y Hs Hy. assert (Hy0 : below h s' y) by (revert Hy; apply same_below; assumption).
      destruct (Hst s' Hs) as [->|Hs0].
      + apply Hc2. revert Hy0. apply same_below; reflexivity.
      + destruct (Hc1 y) as [->|[_ ->]]; [exact (i_ctx _ HI s' y Hs0 Hy0)|reflexivity].
  Qed.

  Lemma make_inv : inv (heap_make class cls).
  Proof.
    constructor; [constructor| |].
    - intros r [n|n] x [_ H]; [discriminate|destruct H].
    - intros r n. constructor.
    - intros s H. destruct (H eq_refl).
    - intros s d H. discriminate.
    - intros s y H. destruct (H eq_refl).
  Qed.
  Lemma runs_inv h : runs ustr class cls uu m0 (legit class cls) h -> inv h.
  Proof.
    intros H. induction H as [|f o h h' H IH L E]; [exact make_inv|]. destruct o as [r n v|r n x|r n i x|r n x|s]; simpl in L, E.
    - exact (set_property_inv _ _ _ _ _ _ IH L E).
    - exact (set_item_inv _ _ _ _ _ _ IH (proj1 L) (proj2 L) E).
    - exact (insert_item_inv _ _ _ _ _ _ _ IH (proj1 L) (proj2 L) E).
    - exact (remove_item_inv _ _ _ _ _ _ IH L E).
    - exact (open_inv _ _ _ _ IH L E).
  Qed.
End Steps.
