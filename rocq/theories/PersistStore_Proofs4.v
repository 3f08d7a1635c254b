(** Proofs for PersistStore_Props: steps that do not raise, and reading a stored dict. *)
From Coq Require Import String ZArith Bool List Lia.
From Verif Require Import PyBase PersistDict_Model PersistDict_Spec PersistDict_Proofs PersistDict_Proofs2 PersistStore_Model PersistStore_Spec PersistStore_Proofs PersistStore_Proofs2 PersistStore_Proofs3.
Import ListNotations.

Section NoRaise.
  Context {A V U M : Type}.
  Variable ustr : U -> json A.
  Variable class : nat -> classdef A V.
  Variable cls : nat -> nat.
  Variable uu : nat -> U.
  Variable m0 : M.
  Notation heap := (heap A V).
  Hypothesis all_plain : forall c, plain (class c).
  Notation held := (held class cls).
  Notation below := (below class cls).
  Notation view := (view ustr class cls uu).
  Notation shows := (shows ustr class cls uu).
  Notation struct := (struct class cls).
  Notation top := (top class cls).
  Notation write_to_dict := (write_to_dict ustr class cls uu m0).
  Notation set_context := (set_context class cls).
  Notation inv := (inv ustr class cls uu).

  Definition under (h : heap) (y x : nat) : Prop := exists pl, held h x pl y.
  Definition grounded (h : heap) : Prop := forall x, Acc (under h) x.
  (** from some recursion depth on *)
  Definition eventually (P : nat -> Prop) : Prop := exists n, forall f, n <= f -> P f.
  Lemma ev_and (P Q : nat -> Prop) : eventually P -> eventually Q -> eventually (fun f => P f /\ Q f).
  Proof. intros [n H] [m H']. exists (n + m). intros f Hf. split; [apply H|apply H']; lia. Qed.
  Lemma ev_impl (P Q : nat -> Prop) : (forall f, P f -> Q f) -> eventually P -> eventually Q.
  Proof. intros I [n H]. exists n. auto. Qed.
  Lemma ev_all {X} (l : list X) (P : X -> nat -> Prop) : (forall x, In x l -> eventually (P x)) -> eventually (fun f => forall x, In x l -> P x f).
  Proof.
    induction l as [|x l IH]; intros H; [exists 0; intros f _ y []|].
    refine (ev_impl _ _ _ (ev_and _ _ (H x (or_introl eq_refl)) (IH (fun y Hy => H y (or_intror Hy))))).
    intros f [H1 H2] y [->|Hy]; auto.
  Qed.
  Lemma ev_succ (P : nat -> Prop) : eventually (fun f => P (S f)) -> eventually P.
  Proof. intros [n H]. exists (S n). intros [|f] Hf; [lia|]. apply H. lia. Qed.

  (** ** trees stay trees *)
  Lemma acc_sub h h' x : (forall r pl y, held h' r pl y -> held h r pl y) -> Acc (under h) x -> Acc (under h') x.
  Proof. intros Hs H. induction H as [x _ IH]. constructor. intros y [pl Hy]. apply IH. exists pl. auto. Qed.
  Lemma grounded_add h h1 r pl x :
    grounded h -> ~ below h x r -> (forall r' pl' y, held h1 r' pl' y -> (r' = r /\ pl' = pl /\ y = x) \/ held h r' pl' y) -> grounded h1.
  Proof.
    intros G Nb Hnew.
    assert (Hx : forall z, below h x z -> Acc (under h1) z).
    { intros z. induction (G z) as [z _ IH]. intros Hz. constructor. intros y [pl' Hy].
      destruct (Hnew _ _ _ Hy) as [(-> & _ & _)|Ho]; [tauto|]. apply IH; [exists pl'; exact Ho|]. exact (below_held _ _ _ _ _ _ _ Hz Ho). }
    intros y. induction (G y) as [y _ IH]. constructor. intros z [pl' Hz].
    destruct (Hnew _ _ _ Hz) as [(-> & _ & ->)|Ho]; [apply Hx; apply below_refl|]. apply IH. exists pl'. exact Ho.
  Qed.

  (** ** each part of a step *)
  Lemma storage_ok h s r : struct h -> h_store h s <> None -> below h s r -> eventually (fun f => storage_of f h r = Ok (Some s)).
  Proof.
    intros S Hs Hb. induction Hb as [|y pl z Hb IH Hh].
    - exists 1. intros [|f] Hf; [lia|]. cbn [storage_of]. destruct (h_store h s); [reflexivity|congruence].
    - apply ev_succ. refine (ev_impl _ _ _ IH). intros f E. cbn [storage_of]. rewrite (st_par _ _ _ S _ _ _ Hh).
      destruct (h_store h z) eqn:Ez; [|exact E]. exfalso. exact (st_top _ _ _ S z ltac:(congruence) _ _ Hh).
  Qed.
  Lemma path_ok h s r :
    (forall c n, In n (map i_name (k_items (class c)) ++ map r_name (k_rels (class c))) -> n <> ""%string) ->
    struct h -> top h s -> below h s r -> eventually (fun f => exists l, path_to f h s r = Ok l).
  Proof.
    intros Hne S T Hb. induction Hb as [|y pl z Hb IH Hh].
    - exists 1. intros [|f] Hf; [lia|]. cbn [path_to]. rewrite Nat.eqb_refl. eauto.
    - apply ev_succ. refine (ev_impl _ _ _ IH). intros f [l E]. cbn [path_to]. destruct (Nat.eqb z s); [eauto|].
      unfold accessor. rewrite (st_par _ _ _ S _ _ _ Hh), E. destruct pl as [n|n]; destruct Hh as [Hn Hx].
      + destruct (String.eqb_spec n "") as [->|]; [|eauto]. exfalso. apply (Hne (cls y) ""%string); [apply in_or_app; auto|reflexivity].
      + destruct (String.eqb_spec n "") as [->|]; [exfalso; apply (Hne (cls y) ""%string); [apply in_or_app; auto|reflexivity]|].
        destruct (index_of_in _ _ Hx) as [i ->]. eauto.
  Qed.
  Lemma change_ok h h' s r g path :
    struct h' -> top h' s -> (forall y, y <> r -> agree h h' y) ->
    (forall d, shows h r (JDict d) -> exists d', g d = Ok d') ->
    forall x j, below h' s x -> leads class cls h' x path r -> shows h x j -> exists d', change_at path g j = Ok (JDict d').
  Proof.
    intros S T Hag Hg. induction path as [|a path IH]; intros x j Hx Hl Hj.
    - inversion Hl; subst. destruct (shows_dict _ _ _ _ _ _ _ Hj) as [d ->]. cbn [change_at]. destruct (Hg d Hj) as [d' ->]. eauto.
    - assert (Hxr : x <> r).
      { intros ->. inversion Hl as [|? n y ? ? H1 H2|? n i y ? ? H1 H2 H3]; subst;
          apply (no_loop _ _ _ _ _ _ _ S T Hx H1); eapply leads_below; eassumption. }
      assert (Hag' := agree_sym _ _ _ (Hag x Hxr)). destruct (shows_dict _ _ _ _ _ _ _ Hj) as [d ->].
      inversion Hl as [|? n y ? ? H1 H2|? n i y ? ? H1 H2 H3]; subst; cbn [change_at].
      + assert (Hg' : forall p, look (inl n :: p) (JDict d) = view h p y).
        { intros p. rewrite Hj. apply view_item; [exact all_plain|]. exact (agree_held _ _ _ _ _ _ _ Hag' H1). }
        assert (He := Hg' []). cbn [look] in He. destruct (dget n d) as [x'|] eqn:En; [|discriminate].
        destruct (IH y x') as [d' ->]; [exact (below_held _ _ _ _ _ _ _ Hx H1)|exact H2| |eauto].
        intros p. specialize (Hg' p). cbn [look] in Hg'. rewrite En in Hg'. exact Hg'.
      + destruct (rel_list ustr class cls uu all_plain h x n d Hj (proj1 H1)) as (l & El & Hlen & Hk). rewrite El.
        assert (E2 : nth_error (h_rels h x n) i = Some y) by (rewrite <- (proj2 (proj2 Hag')); exact H2).
        destruct (nth_error l i) as [x'|] eqn:Ex.
        * destruct (IH y x') as [d' ->]; [exact (below_held _ _ _ _ _ _ _ Hx H1)|exact H3| |eauto].
          intros p. specialize (Hk i p). rewrite Ex, E2 in Hk. exact Hk.
        * exfalso. specialize (Hk i []). rewrite Ex, E2 in Hk. discriminate.
  Qed.
  Lemma tell_ok h h' s r (c : nat -> hcall A) :
    (forall c n, In n (map i_name (k_items (class c)) ++ map r_name (k_rels (class c))) -> n <> ""%string) ->
    struct h' -> h_store h' s <> None -> below h' s r -> (forall y, y <> r -> agree h h' y) -> h_store h' = h_store h -> correct ustr class cls uu h ->
    (forall f d, shows h r (JDict d) -> exists d', handle (c f) d = Ok d') ->
    eventually (fun f => exists h'', tell f r (c f) h' = Ok h'').
  Proof.
    intros Hne S Hs Hb Hag Es C Hg. assert (T := st_top _ _ _ S s Hs).
    refine (ev_impl _ _ _ (ev_and _ _ (storage_ok h' s r S Hs Hb) (path_ok h' s r Hne S T Hb))).
    intros f [E1 [l E2]]. unfold tell. rewrite E1, E2. destruct (h_store h' s) as [d|] eqn:Ed; [|congruence].
    destruct (change_ok h h' s r (handle (c f)) l S T Hag (Hg f) s (JDict d)) as [d' ->]; [apply below_refl| | |eauto].
    - exact (path_leads _ _ _ _ _ _ _ S Hb E2).
    - apply C. congruence.
  Qed.
  Lemma unload_ok h x : Acc (under h) x -> eventually (fun f => exists o, unload class cls uu m0 f h x = Ok o).
  Proof.
    intros H. induction H as [x _ IH]. apply ev_succ.
    assert (Hc : eventually (fun f => forall y, In y (children class cls h x) -> exists o, unload class cls uu m0 f h y = Ok o)).
    { apply ev_all. intros y Hy. apply IH. apply in_children in Hy. exact Hy. }
    refine (ev_impl _ _ _ Hc). clear IH Hc. intros f Hc. cbn [unload].
    assert (Hok : forall X Y (g : X -> res Y) l, (forall z, In z l -> exists o, g z = Ok o) -> exists os, all_ok (map g l) = Ok os).
    { intros X Y g l. induction l as [|z l IH]; intros Hz; [exists []; reflexivity|]. simpl.
      destruct (Hz z (or_introl eq_refl)) as [o ->]. destruct IH as [os ->]; [|eauto]. intros w Hw. apply Hz. right. exact Hw. }
    match goal with |- context [all_ok (map ?g (k_items ?k))] => destruct (Hok _ _ g (k_items k)) as [is ->] end.
    { intros i Hi. destruct (h_items h x (i_name i)) as [y|] eqn:Ey; [|eauto].
      destruct (Hc y) as [o ->]; [|eauto]. apply in_children. exists (AtItem (i_name i)). split; [apply in_map; exact Hi|exact Ey]. }
    match goal with |- context [all_ok (map ?g (k_rels ?k))] => destruct (Hok _ _ g (k_rels k)) as [rs ->] end; [|eauto].
    intros d Hd. apply Hok. intros y Hy. apply Hc. apply in_children. exists (InRel (r_name d)). split; [apply in_map; exact Hd|exact Hy].
  Qed.
  Lemma write_ok h x : Acc (under h) x -> eventually (fun f => exists d, write_to_dict f h x = Ok d).
  Proof.
    intros H. refine (ev_impl _ _ _ (unload_ok h x H)). intros f [o E]. unfold PersistStore_Model.write_to_dict. rewrite E.
    destruct (write_shows ustr class cls uu m0 all_plain _ _ _ _ E) as (d & W & _). eauto.
  Qed.

  Lemma NoDup_flat_map {X Y} (g : X -> list Y) l :
    NoDup l -> (forall a, In a l -> NoDup (g a)) -> (forall a b y, In a l -> In b l -> In y (g a) -> In y (g b) -> a = b) -> NoDup (flat_map g l).
  Proof.
    induction l as [|a l IH]; intros Hn H1 H2; simpl; [constructor|]. inversion Hn as [|? ? Ha Hn']; subst.
    assert (Hd : forall y, In y (g a) -> ~ In y (flat_map g l)).
    { intros y Hy C. apply in_flat_map in C. destruct C as (b & Hb & Hyb). apply Ha.
      rewrite (H2 a b y (or_introl eq_refl) (or_intror Hb) Hy Hyb). exact Hb. }
    assert (IH' : NoDup (flat_map g l)).
    { apply IH; [exact Hn'|intros b Hb; apply H1; right; exact Hb|]. intros b c y Hb Hc. apply H2; right; assumption. }
    specialize (H1 a (or_introl eq_refl)). revert H1 Hd IH'. generalize (g a) as m, (flat_map g l) as m'. clear. intros m m'.
    induction m as [|y m IH]; simpl; [auto|]. intros Hm Hd Hm'. inversion Hm as [|? ? Hy Hmm]; subst. constructor; [|apply IH; auto].
    rewrite in_app_iff. intros [C|C]; [auto|exact (Hd y (or_introl eq_refl) C)].
  Qed.
  Lemma children_nodup h x : struct h -> NoDup (children class cls h x).
  Proof.
    intros S. destruct (class_parts class all_plain (cls x)) as (_ & Ni & Nr & _). unfold children.
    assert (Hpl : forall pl pl' y, held h x pl y -> held h x pl' y -> pl = pl').
    { intros pl pl' y H1 H2. destruct (held_one _ _ _ _ _ _ _ _ S H1 H2) as [_ ->]. reflexivity. }
    assert (Hi : forall i y, In i (k_items (class (cls x))) -> In y (match h_items h x (i_name i) with Some z => [z] | None => [] end) -> held h x (AtItem (i_name i)) y).
    { intros i y H H1. destruct (h_items h x (i_name i)) as [z|] eqn:E; [|destruct H1]. destruct H1 as [->|[]]. split; [apply in_map; exact H|exact E]. }
    assert (Hr : forall i y, In i (k_rels (class (cls x))) -> In y (h_rels h x (r_name i)) -> held h x (InRel (r_name i)) y).
    { intros i y H H1. split; [apply in_map; exact H|exact H1]. }
    assert (Inj : forall X (name : X -> string) l a b, NoDup (map name l) -> In a l -> In b l -> name a = name b -> a = b).
    { intros X name l a b. induction l as [|c l IH]; simpl; [tauto|]. intros Hn. inversion Hn as [|? ? Hc Hn']; subst.
      intros [->|Ha] [->|Hb] E; auto; exfalso; apply Hc; [rewrite E|rewrite <- E]; apply in_map; assumption. }
    enough (G : forall l1 l2 : list nat, NoDup l1 -> NoDup l2 -> (forall y, In y l1 -> ~ In y l2) -> NoDup (l1 ++ l2)).
    { apply G.
      - apply NoDup_flat_map.
        + exact (NoDup_map_inv _ _ Ni).
        + intros i _. destruct (h_items h x (i_name i)); repeat constructor. intros [].
        + intros a b y Ha Hb Hya Hyb. assert (E := Hpl _ _ _ (Hi _ _ Ha Hya) (Hi _ _ Hb Hyb)). injection E as E. exact (Inj _ _ _ _ _ Ni Ha Hb E).
      - apply NoDup_flat_map.
        + exact (NoDup_map_inv _ _ Nr).
        + intros d _. apply (st_nodup _ _ _ S).
        + intros a b y Ha Hb Hya Hyb. assert (E := Hpl _ _ _ (Hr _ _ Ha Hya) (Hr _ _ Hb Hyb)). injection E as E. exact (Inj _ _ _ _ _ Nr Ha Hb E).
      - intros y H1 H2. apply in_flat_map in H1, H2. destruct H1 as (i & Hii & H1), H2 as (d & Hd & H2).
        assert (E := Hpl _ _ _ (Hi _ _ Hii H1) (Hr _ _ Hd H2)). discriminate. }
    intros l1 l2 H1 H2 H3. induction H1 as [|y l1 Hy H1 IH]; [exact H2|]. simpl. constructor.
    - rewrite in_app_iff. intros [C|C]; [auto|exact (H3 y (or_introl eq_refl) C)].
    - apply IH. intros z Hz. apply H3. right. exact Hz.
  Qed.
  Lemma context_ok h s b x :
    struct h -> top h s -> Acc (under h) x -> below h s x ->
    eventually (fun f => forall h2, h_items h2 = h_items h -> h_rels h2 = h_rels h -> (b = true -> forall y, below h x y -> h_ctx h2 y = false) ->
                           exists h', set_context f b x h2 = Ok h').
  Proof.
    intros S T H. induction H as [x _ IH]. intros Hb. apply ev_succ.
    assert (Hc : eventually (fun f => forall y, In y (children class cls h x) ->
              forall h2, h_items h2 = h_items h -> h_rels h2 = h_rels h -> (b = true -> forall z, below h y z -> h_ctx h2 z = false) -> exists h', set_context f b y h2 = Ok h')).
    { apply ev_all. intros y Hy. apply in_children in Hy. destruct Hy as [pl Hy]. apply IH; [exists pl; exact Hy|].
      exact (below_held _ _ _ _ _ _ _ Hb Hy). }
    refine (ev_impl _ _ _ Hc). clear IH Hc. intros f Hc h2 E1 E2 Hf. cbn [PersistStore_Model.set_context].
    assert (Hchk : h_ctx h2 x && b = false).
    { destruct b; [|apply andb_false_r]. rewrite (Hf eq_refl x (below_refl _ _ _ _)). reflexivity. }
    rewrite Hchk.
    assert (Ech : children class cls h2 x = children class cls h x) by (unfold children; rewrite E1, E2; reflexivity). rewrite Ech.
    assert (Hn := children_nodup h x S).
    assert (Hch : forall y, In y (children class cls h x) -> exists pl, held h x pl y) by (intros y; apply in_children).
    assert (Hf2 : b = true -> forall y z, In y (children class cls h x) -> below h y z -> h_ctx (put_ctx x b h2) z = false).
    { intros Hbt y z Hy Hz. destruct (Hch y Hy) as [pl Hp]. cbn [h_ctx put_ctx]. unfold upd. destruct (Nat.eqb_spec z x) as [->|].
      - exfalso. exact (no_loop _ _ _ _ _ _ _ S T Hb Hp Hz).
      - apply (Hf Hbt). exact (below_trans _ _ _ _ _ _ (held_below _ _ _ _ _ _ Hp) Hz). }
    assert (E1' : h_items (put_ctx x b h2) = h_items h) by exact E1. assert (E2' : h_rels (put_ctx x b h2) = h_rels h) by exact E2.
    revert Hn Hch Hc Hf2 E1' E2'. generalize (put_ctx x b h2) as h3, (children class cls h x) as l. clear -Hb S T.
    intros h3 l. revert h3. induction l as [|y l IH]; intros h3 Hn Hch Hc Hf E1 E2; [exists h3; reflexivity|]. cbn [fold_left then_].
    inversion Hn as [|? ? Hy Hn']; subst.
    destruct (Hc y (or_introl eq_refl) h3 E1 E2) as [h4 E4]; [intros Hbt z Hz; exact (Hf Hbt y z (or_introl eq_refl) Hz)|]. rewrite E4.
    destruct (set_context_spec class cls _ _ _ _ _ E4) as ((_ & F2 & F3 & _) & D1 & _). apply IH; try congruence.
    - intros z Hz. apply Hch. right. exact Hz.
    - intros z Hz. apply Hc. right. exact Hz.
    - intros Hbt z w Hz Hw. destruct (D1 w) as [->|[Hyw _]]; [exact (Hf Hbt z w (or_intror Hz) Hw)|]. exfalso. apply Hy.
      assert (Hyw' : below h y w) by (revert Hyw; apply same_below; congruence).
      destruct (Hch y (or_introl eq_refl)) as [p1 H1]. destruct (Hch z (or_intror Hz)) as [p2 H2].
      rewrite <- (one_branch _ _ _ _ _ _ _ _ _ _ S T Hb H1 H2 Hyw' Hw). exact Hz.
  Qed.

  (** ** the heaps between *)
  Lemma put_item_held r n z (h : heap) r' pl y : held (put_item r n z h) r' pl y -> (r' = r /\ pl = AtItem n /\ z = Some y) \/ held h r' pl y.
  Proof.
    destruct pl as [m|m]; cbn [PersistStore_Spec.held h_items h_rels put_item]; [|auto]. intros [Hm Hy].
    destruct (Nat.eq_dec r' r) as [->|Nr]; [|rewrite upd_other in Hy by exact Nr; auto]. rewrite upd_same in Hy.
    destruct (string_dec m n) as [->|Nm]; [rewrite upd_name_same in Hy; auto|rewrite upd_name_other in Hy by exact Nm; auto].
  Qed.
  Lemma put_item_agree r n z (h : heap) y : y <> r -> agree h (put_item r n z h) y.
  Proof. intros Hy. unfold agree. cbn [h_props h_items h_rels put_item]. rewrite upd_other by exact Hy. auto. Qed.
  Lemma struct_add h h1 r pl x :
    struct h -> free class cls h x -> h_store h1 = h_store h -> h_parent h1 = upd (h_parent h) x (Some (r, pl)) ->
    (forall r' pl' y, held h1 r' pl' y -> (r' = r /\ pl' = pl /\ y = x) \/ held h r' pl' y) ->
    (forall r' n, NoDup (h_rels h1 r' n)) -> struct h1.
  Proof.
    intros [P1 P2 P3] [Hfree Hns] Es Epar Hnew Hnd. constructor; [|exact Hnd|].
    - intros r' pl' y Hy. rewrite Epar. unfold upd. destruct (Hnew _ _ _ Hy) as [(-> & -> & ->)|Ho]; [rewrite Nat.eqb_refl; reflexivity|].
      destruct (Nat.eqb_spec y x) as [->|]; [exfalso; exact (Hfree _ _ Ho)|exact (P1 _ _ _ Ho)].
    - intros s Hs r' pl' Hy. rewrite Es in Hs. destruct (Hnew _ _ _ Hy) as [(-> & -> & ->)|Ho]; [congruence|exact (P3 s Hs _ _ Ho)].
  Qed.
  Lemma struct_sub h h1 :
    struct h -> (forall s, h_store h1 s <> None -> h_store h s <> None) -> h_parent h1 = h_parent h -> (forall r pl y, held h1 r pl y -> held h r pl y) ->
    (forall r n, NoDup (h_rels h1 r n)) -> struct h1.
  Proof.
    intros [P1 P2 P3] Es Ep Hsub Hnd. constructor; [|exact Hnd|].
    - intros r' pl' y Hy. rewrite Ep. exact (P1 _ _ _ (Hsub _ _ _ Hy)).
    - intros s Hs r' pl' Hy. exact (P3 s (Es s Hs) _ _ (Hsub _ _ _ Hy)).
  Qed.
  Notation named := (forall c n, In n (map i_name (k_items (class c)) ++ map r_name (k_rels (class c))) -> n <> ""%string).

  Lemma told_ok h h1 r c :
    named -> inv h -> struct h1 -> (forall y, y <> r -> agree h h1 y) -> h_store h1 = h_store h -> h_ctx h1 = h_ctx h -> usable class cls h r ->
    (forall d, shows h r (JDict d) -> exists d', handle c d = Ok d') ->
    eventually (fun f => exists h', told f r c h1 = Ok h').
  Proof.
    intros Hne HI S1 Hag Es Ec Hu Hg. unfold told. rewrite Ec.
    destruct (usable_cases ustr class cls uu h h1 r HI S1 Hag Es Hu) as [[-> (s & Hs & Hb & _)]|[-> _]]; [|exists 0; eauto].
    exact (tell_ok h h1 s r (fun _ => c) Hne S1 Hs Hb Hag Es (i_correct _ _ _ _ _ HI) (fun _ => Hg)).
  Qed.
  Lemma set_property_ok r n v h :
    named -> inv h -> usable class cls h r -> In n (map p_name (k_props (class (cls r)))) ->
    eventually (fun f => exists h', set_property class cls f r n v h = Ok h').
  Proof.
    intros Hne HI Hu Hn. apply (find_name_in p_name) in Hn. destruct Hn as [p Ep]. unfold set_property, prop_def. rewrite Ep.
    destruct (find_name_some p_name _ _ _ Ep) as [Hp En]. destruct (all_plain (cls r)) as (_ & Hpl & _). destruct (Hpl p Hp) as [Ekey Hc].
    set (v' := set_value p v). set (h1 := put_prop r n v' h).
    assert (Ht : forall c, (forall d, exists d', handle c d = Ok d') -> eventually (fun f => exists h', told f r c h1 = Ok h')).
    { intros c Hc'. apply (told_ok h h1 r c Hne HI); [| |reflexivity|reflexivity|exact Hu|intros d _; apply Hc'].
      - apply (struct_sub h); [exact (i_struct _ _ _ _ _ HI)|auto|reflexivity|auto|exact (st_nodup _ _ _ (i_struct _ _ _ _ _ HI))].
      - intros y Hy. unfold h1, agree. cbn [h_props h_items h_rels put_prop]. rewrite upd_other by exact Hy. auto. }
    assert (Hset : forall k j, eventually (fun f => exists h', told f r (SetProp k j) h1 = Ok h')) by (intros k j; apply Ht; intros d; eexists; reflexivity).
    assert (Hclr : eventually (fun f => exists h', told f r (ClearProp n) h1 = Ok h')) by (apply Ht; intros d; eexists; reflexivity).
    unfold write_prop. unfold is_custom in Hc. destruct (p_kind p) as [get set|wr rd|w rd]; [| |tauto].
    - destruct (get v'); [exact Hclr|exact (Hset _ _)|exact (Hset _ _)|exact (Hset _ _)].
    - destruct v' as [y|]; [exact (Hset _ _)|exact Hclr].
  Qed.
  Lemma added_ok h h1 r pl x (c : dict A -> hcall A) :
    named -> inv h -> grounded h1 -> usable class cls h r -> free class cls h x ->
    (forall y, y <> r -> agree h h1 y) -> h_store h1 = h_store h -> h_ctx h1 = h_ctx h ->
    h_parent h1 = upd (h_parent h) x (Some (r, pl)) ->
    (forall r' pl' y, held h1 r' pl' y -> (r' = r /\ pl' = pl /\ y = x) \/ held h r' pl' y) -> held h1 r pl x ->
    (forall r' n, NoDup (h_rels h1 r' n)) -> ~ below h x r ->
    (forall d d0, shows h r (JDict d0) -> exists d', handle (c d) d0 = Ok d') ->
    (h_ctx h r = true -> forall y, below h x y -> h_ctx h y = false) ->
    eventually (fun f => exists h',
      (if h_ctx h1 r then match write_to_dict f h1 x with Err e => Err e | Ok d => then_ (tell f r (c d) h1) (set_context f true x) end else Ok h1) = Ok h').
  Proof.
    intros Hne HI G1 Hu Hfree Hag Es Ec Ep Hnew Hh Hnd Hnb Hg Hout.
    assert (S1 := struct_add _ _ _ _ _ (i_struct _ _ _ _ _ HI) Hfree Es Ep Hnew Hnd). rewrite Ec.
    destruct (usable_cases ustr class cls uu h h1 r HI S1 Hag Es Hu) as [[Ek (s & Hs & Hb & _)]|[-> _]]; [|exists 0; eauto]. rewrite Ek.
    assert (T := st_top _ _ _ S1 s Hs).
    assert (Hbx : forall y, below h1 x y -> below h x y).
    { intros y Hy. induction Hy as [|y pl' z Hy IH Hz]; [apply below_refl|].
      destruct (Hnew _ _ _ Hz) as [(-> & _)|Ho]; [tauto|exact (below_held _ _ _ _ _ _ _ IH Ho)]. }
    assert (W := write_ok h1 x (G1 x)).
    assert (Ct := context_ok h1 s true x S1 T (G1 x) (below_held _ _ _ _ _ _ _ Hb Hh)).
    assert (Tl := tell_ok h h1 s r (fun f => c (match write_to_dict f h1 x with Ok d => d | Err _ => [] end)) Hne S1 Hs Hb Hag Es (i_correct _ _ _ _ _ HI)).
    refine (ev_impl _ _ _ (ev_and _ _ W (ev_and _ _ Ct (Tl (fun f d0 => Hg _ d0))))).
    intros f ([d Ed] & Hct & [h2 E2]). rewrite Ed in *. rewrite E2. cbn [then_].
    assert (Es2 : exists s' d', h2 = put_store s' d' h1).
    { unfold tell in E2. destruct (storage_of f h1 r) as [[s'|]|]; try discriminate. destruct (path_to f h1 s' r); [|discriminate].
      destruct (h_store h1 s'); [|discriminate]. destruct (change_at _ _ _) as [[| | |d']|]; try discriminate. injection E2 as <-. eauto. }
    destruct Es2 as (s' & d' & ->). apply Hct; [reflexivity|reflexivity|]. intros _ y Hy. cbn [h_ctx put_store]. rewrite Ec. apply (Hout Ek). auto.
  Qed.

  Lemma step_ok o h : inv h -> grounded h -> careful class cls h o -> able class cls h o -> eventually (fun f => exists h', step ustr class cls uu m0 f o h = Ok h').
  Proof.
    intros HI G [L Nb] [Hne Ab]. assert (S := i_struct _ _ _ _ _ HI). destruct o as [r n v|r n x|r n i x|r n x|s]; cbn [step].
    - exact (set_property_ok r n v h Hne HI L Ab).
    - destruct L as [Hu Hx], Ab as [Hn Hout]. assert (Hin := Hn). apply (find_name_in i_name) in Hn. destruct Hn as [t Et].
      unfold set_item, item_def. rewrite Et. destruct x as [x|].
      + apply (added_ok h (put_parent x (Some (r, AtItem n)) (put_item r n (Some x) h)) r (AtItem n) x (fun d => SetItemIn n (Some d)) Hne HI); auto.
        * apply (grounded_add h _ r (AtItem n) x G Nb). intros r' pl' y Hy. destruct (put_item_held r n (Some x) h r' pl' y Hy) as [(-> & -> & [= <-])|Ho]; auto.
        * intros y Hy. exact (put_item_agree r n (Some x) h y Hy).
        * intros r' pl' y Hy. destruct (put_item_held r n (Some x) h r' pl' y Hy) as [(-> & -> & [= <-])|Ho]; auto.
        * split; [exact Hin|]. cbn [h_items put_item put_parent]. rewrite upd_same, upd_name_same. reflexivity.
        * exact (st_nodup _ _ _ S).
        * intros d d0 _. eexists. reflexivity.
      + assert (Hsub : forall r' pl y, held (put_item r n None h) r' pl y -> held h r' pl y).
        { intros r' pl y Hy. destruct (put_item_held _ _ _ _ _ _ _ Hy) as [(_ & _ & C)|Ho]; [discriminate|exact Ho]. }
        apply (told_ok h (put_item r n None h) r (SetItemIn n None) Hne HI); [|intros y Hy; exact (put_item_agree r n None h y Hy)|reflexivity|reflexivity|exact Hu|].
        * apply (struct_sub h); [exact S|auto|reflexivity|exact Hsub|exact (st_nodup _ _ _ S)].
        * intros d _. eexists. reflexivity.
    - destruct L as [Hu Hx], Ab as [Hn Hout]. assert (Hin := Hn). apply (find_name_in r_name) in Hn. destruct Hn as [t Et].
      unfold insert_item, rel_def. rewrite Et.
      set (h0 := put_rel r n (py_insert i x (h_rels h r n)) h).
      assert (Hnew : forall r' pl' y, held h0 r' pl' y -> (r' = r /\ pl' = InRel n /\ y = x) \/ held h r' pl' y).
      { intros r' pl' y Hy. destruct (put_rel_held ustr class cls uu r n _ h r' pl' y Hy) as [(-> & -> & Hl)|[Ho _]]; [|auto].
        apply in_insert_at in Hl. destruct Hl as [->|Hl]; [auto|]. right. split; assumption. }
      apply (added_ok h (put_parent x (Some (r, InRel n)) h0) r (InRel n) x (fun d => InsertIn n i d) Hne HI); auto.
      + exact (grounded_add h _ r (InRel n) x G Nb Hnew).
      + intros y Hy. exact (put_rel_agree r n _ h y Hy).
      + split; [exact Hin|]. change (In x (h_rels h0 r n)). unfold h0. rewrite put_rel_same. apply in_insert_at. auto.
      + intros r' m. apply (put_rel_nodup r n _ h r' m); [exact (st_nodup _ _ _ S)|]. apply nodup_insert_at; [apply (st_nodup _ _ _ S)|].
        intros C. apply (proj1 Hx r (InRel n)). split; assumption.
      + intros d d0 Hd0. destruct (rel_list ustr class cls uu all_plain h r n d0 Hd0 Hin) as (l & El & _). cbn [handle]. rewrite El. eauto.
    - destruct Ab as [Hn Hx]. assert (Hin := Hn). apply (find_name_in r_name) in Hn. destruct Hn as [t Et].
      unfold remove_item, rel_def. rewrite Et. destruct (index_of_in _ _ Hx) as [i Ei]. rewrite Ei. assert (Hi := index_of_nth _ _ _ Ei).
      set (Lr := h_rels h r n) in *. set (h1 := put_rel r n (delete_at i Lr) h).
      assert (Hhx : held h r (InRel n) x) by (split; assumption).
      destruct (nodup_delete_at _ _ _ (st_nodup _ _ _ S r n) Hi) as [Hnd Hnx]. fold Lr in Hnd, Hnx.
      assert (Hsub : forall r' pl' y, held h1 r' pl' y -> held h r' pl' y).
      { intros r' pl' y Hy. destruct (put_rel_held ustr class cls uu r n _ h r' pl' y Hy) as [(-> & -> & Hl)|[Ho N]]; [|exact Ho].
        split; [exact Hin|exact (in_delete_at _ _ _ Hl)]. }
      assert (S1 : struct h1).
      { apply (struct_sub h); [exact S|auto|reflexivity|exact Hsub|]. intros r' m. apply put_rel_nodup; [exact (st_nodup _ _ _ S)|exact Hnd]. }
      assert (Hag : forall y, y <> r -> agree h h1 y) by (intros y Hy; exact (put_rel_agree r n _ h y Hy)).
      assert (Hrem : forall d, shows h r (JDict d) -> exists d', handle (RemoveAt n i) d = Ok d').
      { intros d Hd. destruct (rel_list ustr class cls uu all_plain h r n d Hd Hin) as (l & El & Hl & _). cbn [handle]. rewrite El, Hl.
        rewrite (proj2 (Nat.ltb_lt i (length (h_rels h r n)))); [eauto|]. apply nth_error_Some. fold Lr. congruence. }
      assert (G1 : Acc (under h1) x) by (apply (acc_sub h); [exact Hsub|apply G]).
      assert (Cx : eventually (fun f => forall h2, h_items h2 = h_items h1 -> h_rels h2 = h_rels h1 -> exists h', set_context f false x h2 = Ok h')).
      { assert (Tx : top h1 x).
        { intros r' pl' Hy. destruct (put_rel_held ustr class cls uu r n _ h r' pl' x Hy) as [(-> & -> & Hl)|[Ho N]]; [exact (Hnx Hl)|].
          apply N. destruct (held_one _ _ _ _ _ _ _ _ S Hhx Ho) as [-> ->]. auto. }
        refine (ev_impl _ _ _ (context_ok h1 x false x S1 Tx G1 (below_refl _ _ _ _))). intros f Hf h2 E1 E2. apply Hf; auto. discriminate. }
      destruct (usable_cases ustr class cls uu h h1 r HI S1 Hag eq_refl L) as [[Ek (s & Hs & Hb & _)]|[Ek Hq]].
      + assert (Tl : eventually (fun f => forall h2, ctx_only h1 h2 -> exists h3, tell f r (RemoveAt n i) h2 = Ok h3)).
        { assert (T := st_top _ _ _ S1 s Hs).
          refine (ev_impl _ _ _ (tell_ok h h1 s r (fun _ => RemoveAt n i) Hne S1 Hs Hb Hag eq_refl (i_correct _ _ _ _ _ HI) (fun _ => Hrem))).
          intros f [h3 E3] h2 (F1 & F2 & F3 & F4 & F5).
          assert (Q1 : forall f r, storage_of f h2 r = storage_of f h1 r).
          { intros f0. induction f0 as [|f0 IHf]; intros r0; [reflexivity|]. cbn [storage_of]. rewrite F4, F5.
            destruct (h_store h1 r0); [reflexivity|]. destruct (h_parent h1 r0) as [[p0 ?]|]; [apply IHf|reflexivity]. }
          assert (Q2 : forall f s r, path_to f h2 s r = path_to f h1 s r).
          { intros f0 s0. induction f0 as [|f0 IHf]; intros r0; [reflexivity|]. cbn [path_to]. unfold accessor. rewrite F3, F4.
            destruct (Nat.eqb r0 s0); [reflexivity|]. destruct (h_parent h1 r0) as [[p0 ?]|]; [rewrite IHf; reflexivity|reflexivity]. }
          unfold tell in *. rewrite Q1. destruct (storage_of f h1 r) as [[s'|]|]; try discriminate. rewrite Q2, F5.
          destruct (path_to f h1 s' r); [|discriminate]. destruct (h_store h1 s'); [|discriminate].
          destruct (change_at _ _ _) as [[| | |d']|]; try discriminate. eauto. }
        refine (ev_impl _ _ _ (ev_and _ _ Cx Tl)). intros f [Hc Ht]. fold h1.
        destruct (Hc h1 eq_refl eq_refl) as [h2 E2]. rewrite E2. cbn [then_].
        destruct (set_context_spec class cls _ _ _ _ _ E2) as (F & _ & _). destruct (Ht h2 F) as [h3 E3].
        destruct (h_ctx h2 r); [|cbn [then_]; eauto]. rewrite E3. cbn [then_].
        assert (Es2 : exists s' d', h3 = put_store s' d' h2).
        { unfold tell in E3. destruct (storage_of f h2 r) as [[s'|]|]; try discriminate. destruct (path_to f h2 s' r); [|discriminate].
          destruct (h_store h2 s'); [|discriminate]. destruct (change_at _ _ _) as [[| | |d']|]; try discriminate. injection E3 as <-. eauto. }
        destruct Es2 as (s' & d' & ->). destruct F as (F1 & F2 & F3 & _).
        destruct (Hc (put_store s' d' h2)) as [h4 E4]; [exact F2|exact F3|]. rewrite E4. cbn [then_]. eauto.
      + refine (ev_impl _ _ _ Cx). intros f Hc. fold h1.
        destruct (Hc h1 eq_refl eq_refl) as [h2 E2]. rewrite E2. cbn [then_].
        destruct (set_context_spec class cls _ _ _ _ _ E2) as (_ & D & _).
        assert (E : h_ctx h2 r = false) by (destruct (D r) as [->|[_ ->]]; [exact Ek|reflexivity]). rewrite E. cbn [then_]. eauto.
    - unfold open. assert (Cx : eventually (fun f => forall h2, h_items h2 = h_items h -> h_rels h2 = h_rels h -> h_ctx h2 = h_ctx h -> exists h', set_context f true s h2 = Ok h')).
      { refine (ev_impl _ _ _ (context_ok h s true s S (proj1 L) (G s) (below_refl _ _ _ _))). intros f Hf h2 E1 E2 E3. apply Hf; auto.
        intros _ y Hy. rewrite E3. apply Ab. exact Hy. }
      refine (ev_impl _ _ _ (ev_and _ _ (write_ok h s (G s)) Cx)). intros f [[d ->] Hc]. apply Hc; reflexivity.
  Qed.

  (** ** executions *)
  Lemma grounded_sub (h h' : heap) : (forall r pl y, held h' r pl y -> held h r pl y) -> grounded h -> grounded h'.
  Proof. intros Hs G x. exact (acc_sub h h' x Hs (G x)). Qed.
  Lemma tell_store f r c (h h' : heap) : tell f r c h = Ok h' -> exists s d, h' = put_store s d h.
  Proof.
    unfold tell. destruct (storage_of f h r) as [[s'|]|]; try discriminate. destruct (path_to f h s' r); [|discriminate].
    destruct (h_store h s'); [|discriminate]. destruct (change_at _ _ _) as [[| | |d']|]; try discriminate. intros [= <-]. eauto.
  Qed.
  Lemma told_objs f r c (h h' : heap) : told f r c h = Ok h' -> h_items h' = h_items h /\ h_rels h' = h_rels h.
  Proof. unfold told. destruct (h_ctx h r); [|intros [= <-]; auto]. intros E. destruct (tell_store _ _ _ _ _ E) as (s & d & ->). auto. Qed.
  Lemma added_objs f r x (c : dict A -> hcall A) (h1 h' : heap) :
    (if h_ctx h1 r then match write_to_dict f h1 x with Err e => Err e | Ok d => then_ (tell f r (c d) h1) (set_context f true x) end else Ok h1) = Ok h' ->
    h_items h' = h_items h1 /\ h_rels h' = h_rels h1.
  Proof.
    destruct (h_ctx h1 r); [|intros [= <-]; auto]. destruct (write_to_dict f h1 x) as [d|]; [|discriminate].
    destruct (tell f r (c d) h1) as [h2|] eqn:E; [|discriminate]. cbn [then_]. destruct (tell_store _ _ _ _ _ E) as (s & d' & ->). intros E2.
    destruct (set_context_spec class cls _ _ _ _ _ E2) as ((_ & F2 & F3 & _) & _). auto.
  Qed.
  Lemma step_grounded f o (h h' : heap) : grounded h -> careful class cls h o -> step ustr class cls uu m0 f o h = Ok h' -> grounded h'.
  Proof.
    intros G [L Nb] E. destruct o as [r n v|r n x|r n i x|r n x|s]; cbn [step] in E.
    - assert (Q : h_items h' = h_items h /\ h_rels h' = h_rels h).
      { unfold set_property in E. destruct (prop_def class cls r n) as [p|]; [|discriminate].
        assert (H : forall d h1, h_items h1 = h_items h -> h_rels h1 = h_rels h ->
                    fold_left (fun o x => then_ o (told f r (SetProp (fst x) (snd x)))) d (Ok h1) = Ok h' -> h_items h' = h_items h /\ h_rels h' = h_rels h).
        { intros d. induction d as [|x d IH]; intros h1 Q1 Q2 E1; [injection E1 as <-; auto|]. cbn [fold_left then_] in E1.
          destruct (told f r (SetProp (fst x) (snd x)) h1) as [h2|] eqn:E2.
          - destruct (told_objs _ _ _ _ _ E2) as [Q3 Q4]. apply (IH h2); [congruence|congruence|exact E1].
          - exfalso. clear -E1. induction d as [|y d IH]; [discriminate|]. apply IH. exact E1. }
        destruct (write_prop [] (p, set_value p v)) as [|x d] eqn:Ed.
        - destruct (told_objs _ _ _ _ _ E) as [Q1 Q2]. auto.
        - exact (H (x :: d) (put_prop r n (set_value p v) h) eq_refl eq_refl E). }
      destruct Q as [Q1 Q2]. apply (grounded_sub h); [|exact G]. intros r' pl y. apply same_held; assumption.
    - unfold set_item in E. destruct (item_def class cls r n); [|discriminate]. destruct x as [x|].
      + destruct (added_objs f r x (fun d => SetItemIn n (Some d)) _ _ E) as [Q1 Q2].
        apply (grounded_sub (put_parent x (Some (r, AtItem n)) (put_item r n (Some x) h))); [intros r' pl y; apply same_held; assumption|].
        apply (grounded_add h _ r (AtItem n) x G Nb). intros r' pl' y Hy. destruct (put_item_held r n (Some x) h r' pl' y Hy) as [(-> & -> & [= <-])|Ho]; auto.
      + destruct (told_objs _ _ _ _ _ E) as [Q1 Q2]. apply (grounded_sub h); [|exact G]. intros r' pl y Hy.
        assert (Hy1 : held (put_item r n None h) r' pl y) by (revert Hy; apply same_held; assumption).
        destruct (put_item_held _ _ _ _ _ _ _ Hy1) as [(_ & _ & C)|Ho]; [discriminate|exact Ho].
    - unfold insert_item in E. destruct (rel_def class cls r n) as [t|] eqn:Et; [|discriminate]. assert (Hin := rel_def_in _ _ _ _ _ Et).
      destruct (added_objs f r x (fun d => InsertIn n i d) _ _ E) as [Q1 Q2].
      apply (grounded_sub (put_rel r n (py_insert i x (h_rels h r n)) h)); [intros r' pl y; apply same_held; assumption|].
      apply (grounded_add h _ r (InRel n) x G Nb). intros r' pl' y Hy.
      destruct (put_rel_held ustr class cls uu r n _ h r' pl' y Hy) as [(-> & -> & Hl)|[Ho _]]; [|auto].
      apply in_insert_at in Hl. destruct Hl as [->|Hl]; [auto|]. right. split; assumption.
    - unfold remove_item in E. destruct (rel_def class cls r n) as [t|] eqn:Et; [|discriminate]. assert (Hin := rel_def_in _ _ _ _ _ Et).
      destruct (index_of x (h_rels h r n)) as [i|]; [|discriminate].
      destruct (set_context f false x _) as [h1|] eqn:E1; [|discriminate]. cbn [then_] in E.
      destruct (set_context_spec class cls _ _ _ _ _ E1) as ((_ & F2 & F3 & _) & _).
      assert (Q : h_items h' = h_items h1 /\ h_rels h' = h_rels h1).
      { destruct (h_ctx h1 r); [|cbn [then_] in E; injection E as <-; auto]. destruct (tell f r (RemoveAt n i) h1) as [h2|] eqn:E2; [|discriminate].
        destruct (tell_store _ _ _ _ _ E2) as (s & d & ->). cbn [then_] in E.
        destruct (set_context f false x (put_store s d h1)) as [h3|] eqn:E3; [|discriminate]. cbn [then_] in E. injection E as <-.
        destruct (set_context_spec class cls _ _ _ _ _ E3) as ((_ & K2 & K3 & _) & _). auto. }
      destruct Q as [Q1 Q2]. apply (grounded_sub h); [|exact G]. intros r' pl y Hy.
      assert (Hy1 : held (put_rel r n (delete_at i (h_rels h r n)) h) r' pl y) by (revert Hy; apply same_held; congruence).
      destruct (put_rel_held ustr class cls uu r n _ h r' pl y Hy1) as [(-> & -> & Hl)|[Ho _]]; [|exact Ho].
      split; [exact Hin|exact (in_delete_at _ _ _ Hl)].
    - unfold open in E. destruct (write_to_dict f h s) as [d|]; [|discriminate].
      destruct (set_context_spec class cls _ _ _ _ _ E) as ((_ & F2 & F3 & _) & _). apply (grounded_sub h); [|exact G].
      intros r' pl y. apply same_held; assumption.
  Qed.
  Lemma runs_grounded (h : heap) : runs ustr class cls uu m0 (careful class cls) h -> grounded h.
  Proof.
    intros H. induction H as [|f o h h' H IH L E]; [|exact (step_grounded f o h h' IH L E)].
    intros x. constructor. intros y [[n|n] [_ Hy]]; [discriminate|destruct Hy].
  Qed.
  Lemma runs_legit (h : heap) : runs ustr class cls uu m0 (careful class cls) h -> runs ustr class cls uu m0 (legit class cls) h.
  Proof. intros H. induction H as [|f o h h' H IH [L _] E]; [constructor|]. exact (runs_step _ _ _ _ _ _ f o h h' IH L E). Qed.
End NoRaise.

(** ** reading does not look at the order of keys *)
Section Reading.
  Context {A V U M : Type}.
  Variable truthy : A -> bool.
  Variable uparse : json A -> res U.
  Variable mparse : json A -> res M.
  Variable fresh : U.
  Variable now : M.
  Variable class : nat -> classdef A V.
  Hypothesis Hof : order_free class uparse mparse.
  Notation read := (@read A V U M truthy uparse mparse fresh now class).

  Lemma json_deep (P : json A -> Prop) :
    P JNone -> (forall a, P (JAtom a)) -> (forall l, all1 P l -> P (JList l)) -> (forall d, all1 (fun x => P (snd x)) d -> P (JDict d)) -> forall j, P j.
  Proof.
    intros H1 H2 H3 H4. fix IH 1. intros [|a|l|d]; [exact H1|apply H2|apply H3|apply H4].
    - induction l as [|x l IHl]; simpl; auto.
    - induction d as [|[k x] d IHd]; simpl; auto.
  Qed.
  Lemma same_kind (j j' : json A) : same j j' ->
    match j, j' with
    | JNone, JNone => True
    | JAtom a, JAtom a' => a' = a
    | JList l, JList l' => length l' = length l /\ forall i x, nth_error l i = Some x -> exists x', nth_error l' i = Some x' /\ same x x'
    | JDict d, JDict d' => forall k, match dget k d, dget k d' with Some x, Some x' => same x x' | None, None => True | _, _ => False end
    | _, _ => False
    end.
  Proof.
    intros H. assert (H0 := H []). destruct j as [|a|l|d], j' as [|a'|l'|d']; try discriminate; simpl in H0; auto.
    - injection H0 as ->. reflexivity.
    - injection H0 as H0. split; [auto|]. intros i x E. destruct (nth_error l' i) as [x'|] eqn:E'.
      + exists x'. split; [reflexivity|]. intros p. specialize (H (inr i :: p)). simpl in H. rewrite E, E' in H. exact H.
      + exfalso. apply nth_error_None in E'. assert (i < length l) by (apply nth_error_Some; congruence). lia.
    - intros k. destruct (dget k d) as [x|] eqn:E, (dget k d') as [x'|] eqn:E'; auto.
      + intros p. specialize (H (inl k :: p)). simpl in H. rewrite E, E' in H. exact H.
      + specialize (H [inl k]). simpl in H. rewrite E, E' in H. discriminate.
      + specialize (H [inl k]). simpl in H. rewrite E, E' in H. discriminate.
  Qed.
  Lemma same_truth j j' : same j j' -> truth truthy j = truth truthy j'.
  Proof.
    intros H. apply same_kind in H. destruct j as [|a|l|d], j' as [|a'|l'|d']; try tauto; simpl.
    - congruence.
    - destruct H as [H _]. destruct l, l'; simpl in *; congruence.
    - destruct d as [|[k x] d], d' as [|[k' x'] d']; auto; exfalso.
      + specialize (H k'). unfold dget in H. simpl in H. destruct (string_dec k' k'); [exact H|congruence].
      + specialize (H k). unfold dget in H. simpl in H. destruct (string_dec k k); [exact H|congruence].
  Qed.
  Lemma read_same j : (forall j' c, same j j' -> read j c = read j' c) /\
                      (forall l, j = JList l -> all1 (fun y => forall y' c, same y y' -> read y c = read y' c) l).
  Proof.
    destruct Hof as [Hp Hc]. induction j as [|a|l IH|d IH] using json_deep.
    - split; [|discriminate]. intros j' c H. apply same_kind in H. destruct j'; try (exfalso; exact H); simpl; congruence || reflexivity.
    - split; [|discriminate]. intros j' c H. apply same_kind in H. destruct j'; try (exfalso; exact H); simpl; congruence || reflexivity.
    - split.
      + intros j' c H. apply same_kind in H. destruct j'; try (exfalso; exact H); simpl; congruence || reflexivity.
      + intros l' [= <-]. refine (all1_impl _ _ _ _ IH). intros x [H _]. exact H.
    - split; [|discriminate]. intros j' c H. assert (Hk := same_kind _ _ H). destruct j' as [| | |d']; try tauto.
      rewrite !read_eq. destruct (Hc c) as (Hprop & Hitem & Hrel).
      assert (E1 : match dget "uuid" d with Some x => uparse x | None => Ok fresh end = match dget "uuid" d' with Some x => uparse x | None => Ok fresh end).
      { specialize (Hk "uuid"%string). destruct (dget "uuid" d), (dget "uuid" d'); try tauto. exact (proj1 (Hp _ _ Hk)). }
      assert (E2 : match dget "modified" d with Some x => mparse x | None => Ok now end = match dget "modified" d' with Some x => mparse x | None => Ok now end).
      { specialize (Hk "modified"%string). destruct (dget "modified" d), (dget "modified" d'); try tauto. exact (proj2 (Hp _ _ Hk)). }
      assert (E3 : map (fun p => read_prop d p (p_default p)) (k_props (class c)) = map (fun p => read_prop d' p (p_default p)) (k_props (class c))).
      { apply map_ext_in. intros p Hin. specialize (Hprop p Hin). unfold read_prop. specialize (Hk (p_key p)).
        destruct (p_kind p) as [get set|wr rd|w rd].
        - destruct (dget (p_key p) d), (dget (p_key p) d'); try tauto. rewrite (Hprop _ _ Hk). reflexivity.
        - destruct (dget (p_key p) d), (dget (p_key p) d'); try tauto. rewrite (Hprop _ _ Hk). reflexivity.
        - rewrite (Hprop _ _ H). reflexivity. }
      assert (IH' : forall k x, dget k d = Some x -> (forall x' c, same x x' -> read x c = read x' c) /\
                    (forall l, x = JList l -> all1 (fun y => forall y' c, same y y' -> read y c = read y' c) l)).
      { intros k x. unfold dget. clear -IH. induction d as [|[k0 x0] d IHd]; simpl; [discriminate|]. destruct IH as [I1 I2].
        destruct (string_dec k k0); [intros [= <-]; exact I1|exact (IHd I2)]. }
      assert (Hw : forall x x', same x x' -> (forall x' c, same x x' -> read x c = read x' c) -> forall fac,
                   (forall d d', same (JDict d) (JDict d') -> fac d = fac d') ->
                   read_with fac (item_reader truthy uparse mparse fresh now class x) = read_with fac (item_reader truthy uparse mparse fresh now class x')).
      { intros x x' Hx Hr fac Hf. unfold item_reader, read_with. cbn [fst snd]. assert (Hkx := same_kind _ _ Hx).
        destruct x as [| | |dx], x' as [| | |dx']; try tauto. rewrite (Hf _ _ Hx). destruct (fac dx') as [c'|]; [|reflexivity]. exact (Hr _ c' Hx). }
      assert (E4 : read_items truthy (k_items (class c)) (map (fun x => (fst x, item_reader truthy uparse mparse fresh now class (snd x))) d) =
                   read_items truthy (k_items (class c)) (map (fun x => (fst x, item_reader truthy uparse mparse fresh now class (snd x))) d')).
      { revert Hitem. generalize (k_items (class c)) as is. intros is. induction is as [|i is IHi]; intros Hitem; [reflexivity|]. cbn [read_items].
        rewrite !dget_map. rewrite IHi by (intros; apply Hitem; [right|]; assumption). assert (Hki := Hk (i_name i)).
        destruct (dget (i_name i) d) as [x|] eqn:Ex, (dget (i_name i) d') as [x'|]; try (exfalso; exact Hki); [|reflexivity]. cbn [option_map].
        change (fst (item_reader truthy uparse mparse fresh now class x)) with x. change (fst (item_reader truthy uparse mparse fresh now class x')) with x'.
        rewrite (same_truth _ _ Hki). rewrite (Hw _ _ Hki (proj1 (IH' _ _ Ex)) _ (Hitem i (or_introl eq_refl))). reflexivity. }
      assert (E5 : read_rels (k_rels (class c)) (map (fun x => (fst x, list_reader truthy uparse mparse fresh now class (snd x))) d) =
                   read_rels (k_rels (class c)) (map (fun x => (fst x, list_reader truthy uparse mparse fresh now class (snd x))) d')).
      { revert Hrel. generalize (k_rels (class c)) as rs. intros rs. induction rs as [|r rs IHr]; intros Hrel; [reflexivity|]. cbn [read_rels].
        rewrite !dget_map. rewrite IHr by (intros; apply Hrel; [right|]; assumption). assert (Hki := Hk (r_key r)).
        destruct (dget (r_key r) d) as [x|] eqn:Ex, (dget (r_key r) d') as [x'|]; try (exfalso; exact Hki); [|reflexivity]. cbn [option_map].
        assert (Hkx := same_kind _ _ Hki). unfold list_reader. destruct x as [| |l|], x' as [| |l'|]; try tauto.
        destruct Hkx as [Hl Hn]. assert (Hl2 := proj2 (IH' _ _ Ex) l eq_refl).
        assert (E : map (read_with (r_factory r)) (map (item_reader truthy uparse mparse fresh now class) l) =
                    map (read_with (r_factory r)) (map (item_reader truthy uparse mparse fresh now class) l')).
        { specialize (Hrel r (or_introl eq_refl)). clear -Hl Hn Hl2 Hw Hrel. revert l' Hl Hn. induction l as [|y l IHl]; intros [|y' l'] Hl Hn; try discriminate; [reflexivity|].
          simpl map. destruct Hl2 as [Hy Hl2]. f_equal.
          - destruct (Hn 0 y eq_refl) as (z & [= <-] & Hz). exact (Hw _ _ Hz Hy _ Hrel).
          - apply IHl; [exact Hl2|injection Hl as Hl; exact Hl|]. intros i x Hx. exact (Hn (S i) x Hx). }
        rewrite E. reflexivity. }
      rewrite E1, E2, E3, E4, E5. reflexivity.
  Qed.
End Reading.
