(** The invariant of properly used trees of persistent objects. *)
From Coq Require Import String ZArith Bool List Lia Arith Setoid.
From Verif Require Import PyBase PersistHeap_Model PersistHeap_Spec PersistHeap_Proofs.
Import ListNotations.

Definition isp (h : heap) (x r : nat) : nat := match h_parent h x with Some p => if Nat.eqb p r then 1 else 0 | None => 0 end.
Definition acyclic (h : heap) : Prop := forall r, exists l, chain h r l.
(** each object is once among the children of its parent and of no other *)
Definition linked (h : heap) : Prop := forall r x, count_occ Nat.eq_dec (children h r) x = isp h x r.

Lemma linked_iff h x r : linked h -> (In x (children h r) <-> h_parent h x = Some r).
Proof.
  intros L. rewrite (count_occ_In Nat.eq_dec), L. unfold isp. destruct (h_parent h x) as [p|]; [| split; [lia | discriminate]].
  destruct (Nat.eqb_spec p r) as [->|N]; split; intros H; try lia; congruence.
Qed.
Lemma linked_nodup h r : linked h -> NoDup (children h r).
Proof. intros L. apply (NoDup_count_occ Nat.eq_dec). intros x. rewrite L. unfold isp. destruct (h_parent h x); [destruct (Nat.eqb n r) |]; lia. Qed.

Lemma root_refs t : In (root t) (refs t).
Proof. destruct t. cbn. apply in_or_app. right. now left. Qed.
Lemma in_refs r ts y : In y (refs (Node r ts)) <-> y = r \/ exists t, In t ts /\ In y (refs t).
Proof. cbn. rewrite in_app_iff, in_flat_map. cbn. intuition. Qed.
(** a subtree is closed under parent and child *)
Lemma tree_up h t y : linked h -> shape h t -> In y (refs t) -> y = root t \/ exists p, h_parent h y = Some p /\ In p (refs t).
Proof.
  intros L. induction t as [r ts IH] using tree_induct. intros S I. inversion S as [? ? Ch F]; subst. cbn [root].
  apply in_refs in I as [->|(t & It & Iy)]; [now left |]. right. rewrite Forall_forall in IH, F.
  destruct (IH t It (F t It) Iy) as [->|(p & E & Ip)].
  - exists r. split; [| apply in_refs; now left]. apply linked_iff; [exact L |]. rewrite Ch. now apply in_map.
  - exists p. split; [exact E |]. apply in_refs. right. eauto.
Qed.
Lemma tree_down h t y p : linked h -> shape h t -> h_parent h y = Some p -> In p (refs t) -> In y (refs t).
Proof.
  intros L. induction t as [r ts IH] using tree_induct. intros S E I. inversion S as [? ? Ch F]; subst.
  rewrite Forall_forall in IH, F. apply in_refs. apply in_refs in I as [->|(t & It & Ip)].
  - right. apply linked_iff in E; [| exact L]. rewrite Ch in E. apply in_map_iff in E as (t & <- & It). exists t. split; [exact It | apply root_refs].
  - right. exists t. split; [exact It |]. apply IH; auto.
Qed.
(** the root is the object or one of its ancestors *)
Lemma tree_anc h t y l : linked h -> shape h t -> chain h y l -> In y (refs t) -> In (root t) (y :: l).
Proof.
  intros L S C. revert S. induction C as [y E|y p l E C IH]; intros S I; destruct (tree_up h t y L S I) as [->|(q & Eq & Iq)]; try (now left).
  - congruence.
  - right. apply IH; [exact S |]. congruence.
Qed.
Lemma chain_level h y l c1 c2 r lr : chain h y l -> chain h r lr -> h_parent h c1 = Some r -> h_parent h c2 = Some r ->
  In c1 (y :: l) -> In c2 (y :: l) -> c1 = c2.
Proof.
  intros C Cr E1 E2 I1 I2. destruct (chain_mem h y l c1 C I1) as (a1 & l1 & Ea & C1). destruct (chain_mem h y l c2 C I2) as (a2 & l2 & Eb & C2).
  assert (l1 = r :: lr) as -> by (eapply chain_det; [exact C1 | econstructor; eauto]).
  assert (l2 = r :: lr) as -> by (eapply chain_det; [exact C2 | econstructor; eauto]).
  rewrite Ea in Eb. change (c1 :: r :: lr) with ([c1] ++ r :: lr) in Eb. change (c2 :: r :: lr) with ([c2] ++ r :: lr) in Eb.
  rewrite !app_assoc in Eb. apply app_inv_tail in Eb. now apply app_inj_tail in Eb.
Qed.
Lemma nodup_refs h t : acyclic h -> linked h -> shape h t -> NoDup (refs t).
Proof.
  intros A L. induction t as [r ts IH] using tree_induct. intros S. inversion S as [? ? Ch F]; subst. cbn [refs].
  assert (Sep : forall t y, In t ts -> In y (refs t) -> exists l, chain h y l /\ In (root t) (y :: l) /\ In r l).
  { intros t y It Iy. rewrite Forall_forall in F. destruct (A y) as (l & C). pose proof (tree_anc h t y l L (F t It) C Iy) as I.
    exists l. split; [exact C |]. split; [exact I |]. destruct (chain_mem h y l (root t) C I) as (a & b & Eab & Cb).
    assert (P : h_parent h (root t) = Some r) by (apply linked_iff; [exact L | rewrite Ch; now apply in_map]).
    inversion Cb as [? E|? p b' E Cb']; subst; [congruence |]. assert (p = r) as -> by congruence.
    destruct a as [|z a]; injection Eab as -> ->; [now left |]. apply in_or_app. right. right. now left. }
  assert (NC : NoDup (map root ts)) by (rewrite <- Ch; now apply linked_nodup).
  assert (N : NoDup (flat_map refs ts)).
  { assert (Par : forall t, In t ts -> h_parent h (root t) = Some r) by (intros t It; apply linked_iff; [exact L | rewrite Ch; now apply in_map]).
    clear Ch S. induction ts as [|t ts IHts]; [constructor |]. inversion IH as [|? ? Ht IH']; inversion F as [|? ? St F']; inversion NC as [|? ? Nt NC']; subst. cbn.
    assert (D : forall y, In y (refs t) -> ~ In y (flat_map refs ts)).
    { intros y I1 I2. apply in_flat_map in I2 as (t' & It' & I2). destruct (Sep t y (or_introl eq_refl) I1) as (l & C & J1 & _).
      destruct (Sep t' y (or_intror It') I2) as (l' & C' & J2 & _). assert (l' = l) as -> by (eapply chain_det; eauto).
      destruct (A r) as (lr & Cr). apply Nt. rewrite (chain_level h y l (root t) (root t') r lr C Cr); auto.
      - now apply in_map.
      - apply Par. now left.
      - apply Par. now right. }
    specialize (Ht St). specialize (IHts IH' F' ltac:(intros; apply Sep; auto; now right) NC' ltac:(intros; apply Par; now right)).
    clear -Ht IHts D. induction Ht as [|y l Ny _ IHl]; [exact IHts |]. cbn. constructor.
    - intros I. apply in_app_or in I as [I|I]; [contradiction |]. now apply (D y (or_introl eq_refl)).
    - apply IHl. intros z Iz. apply D. now right. }
  assert (R : ~ In r (flat_map refs ts)).
  { intros I. apply in_flat_map in I as (t & It & I). destruct (Sep t r It I) as (l & C & _ & J). now apply (chain_notin h r l C). }
  clear -N R. induction (flat_map refs ts) as [|y l IH]; cbn; [constructor; [intros [] | constructor] |]. inversion N; subst. constructor.
  - rewrite in_app_iff. cbn. intros [I|[->|[]]]; [contradiction |]. apply R. now left.
  - apply IH; [assumption |]. intros I. apply R. now right.
Qed.

Section Inv.
  Variable uuid : nat -> nat.
  Hypothesis uuid_inj : forall x y, uuid x = uuid y -> x = y.
  (** every object except [x] has its parent's context *)
  Definition shared_but (x : option nat) (h : heap) : Prop := forall y p, Some y <> x -> h_parent h y = Some p -> h_ctx h y = h_ctx h p.
  Definition registered (h : heap) : Prop := forall c u x, h_reg h c u = Some x <-> h_ctx h x = Some c /\ uuid x = u.
  Definition good (h : heap) : Prop := acyclic h /\ linked h /\ shared_but None h /\ registered h.

  Lemma nodup_uuid l : NoDup l -> NoDup (map uuid l).
  Proof.
    induction 1 as [|x l N _ IH]; [constructor |]. cbn. constructor; [| exact IH]. intros I. apply in_map_iff in I as (y & E & I).
    apply uuid_inj in E as ->. contradiction.
  Qed.
  Lemma tree_ctx h x t : linked h -> shared_but (Some x) h -> shape h t -> (forall y, In y (refs t) -> y = root t \/ y <> x) ->
    NoDup (refs t) -> forall y, In y (refs t) -> h_ctx h y = h_ctx h (root t).
  Proof.
    intros L B. induction t as [r ts IH] using tree_induct. intros S Nx N y I. inversion S as [? ? Ch F]; subst. cbn [root] in *.
    apply in_refs in I as [->|(t & It & Iy)]; [reflexivity |]. rewrite Forall_forall in IH, F.
    assert (Nr : forall z, In z (refs t) -> z <> r).
    { intros z Iz ->. cbn in N. eapply (nodup_app_disj _ _ N r); [| now left]. apply in_flat_map. eauto. }
    assert (Sub : forall z, In z (refs t) -> z <> x).
    { intros z Iz. destruct (Nx z) as [->|]; [apply in_refs; right; eauto | exfalso; now apply (Nr r) | assumption]. }
    rewrite (IH t It (F t It)); auto.
    - apply B; [intros [= E]; apply (Sub (root t)); [apply root_refs | exact E] |]. apply linked_iff; [exact L |]. rewrite Ch. now apply in_map.
    - cbn in N. apply nodup_app_l in N. clear -N It. induction ts as [|t' ts IHts]; [destruct It |]. cbn in N.
      destruct It as [->|It]; [now apply nodup_app_l in N | apply IHts; [now apply nodup_app_r in N | exact It]].
  Qed.

  Lemma good_effect c t x h h' :
    acyclic h -> linked h -> shared_but (Some x) h -> registered h -> root t = x -> shape h t ->
    (forall r, h_parent h x = Some r -> h_ctx h r = c) -> (c <> None -> h_ctx h x = None) ->
    effect uuid c (refs t) h h' -> good h' /\ ready uuid c (refs t) h.
  Proof.
    intros A L B Rg Rt S Hp Hc [(T1 & T2 & T3 & T4) C X Lg G Z]. pose proof (nodup_refs h t A L S) as N.
    assert (Old : forall y, In y (refs t) -> h_ctx h y = h_ctx h x).
    { intros y I. rewrite <- Rt. apply (tree_ctx h x t); auto. intros z _. rewrite Rt. destruct (Nat.eq_dec z x); auto. }
    assert (Rr : forall k y, h_ctx h y = Some k -> h_reg h k (uuid y) = Some y) by (intros k y E; now apply Rg).
    split; [| intros y I; rewrite Old by exact I; split; [exact Hc |]; intros k E; rewrite (Rr k y); [discriminate | now rewrite Old]].
    split; [| split; [| split]].
    - intros r. destruct (A r) as (l & Cl). exists l. eapply chain_ext; [| exact Cl]. intros z. now rewrite T1.
    - intros r z. unfold isp. rewrite (children_ext h h') by assumption. rewrite T1. apply L.
    - intros y p _ E. rewrite T1 in E. rewrite !X. destruct (in_dec Nat.eq_dec y (refs t)) as [I|I], (in_dec Nat.eq_dec p (refs t)) as [J|J]; try reflexivity.
      + destruct (tree_up h t y L S I) as [->|(q & Eq & Iq)]; [| congruence]. rewrite Rt in E. symmetry. now apply Hp.
      + exfalso. apply I. eapply tree_down; eauto.
      + apply B; [| exact E]. intros [= ->]. apply I. rewrite <- Rt. apply root_refs.
    - intros k u z. destruct (in_dec Nat.eq_dec u (map uuid (refs t))) as [I|I].
      + apply in_map_iff in I as (w & <- & I). rewrite (G k w I). rewrite X. unfold reg_of.
        assert (No : forall v, h_reg h k (uuid w) = Some v -> v = w /\ h_ctx h w = Some k).
        { intros v E. apply Rg in E as [E1 E2]. apply uuid_inj in E2 as ->. auto. }
        destruct c as [k'|].
        * specialize (Hc ltac:(discriminate)). destruct (Nat.eqb_spec k k') as [->|Nk].
          -- split; [intros [= ->]; split; [| reflexivity]; destruct (in_dec Nat.eq_dec z (refs t)); tauto |].
             intros [_ E]. apply uuid_inj in E as ->. reflexivity.
          -- split; [intros E; apply No in E as [_ E]; rewrite Old in E by exact I; congruence |].
             intros [E1 E2]. apply uuid_inj in E2 as ->. destruct (in_dec Nat.eq_dec w (refs t)); [congruence | contradiction].
        * split.
          -- intros E. exfalso. destruct (h_ctx h w) as [k'|] eqn:Hw.
             ++ destruct (Nat.eqb_spec k k'); [discriminate |]. apply No in E as [_ E]. congruence.
             ++ apply No in E as [_ E]. congruence.
          -- intros [E1 E2]. apply uuid_inj in E2 as ->. destruct (in_dec Nat.eq_dec w (refs t)); [discriminate | contradiction].
      + rewrite Z by exact I. rewrite (Rg k u z), X. destruct (in_dec Nat.eq_dec z (refs t)) as [J|J]; [| reflexivity].
        split; intros [_ <-]; exfalso; apply I; now apply in_map.
  Qed.

  (** the whole: setting the context below [x] when it succeeds *)
  Lemma good_set_context f c x h h' :
    acyclic h -> linked h -> shared_but (Some x) h -> registered h ->
    (forall r, h_parent h x = Some r -> h_ctx h r = c) -> (c <> None -> h_ctx h x = None) ->
    set_context uuid f c x h = (h', Ok tt) -> good h' /\ exists t, root t = x /\ shape h t /\ effect uuid c (refs t) h h'.
  Proof.
    intros A L B Rg Hp Hc E. destruct (set_context_shape uuid f c x h h' E) as (t & Rt & S & D).
    pose proof (nodup_refs h t A L S) as N.
    assert (Rd : ready uuid c (refs t) h).
    { intros y I. assert (Old : h_ctx h y = h_ctx h x) by (rewrite <- Rt; apply (tree_ctx h x t); auto; intros z _; rewrite Rt; destruct (Nat.eq_dec z x); auto).
      rewrite Old. split; [exact Hc |]. intros k Ek. rewrite <- Old in Ek. pose proof (proj2 (Rg k (uuid y) y) (conj Ek eq_refl)) as X. congruence. }
    destruct (set_context_tree uuid c t f h S (nodup_uuid _ N) D Rd) as (h2 & E2 & Ef). rewrite Rt in E2. assert (h2 = h') as -> by congruence.
    destruct (good_effect c t x h h' A L B Rg Rt S Hp Hc Ef) as [Gd _]. split; [exact Gd | eauto].
  Qed.
End Inv.
