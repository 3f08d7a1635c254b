(** Lemmas about PersistHeap_Model. *)
From Coq Require Import String ZArith Bool List Lia Arith.
From Verif Require Import PyBase PersistHeap_Model PersistHeap_Spec.
Import ListNotations.

Lemma upd_eq {X} (f : nat -> X) r x : upd f r x r = x.
Proof. unfold upd. now rewrite Nat.eqb_refl. Qed.
Lemma upd_neq {X} (f : nat -> X) r x r' : r' <> r -> upd f r x r' = f r'.
Proof. intros N. unfold upd. apply Nat.eqb_neq in N. now rewrite N. Qed.

(** ** chains *)
Lemma chain_det h r l l' : chain h r l -> chain h r l' -> l = l'.
Proof. intros C. revert l'. induction C; intros l' C'; inversion C'; subst; try congruence. assert (p0 = p) as -> by congruence. f_equal. now apply IHC. Qed.
Lemma chain_ext h h' r l : (forall x, h_parent h' x = h_parent h x) -> chain h r l -> chain h' r l.
Proof. intros E C. induction C; [apply chain_root | eapply chain_up]; rewrite ?E; eauto. Qed.
Lemma chain_mem h r l x : chain h r l -> In x (r :: l) -> exists l1 lx, r :: l = l1 ++ x :: lx /\ chain h x lx.
Proof.
  intros C. induction C as [r E|r p l E C IH]; intros [<-|I].
  - exists [], []. split; [reflexivity | now constructor].
  - destruct I.
  - exists [], (p :: l). split; [reflexivity | econstructor; eauto].
  - destruct (IH I) as (l1 & lx & El & Cx). exists (r :: l1), lx. split; [cbn; now rewrite <- El | exact Cx].
Qed.
Lemma chain_notin h r l : chain h r l -> ~ In r l.
Proof.
  intros C I. destruct l as [|p l]; [destruct I |]. inversion C as [|? ? ? E C']; subst.
  destruct (chain_mem h p l r C' I) as (l1 & lx & El & Cx). pose proof (chain_det _ _ _ _ C Cx) as X. subst lx.
  apply (f_equal (@length nat)) in El. rewrite app_length in El. cbn in El. lia.
Qed.
Lemma chain_nodup h r l : chain h r l -> NoDup (r :: l).
Proof.
  intros C. pose proof (chain_notin h r l C) as N. induction C as [r E|r p l E C IH]; constructor; auto; [constructor |].
  apply IH. now apply chain_notin in C.
Qed.

(** ** modification counts *)
Definition same_tree (h h' : heap) : Prop := h_parent h' = h_parent h /\ h_items h' = h_items h /\ h_rels h' = h_rels h /\ h_storage h' = h_storage h.
Lemma update_modified_frame fuel r h :
  let h' := fst (update_modified fuel r h) in
  same_tree h h' /\ h_ctx h' = h_ctx h /\ h_reg h' = h_reg h /\ h_calls h' = h_calls h.
Proof.
  revert r h. induction fuel as [|f IH]; intros r h; cbn; [repeat split |]. destruct (h_parent h r) as [p|]; [| repeat split].
  destruct (IH p (set_count r (S (h_count h r)) h)) as ((E1 & E2 & E3 & E4) & E5 & E6 & E7). repeat split; assumption.
Qed.
Lemma update_modified_count fuel r h l :
  chain h r l -> length l < fuel ->
  snd (update_modified fuel r h) = Ok tt /\
  forall x, h_count (fst (update_modified fuel r h)) x = h_count h x + (if in_dec Nat.eq_dec x (r :: l) then 1 else 0).
Proof.
  intros C. revert fuel. 
  assert (G : forall h r l, chain h r l -> forall fuel h', h_parent h' = h_parent h -> length l < fuel ->
     snd (update_modified fuel r h') = Ok tt /\
     forall x, h_count (fst (update_modified fuel r h')) x = h_count h' x + (if in_dec Nat.eq_dec x (r :: l) then 1 else 0)).
  { clear. intros h r l C. induction C as [r E|r p l E C IH]; intros fuel h' P L; (destruct fuel as [|f]; [cbn in L; lia |]); cbn [update_modified].
    - rewrite P, E. split; [reflexivity |]. intros x. cbn [fst h_count set_count]. destruct (in_dec Nat.eq_dec x [r]) as [[<-|[]]|N].
      + rewrite upd_eq. lia.
      + rewrite upd_neq by (intros ->; apply N; now left). lia.
    - rewrite P, E. destruct (IH f (set_count r (S (h_count h' r)) h') P) as [H1 H2]; [cbn in L; lia |]. split; [exact H1 |].
      intros x. rewrite H2. cbn [h_count set_count]. pose proof (chain_notin h r (p :: l) ltac:(econstructor; eauto)) as NI.
      destruct (Nat.eq_dec x r) as [->|NE].
      + rewrite upd_eq. destruct (in_dec Nat.eq_dec r (p :: l)); [contradiction |]. destruct (in_dec Nat.eq_dec r (r :: p :: l)) as [|X]; [lia |].
        exfalso. apply X. now left.
      + rewrite upd_neq by exact NE. destruct (in_dec Nat.eq_dec x (p :: l)) as [I|I], (in_dec Nat.eq_dec x (r :: p :: l)) as [J|J]; try lia.
        * exfalso. apply J. now right.
        * exfalso. destruct J; [congruence | contradiction]. }
  intros fuel L. now apply (G h r l C).
Qed.

(** ** setting contexts *)
Lemma children_ext h h' r : h_items h' = h_items h -> h_rels h' = h_rels h -> children h' r = children h r.
Proof. intros E1 E2. unfold children. now rewrite E1, E2. Qed.
Fixpoint tree_induct (P : tree -> Prop) (H : forall r ts, Forall P ts -> P (Node r ts)) (t : tree) : P t :=
  match t with Node r ts => H r ts ((fix go l := match l return Forall P l with [] => Forall_nil _ | x :: l' => Forall_cons x (tree_induct P H x) (go l') end) ts) end.
Lemma shape_ext h h' t : h_items h' = h_items h -> h_rels h' = h_rels h -> shape h t -> shape h' t.
Proof.
  intros E1 E2. induction t as [r ts IH] using tree_induct. intros S. inversion S as [? ? C F]; subst. constructor.
  - now rewrite (children_ext h h').
  - clear -IH F. induction IH; inversion F; subst; constructor; auto.
Qed.

Section Ctx.
  Variable uuid : nat -> nat.
  Notation set_context := (set_context uuid).
  Definition pass (f : nat) (c : option nat) (xs : list nat) (o : out) : out := fold_left (fun o x => andthen o (set_context f c x)) xs o.
  Lemma pass_err f c xs h e : pass f c xs (h, Err e) = (h, Err e).
  Proof. induction xs; [reflexivity | exact IHxs]. Qed.
  Lemma pass_cons f c x xs h : pass f c (x :: xs) (h, Ok tt) = pass f c xs (set_context f c x h).
  Proof. reflexivity. Qed.

  (** whatever happens, only contexts and registrations change *)
  Lemma set_context_frame f c r h : same_tree h (fst (set_context f c r h)) /\ h_count (fst (set_context f c r h)) = h_count h.
  Proof.
    revert c r h. induction f as [|f IH]; intros c r h; [now repeat split |].
    assert (P : forall xs h0, (same_tree h0 (fst (pass f c xs (h0, Ok tt)))) /\ h_count (fst (pass f c xs (h0, Ok tt))) = h_count h0).
    { induction xs as [|x xs IHx]; intros h0; [now repeat split |]. rewrite pass_cons. destruct (IH c x h0) as [(A1 & A2 & A3 & A4) A5].
      destruct (set_context f c x h0) as [h1 [[]|e]]; cbn [fst] in *.
      - destruct (IHx h1) as [(B1 & B2 & B3 & B4) B5]. repeat split; congruence.
      - rewrite pass_err. cbn. now repeat split. }
    cbn [PersistHeap_Model.set_context]. specialize (P (children h r) (set_ctx r c h)). unfold pass in P.
    destruct (h_ctx h r) as [k|], c as [k'|]; try now repeat split.
    all: destruct (fold_left _ (children h r) _) as [h1 [[]|e]]; cbn [andthen fst] in *; try exact P.
    all: try (unfold unregister; cbn; destruct (h_reg h1 k (uuid r)); exact P).
  Qed.

  (** what setting the context of the objects [R] to [c] does *)
  Definition calls_of (c : option nat) (old : nat -> option nat) (x : nat) : list regcall :=
    match old x with Some k => [Unreg k x] | None => [] end ++ match c with Some k => [Reg k x] | None => [] end.
  Definition reg_of (c : option nat) (old : nat -> option nat) (h : heap) (k x : nat) : option nat :=
    match c with
    | Some k' => if Nat.eqb k k' then Some x else h_reg h k (uuid x)
    | None => match old x with Some k' => if Nat.eqb k k' then None else h_reg h k (uuid x) | None => h_reg h k (uuid x) end
    end.
  Record effect (c : option nat) (R : list nat) (h h' : heap) : Prop := {
    e_tree : same_tree h h';
    e_count : h_count h' = h_count h;
    e_ctx : forall x, h_ctx h' x = if in_dec Nat.eq_dec x R then c else h_ctx h x;
    e_calls : h_calls h' = h_calls h ++ flat_map (calls_of c (h_ctx h)) R;
    e_reg : forall k x, In x R -> h_reg h' k (uuid x) = reg_of c (h_ctx h) h k x;
    e_noreg : forall k u, ~ In u (map uuid R) -> h_reg h' k u = h_reg h k u
  }.
  (** nothing stands against it *)
  Definition ready (c : option nat) (R : list nat) (h : heap) : Prop :=
    forall x, In x R -> (c <> None -> h_ctx h x = None) /\ (forall k, h_ctx h x = Some k -> h_reg h k (uuid x) <> None).

  Lemma flat_map_ext_in {A B} (f g : A -> list B) l : (forall x, In x l -> f x = g x) -> flat_map f l = flat_map g l.
  Proof. intros H. induction l as [|x l IH]; [reflexivity |]. cbn. rewrite H by now left. f_equal. apply IH. intros y I. apply H. now right. Qed.
  Lemma nodup_app_disj {A} (l1 l2 : list A) : NoDup (l1 ++ l2) -> forall x, In x l1 -> In x l2 -> False.
  Proof. induction l1 as [|a l1 IH]; intros N x I1 I2; [destruct I1 |]. inversion N as [|? ? Na Nl]; subst. destruct I1 as [<-|I1]; [apply Na, in_or_app; now right | eapply IH; eauto]. Qed.
  Lemma nodup_app_l {A} (l1 l2 : list A) : NoDup (l1 ++ l2) -> NoDup l1.
  Proof. induction l1 as [|a l1 IH]; intros N; [constructor |]. inversion N as [|? ? Na Nl]; subst. constructor; [| auto]. intros I. apply Na, in_or_app. now left. Qed.
  Lemma nodup_app_r {A} (l1 l2 : list A) : NoDup (l1 ++ l2) -> NoDup l2.
  Proof. induction l1 as [|a l1 IH]; intros N; [exact N |]. inversion N; subst. auto. Qed.
  Lemma uuid_disj R1 R2 x : NoDup (map uuid (R1 ++ R2)) -> In x R1 -> ~ In (uuid x) (map uuid R2).
  Proof. rewrite map_app. intros N I1 I2. eapply nodup_app_disj; eauto. now apply in_map. Qed.
  Lemma uuid_disj' R1 R2 x : NoDup (map uuid (R1 ++ R2)) -> In x R2 -> ~ In (uuid x) (map uuid R1).
  Proof. rewrite map_app. intros N I2 I1. eapply nodup_app_disj; eauto. now apply in_map. Qed.

  Lemma effect_app c R1 R2 h h1 h2 : NoDup (map uuid (R1 ++ R2)) -> effect c R1 h h1 -> effect c R2 h1 h2 -> effect c (R1 ++ R2) h h2.
  Proof.
    intros N [(T1 & T2 & T3 & T4) C X L G Z] [(T1' & T2' & T3' & T4') C' X' L' G' Z'].
    assert (Old : forall x, In x R2 -> h_ctx h1 x = h_ctx h x).
    { intros x I. rewrite X. destruct (in_dec Nat.eq_dec x R1) as [J|]; [| reflexivity]. exfalso. eapply uuid_disj; eauto. now apply in_map. }
    split.
    - repeat split; congruence.
    - congruence.
    - intros x. rewrite X', X. destruct (in_dec Nat.eq_dec x R2) as [I2|I2], (in_dec Nat.eq_dec x R1) as [I1|I1], (in_dec Nat.eq_dec x (R1 ++ R2)) as [I|I];
        try reflexivity; exfalso; rewrite in_app_iff in I; tauto.
    - rewrite L', L, flat_map_app, app_assoc. f_equal. apply flat_map_ext_in. intros x I. unfold calls_of. now rewrite Old.
    - intros k x I. apply in_app_or in I as [I|I].
      + rewrite Z' by (eapply uuid_disj; eauto). now apply G.
      + rewrite G' by exact I. unfold reg_of. rewrite Old by exact I. rewrite (Z k (uuid x)) by (eapply uuid_disj'; eauto). reflexivity.
    - intros k u NI. rewrite map_app, in_app_iff in NI. rewrite Z', Z by tauto. reflexivity.
  Qed.
  Lemma effect_nil c h : effect c [] h h.
  Proof. split; try reflexivity; try (intros ? ? []). repeat split. cbn. now rewrite app_nil_r. Qed.
  Lemma ready_after c R1 R2 h h1 : NoDup (map uuid (R1 ++ R2)) -> effect c R1 h h1 -> ready c (R1 ++ R2) h -> ready c R2 h1.
  Proof.
    intros N [T C X L G Z] Rd x I.
    assert (Old : h_ctx h1 x = h_ctx h x).
    { rewrite X. destruct (in_dec Nat.eq_dec x R1) as [J|]; [| reflexivity]. exfalso. eapply uuid_disj; eauto. now apply in_map. }
    rewrite Old. destruct (Rd x) as [A B]; [apply in_or_app; now right |]. split; [exact A |]. intros k E. rewrite Z by (eapply uuid_disj'; eauto). now apply B.
  Qed.

  Lemma set_context_tree c t : forall f h, shape h t -> NoDup (map uuid (refs t)) -> depth t <= f -> ready c (refs t) h ->
    exists h', set_context f c (root t) h = (h', Ok tt) /\ effect c (refs t) h h'.
  Proof.
    induction t as [r ts IH] using tree_induct. intros f h S N D Rd. inversion S as [? ? Ch F]; subst. cbn [refs root] in *.
    destruct f as [|f]; [cbn in D; lia |].
    assert (NI : ~ In r (flat_map refs ts)).
    { intros I. apply (uuid_disj' (flat_map refs ts) [r] r N); [now left | now apply in_map]. }
    assert (P : forall ts h0, Forall (fun t => forall f h, shape h t -> NoDup (map uuid (refs t)) -> depth t <= f -> ready c (refs t) h ->
                    exists h', set_context f c (root t) h = (h', Ok tt) /\ effect c (refs t) h h') ts ->
                Forall (shape h0) ts -> NoDup (map uuid (flat_map refs ts)) -> fold_right (fun t n => Nat.max (depth t) n) 0 ts <= f ->
                ready c (flat_map refs ts) h0 ->
                exists h1, pass f c (map root ts) (h0, Ok tt) = (h1, Ok tt) /\ effect c (flat_map refs ts) h0 h1).
    { clear. induction ts as [|t ts IHts]; intros h0 IH F N D Rd; [exists h0; split; [reflexivity | apply effect_nil] |].
      inversion IH as [|? ? Ht IH']; inversion F as [|? ? St F']; subst. cbn in N, D.
      destruct (Ht f h0 St) as (h1 & E1 & Ef1).
      - rewrite map_app in N. now apply nodup_app_l in N.
      - lia.
      - intros x I. apply Rd. cbn. apply in_or_app. now left.
      - destruct (IHts h1 IH') as (h2 & E2 & Ef2).
        + destruct Ef1 as [(_ & T2 & T3 & _) _ _ _ _ _]. eapply Forall_impl; [| exact F']. intros t'. now apply shape_ext.
        + rewrite map_app in N. now apply nodup_app_r in N.
        + lia.
        + eapply ready_after; eauto.
        + exists h2. cbn [map]. rewrite pass_cons, E1. split; [exact E2 |]. cbn. now apply (effect_app c _ _ h0 h1). }
    destruct (P ts (set_ctx r c h)) as (h1 & E1 & Ef1); clear P.
    - exact IH.
    - eapply Forall_impl; [| exact F]. intros t'. now apply shape_ext.
    - rewrite map_app in N. now apply nodup_app_l in N.
    - cbn in D. lia.
    - intros x I. cbn [h_ctx set_ctx h_reg]. rewrite upd_neq by (intros ->; contradiction). apply Rd, in_or_app. now left.
    - destruct (Rd r ltac:(apply in_or_app; right; now left)) as [R1 R2]. destruct Ef1 as [(T1 & T2 & T3 & T4) C X L G Z]. cbn [h_parent h_items h_rels h_storage h_count h_ctx h_calls h_reg set_ctx] in *.
      assert (Ctx : forall x, h_ctx h1 x = if in_dec Nat.eq_dec x (flat_map refs ts ++ [r]) then c else h_ctx h x).
      { intros x. rewrite X. destruct (in_dec Nat.eq_dec x (flat_map refs ts)) as [I|I], (in_dec Nat.eq_dec x (flat_map refs ts ++ [r])) as [J|J];
          rewrite in_app_iff in J; cbn in J; try tauto. - destruct J as [J|[<-|[]]]; [tauto | now rewrite upd_eq].
        - rewrite upd_neq; [reflexivity |]. intros ->. apply J. right. now left. }
      assert (Old : forall x, In x (flat_map refs ts) -> upd (h_ctx h) r c x = h_ctx h x) by (intros x I; apply upd_neq; intros ->; contradiction).
      assert (Lg : h_calls h1 = h_calls h ++ flat_map (calls_of c (h_ctx h)) (flat_map refs ts)).
      { rewrite L. f_equal. apply flat_map_ext_in. intros x I. unfold calls_of. now rewrite Old. }
      assert (Gx : forall k x, In x (flat_map refs ts) -> h_reg h1 k (uuid x) = reg_of c (h_ctx h) h k x).
      { intros k x I. rewrite G by exact I. unfold reg_of. now rewrite Old. }
      assert (Zr : forall k, h_reg h1 k (uuid r) = h_reg h k (uuid r)).
      { intros k. apply Z. eapply uuid_disj'; [exact N |]. now left. }
      assert (Ne : forall x, In x (flat_map refs ts) -> uuid x <> uuid r).
      { intros x I E. apply (uuid_disj (flat_map refs ts) [r] x N I). left. now symmetry. }
      assert (E1' : fold_left (fun o x => andthen o (set_context f c x)) (children h r) (set_ctx r c h, Ok tt) = (h1, Ok tt)) by (rewrite Ch; exact E1).
      assert (Fin : forall h2, same_tree h1 h2 -> h_count h2 = h_count h1 -> h_ctx h2 = h_ctx h1 -> h_calls h2 = h_calls h1 ++ calls_of c (h_ctx h) r ->
                (forall k u, h_reg h2 k u = if Nat.eqb u (uuid r) then reg_of c (h_ctx h) h k r else h_reg h1 k u) ->
                effect c (flat_map refs ts ++ [r]) h h2).
      { intros h2 (A1 & A2 & A3 & A4) A5 A6 A7 A8. split.
        - repeat split; congruence.
        - congruence.
        - intros x. now rewrite A6.
        - rewrite A7, Lg, flat_map_app, <- app_assoc. cbn. now rewrite app_nil_r.
        - intros k x I. rewrite A8. apply in_app_or in I as [I|[<-|[]]].
          + destruct (Nat.eqb_spec (uuid x) (uuid r)) as [E|]; [exfalso; now apply (Ne x I) | now apply Gx].
          + now rewrite Nat.eqb_refl.
        - intros k u NU. rewrite map_app, in_app_iff in NU. cbn in NU. rewrite A8. destruct (Nat.eqb_spec u (uuid r)) as [->|]; [tauto |]. apply Z. tauto. }
      cbn [PersistHeap_Model.set_context]. destruct c as [k|].
      + rewrite R1 in * by discriminate. rewrite E1'. cbn [andthen]. unfold register. eexists. split; [reflexivity |]. apply Fin; try reflexivity; [repeat split | |].
        * cbn. unfold calls_of. now rewrite R1 by discriminate.
        * intros k' u. cbn. unfold reg_of, upd. destruct (Nat.eqb_spec k' k) as [->|], (Nat.eqb_spec u (uuid r)) as [->|]; auto.
      + rewrite E1'. cbn [andthen]. destruct (h_ctx h r) as [k|] eqn:Hr; cbn [andthen].
        * unfold unregister. cbn [h_reg add_call]. rewrite Zr. destruct (h_reg h k (uuid r)) as [z|] eqn:Hz; [| exfalso; now apply (R2 k)].
          cbn [andthen]. eexists. split; [reflexivity |]. apply Fin; try reflexivity; [repeat split | |].
          -- cbn. unfold calls_of. now rewrite Hr.
          -- intros k' u. cbn. unfold reg_of, upd. rewrite Hr. destruct (Nat.eqb_spec k' k) as [->|], (Nat.eqb_spec u (uuid r)) as [->|]; auto.
        * eexists. split; [reflexivity |]. apply Fin; try reflexivity; [repeat split | |].
          -- unfold calls_of. rewrite Hr. now rewrite app_nil_r.
          -- intros k u. unfold reg_of. rewrite Hr. destruct (Nat.eqb_spec u (uuid r)) as [->|]; auto.
  Qed.

  (** if it succeeded there was a tree *)
  Lemma set_context_shape f c r h h' : set_context f c r h = (h', Ok tt) -> exists t, root t = r /\ shape h t /\ depth t <= f.
  Proof.
    revert r h h'. induction f as [|f IH]; intros r h h' E; [discriminate |]. cbn [PersistHeap_Model.set_context] in E.
    assert (P : forall xs h0 h1, h_items h0 = h_items h -> h_rels h0 = h_rels h -> pass f c xs (h0, Ok tt) = (h1, Ok tt) ->
              exists ts, xs = map root ts /\ Forall (shape h) ts /\ fold_right (fun t n => Nat.max (depth t) n) 0 ts <= f).
    { induction xs as [|x xs IHx]; intros h0 h1 E1 E2 Ep; [exists []; repeat split; [constructor | cbn; lia] |].
      rewrite pass_cons in Ep. pose proof (set_context_frame f c x h0) as [(_ & A2 & A3 & _) _].
      destruct (set_context f c x h0) as [h2 [[]|e]] eqn:Ex; [| rewrite pass_err in Ep; discriminate]. cbn in A2, A3.
      destruct (IH x h0 h2 Ex) as (t & Rt & St & Dt). destruct (IHx h2 h1) as (ts & -> & Fs & Ds); try congruence.
      exists (t :: ts). cbn. rewrite Rt. repeat split; [constructor; auto; eapply shape_ext; [| | exact St]; congruence | lia]. }
    assert (Q : exists h1, pass f c (children h r) (set_ctx r c h, Ok tt) = (h1, Ok tt)).
    { unfold pass. destruct (h_ctx h r) as [k|], c as [k'|]; try discriminate;
      destruct (fold_left _ (children h r) _) as [h1 [[]|e]]; try discriminate E; eauto. }
    destruct Q as (h1 & Q). destruct (P _ (set_ctx r c h) _ eq_refl eq_refl Q) as (ts & Ec & Fs & Ds). exists (Node r ts). cbn. split; [reflexivity |]. split; [now constructor | lia].
  Qed.
End Ctx.
