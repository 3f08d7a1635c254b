(** Properties C71, C74 and C75 of PersistentObject trees. *)
From Coq Require Import String ZArith Bool List Lia Arith Setoid.
From Verif Require Import PyBase PersistHeap_Model PersistHeap_Spec PersistHeap_Proofs PersistHeap_Proofs2.
Import ListNotations.

(** ** C75 *)
(** The handler of an object is its own, else that of the nearest ancestor that has one, else None. *)
Theorem heap_storage (h : heap) (c r : nat) (l : list nat) (fuel : nat) :
  chain h r l -> length l < fuel -> get_storage fuel c r h = Ok (first_storage (h_storage h c) (r :: l)).
Proof.
  intros C. revert fuel. induction C as [r E|r p l E C IH]; intros fuel L; (destruct fuel as [|f]; [cbn in L; lia |]); cbn.
  - rewrite E. now destruct (h_storage h c r).
  - rewrite E. destruct (h_storage h c r); [reflexivity |]. rewrite IH by (cbn in L; lia). reflexivity.
Qed.

(** ** C71 *)
Lemma with_storage_frame fuel r f h : (forall c h, same_tree h (fst (f c h)) /\ h_count (fst (f c h)) = h_count h) ->
  same_tree h (fst (with_storage fuel r f h)) /\ h_count (fst (with_storage fuel r f h)) = h_count h.
Proof.
  intros H. unfold with_storage. destruct (h_ctx h r) as [c|]; [| now repeat split].
  destruct (get_storage fuel c r h) as [[s|]|e]; [apply H | now repeat split | now repeat split].
Qed.

Section Steps.
  Variable uuid : nat -> nat.
  Notation step := (step uuid).
  Lemma dict_get_in_keys {V} k (d : list (string * V)) : In k (map fst d) -> exists v, dict_get string_dec k d = Some v.
  Proof. intros I. destruct (dict_get string_dec k d) eqn:E; [eauto |]. now apply dict_get_none in E. Qed.
  Lemma remove_first_in x l : In x l -> exists l', remove_first x l = Some l'.
  Proof.
    induction l as [|y l IH]; [intros [] |]. intros I. cbn. destruct (Nat.eqb_spec y x) as [|N]; [eauto |].
    destruct IH as (l' & ->); [destruct I; [congruence | assumption] | eauto].
  Qed.
  Lemma set_context_count f c r h : h_count (fst (set_context uuid f c r h)) = h_count h.
  Proof. apply set_context_frame. Qed.

  (** the changed object and its ancestors are counted once, and no other *)
  Theorem heap_modified (fuel : nat) (h : heap) (o : op) (r : nat) (l : list nat) :
    changed o = Some r -> names_ok h o -> chain h r l -> length l < fuel ->
    forall x, h_count (fst (step fuel h o)) x = h_count h x + (if in_dec Nat.eq_dec x (r :: l) then 1 else 0).
  Proof.
    intros Ch Nm C L x.
    assert (G : forall h0 k, h_parent h0 = h_parent h -> h_count h0 = h_count h -> (forall h1, h_count (fst (k h1)) = h_count h1) ->
              h_count (fst (andthen (update_modified fuel r h0) k)) x = h_count h x + (if in_dec Nat.eq_dec x (r :: l) then 1 else 0)).
    { intros h0 k P E Hk. assert (C0 : chain h0 r l) by (eapply chain_ext; [| exact C]; intros z; now rewrite P).
      destruct (update_modified_count fuel r h0 l C0 L) as [Ok' Cnt]. destruct (update_modified fuel r h0) as [h1 [[]|e]]; [| discriminate].
      cbn [andthen fst] in *. now rewrite Hk, Cnt, E. }
    assert (W : forall f h1, (forall c h, same_tree h (fst (f c h)) /\ h_count (fst (f c h)) = h_count h) -> h_count (fst (with_storage fuel r f h1)) = h_count h1).
    { intros f h1 H. now apply with_storage_frame. }
    destruct o as [r'|r' n v|r' n i v|r' n v|r' c|c r' s]; cbn in Ch; try discriminate; injection Ch as ->; cbn [PersistHeap_Model.step].
    - apply G; auto. intros h1. apply W. now repeat split.
    - unfold set_item. destruct (dict_get_in_keys n (h_items h r) Nm) as (old & ->). apply G; auto. intros h1. rewrite W.
      + now destruct v.
      + intros c h2. destruct v; [apply set_context_frame | now repeat split].
    - unfold insert_item. destruct (dict_get_in_keys n (h_rels h r) Nm) as (old & ->). apply G; auto. intros h1. rewrite W; [reflexivity |].
      intros c h2. apply set_context_frame.
    - unfold remove_item. destruct Nm as (old & -> & I). destruct (remove_first_in v old I) as (l' & ->). apply G; auto. intros h1.
      pose proof (set_context_count fuel None v h1) as A1. destruct (set_context uuid fuel None v h1) as [h2 [[]|e]]; cbn [andthen fst] in *; [| exact A1].
      pose proof (W (fun _ h => set_context uuid fuel None v h) h2 ltac:(intros; apply set_context_frame)) as A2.
      destruct (with_storage fuel r _ h2) as [h3 [[]|e]]; cbn [andthen fst] in *; cbn; congruence.
  Qed.

  (** Setting a context or a handler, and an operation that names what does not exist, change no count. *)
  Theorem heap_unmodified (fuel : nat) (h : heap) (o : op) :
    changed o = None \/ ~ names_ok h o -> h_count (fst (step fuel h o)) = h_count h.
  Proof.
    intros H. destruct o as [r|r n v|r n i v|r n v|r c|c r s]; cbn [PersistHeap_Model.step].
    - destruct H as [H|H]; [discriminate | exfalso; now apply H].
    - destruct H as [H|H]; [discriminate |]. unfold set_item. apply (dict_get_none string_dec) in H. now rewrite H.
    - destruct H as [H|H]; [discriminate |]. unfold insert_item. apply (dict_get_none string_dec) in H. now rewrite H.
    - destruct H as [H|H]; [discriminate |]. unfold remove_item. destruct (dict_get string_dec n (h_rels h r)) as [l|] eqn:E; [| reflexivity].
      destruct (remove_first v l) as [l'|] eqn:F; [| reflexivity]. exfalso. apply H. exists l. split; [exact E |]. clear -F.
      revert l' F. induction l as [|y l IH]; intros l' F; [discriminate |]. cbn in F. destruct (Nat.eqb_spec y v) as [->|]; [now left |].
      destruct (remove_first v l) as [l2|]; [| discriminate]. right. now apply (IH l2).
    - apply set_context_count.
    - reflexivity.
  Qed.

  (** the parents after an operation, whether or not it raised *)
  Lemma step_parent fuel h o :
    let p := h_parent (fst (step fuel h o)) in
    p = h_parent h \/
    match o with
    | SetItem r _ (Some x) | InsertItem r _ _ x => p = upd (h_parent h) x (Some r)
    | RemoveItem r _ x => p = upd (h_parent h) x None
    | _ => False
    end.
  Proof.
    assert (U : forall h0 k, h_parent h0 = h_parent h ->
              h_parent (fst (andthen (update_modified fuel k h0) (fun h => (h, Ok tt)))) = h_parent h /\
              forall h1, update_modified fuel k h0 = (h1, Ok tt) -> h_parent h1 = h_parent h).
    { intros h0 k E. destruct (update_modified_frame fuel k h0) as ((A & _) & _). destruct (update_modified fuel k h0) as [h1 [[]|e]]; cbn in *; split; congruence. }
    assert (W : forall k f h1, (forall c h, same_tree h (fst (f c h)) /\ h_count (fst (f c h)) = h_count h) -> h_parent (fst (with_storage fuel k f h1)) = h_parent h1).
    { intros k f h1 H. now apply with_storage_frame. }
    assert (G : forall h0 k f (P : (nat -> option nat) -> Prop), h_parent h0 = h_parent h -> P (h_parent h) ->
              (forall h1, h_parent h1 = h_parent h -> P (h_parent (fst (f h1)))) -> P (h_parent (fst (andthen (update_modified fuel k h0) f)))).
    { intros h0 k f P E P0 Hf. destruct (U h0 k E) as [U1 U2]. destruct (update_modified fuel k h0) as [h1 [[]|e]]; cbn in *; [apply Hf; now apply U2 | now rewrite U1]. }
    cbv zeta. destruct o as [r|r n v|r n i v|r n v|r c|c r s]; cbn [PersistHeap_Model.step].
    - unfold set_property. apply G; auto. intros h1 E. left. rewrite W; [exact E | now repeat split].
    - unfold set_item. destruct (dict_get string_dec n (h_items h r)); [| now left]. apply G; auto. intros h1 E. rewrite W.
      + destruct v as [x|]; cbn; [right; now rewrite E | now left].
      + intros c h2. destruct v; [apply set_context_frame | now repeat split].
    - unfold insert_item. destruct (dict_get string_dec n (h_rels h r)); [| now left]. apply G; auto. intros h1 E. rewrite W.
      + cbn. right. now rewrite E.
      + intros c h2. apply set_context_frame.
    - unfold remove_item. destruct (dict_get string_dec n (h_rels h r)) as [l|]; [| now left]. destruct (remove_first v l); [| now left].
      apply G; auto. intros h1 E. destruct (set_context_frame uuid fuel None v h1) as [(A1 & _) _].
      destruct (set_context uuid fuel None v h1) as [h2 [[]|e]]; cbn [andthen fst] in *; [| left; congruence].
      pose proof (W r (fun _ h => set_context uuid fuel None v h) h2 ltac:(intros; apply set_context_frame)) as A2.
      destruct (with_storage fuel r _ h2) as [h3 [[]|e]]; cbn [andthen fst] in *; [right; cbn; congruence | left; congruence].
    - left. apply set_context_frame.
    - now left.
  Qed.

  Lemma acyclic_add h h' x r : acyclic h -> h_parent h' = upd (h_parent h) x (Some r) -> (forall l, chain h r l -> ~ In x (r :: l)) -> acyclic h'.
  Proof.
    intros A E N y. destruct (A r) as (lr & Cr). specialize (N lr Cr).
    assert (Cr' : chain h' r lr).
    { clear -Cr N E. revert E. generalize (Some r) at 1. intros o E. induction Cr as [r E0|r p l E0 C IH].
      - apply chain_root. rewrite E, upd_neq; [exact E0 |]. intros ->. apply N. now left.
      - apply (chain_up h' r p l); [rewrite E, upd_neq; [exact E0 |]; intros ->; apply N; now left |]. apply IH. intros I; apply N; now right. }
    destruct (A y) as (l & C). induction C as [y E0|y p l E0 C (l' & IH)].
    - destruct (Nat.eq_dec y x) as [->|Ny].
      + exists (r :: lr). apply chain_up; [now rewrite E, upd_eq | exact Cr'].
      + exists []. apply chain_root. now rewrite E, upd_neq.
    - destruct (Nat.eq_dec y x) as [->|Ny].
      + exists (r :: lr). apply chain_up; [now rewrite E, upd_eq | exact Cr'].
      + exists (p :: l'). apply chain_up; [now rewrite E, upd_neq | exact IH].
  Qed.
  Lemma acyclic_cut h h' x : acyclic h -> h_parent h' = upd (h_parent h) x None -> acyclic h'.
  Proof.
    intros A E y. destruct (A y) as (l & C). induction C as [y E0|y p l E0 C (l' & IH)]; (destruct (Nat.eq_dec y x) as [->|Ny]; [exists []; apply chain_root; now rewrite E, upd_eq |]).
    - exists []. apply chain_root. now rewrite E, upd_neq.
    - exists (p :: l'). apply chain_up; [now rewrite E, upd_neq | exact IH].
  Qed.
  Lemma acyclic_same h h' : acyclic h -> h_parent h' = h_parent h -> acyclic h'.
  Proof. intros A E y. destruct (A y) as (l & C). exists l. eapply chain_ext; [| exact C]. intros z. now rewrite E. Qed.

  (** After any history without cycles every object has finitely many ancestors, so the two theorems above apply. *)
  Theorem heap_forest (items rels : nat -> list string) (h : heap) :
    reachable uuid items rels h -> forall r, exists l, chain h r l.
  Proof.
    induction 1 as [|fuel h o R IH N]; [intros r; exists []; now apply chain_root |]. change (acyclic (fst (step fuel h o))). change (acyclic h) in IH.
    pose proof (step_parent fuel h o) as P. cbv zeta in P. destruct P as [P|P]; [eapply acyclic_same; eauto |].
    destruct o as [r|r n [x|]|r n i x|r n x|r c|c r s]; try (exfalso; exact P).
    - eapply acyclic_add; eauto.
    - eapply acyclic_add; eauto.
    - eapply acyclic_cut; eauto.
  Qed.

  (** ** C74: one call *)
  (** Setting the context of the root of a tree without contexts sets it for exactly the objects of the tree and
      registers each of them once, children first. *)
  Theorem heap_set_context (h : heap) (t : tree) (k fuel : nat) :
    shape h t -> NoDup (map uuid (refs t)) -> depth t <= fuel -> (forall x, In x (refs t) -> h_ctx h x = None) ->
    exists h', set_context uuid fuel (Some k) (root t) h = (h', Ok tt) /\
      (forall x, h_ctx h' x = if in_dec Nat.eq_dec x (refs t) then Some k else h_ctx h x) /\
      h_calls h' = h_calls h ++ map (Reg k) (refs t) /\
      (forall x, In x (refs t) -> h_reg h' k (uuid x) = Some x) /\
      (forall c u, c <> k \/ ~ In u (map uuid (refs t)) -> h_reg h' c u = h_reg h c u).
  Proof.
    intros S N D E. destruct (set_context_tree uuid (Some k) t fuel h S N D) as (h' & Es & [T C X L G Z]).
    - intros x I. split; [now intros _; apply E | intros k' Ek; rewrite E in Ek by exact I; discriminate].
    - exists h'. split; [exact Es |]. split; [exact X |]. split; [| split].
      + rewrite L. f_equal. clear -E. induction (refs t) as [|x l IH]; [reflexivity |]. cbn. unfold calls_of at 1. rewrite E by now left. cbn. f_equal.
        apply IH. intros y I. apply E. now right.
      + intros x I. rewrite G by exact I. unfold reg_of. now rewrite Nat.eqb_refl.
      + intros c u [Nc|Nu]; [| now apply Z]. destruct (in_dec Nat.eq_dec u (map uuid (refs t))) as [I|I]; [| now apply Z].
        apply in_map_iff in I as (x & <- & I). rewrite G by exact I. unfold reg_of. apply Nat.eqb_neq in Nc. now rewrite Nc.
  Qed.
  (** Setting it to None unregisters each of them once. *)
  Theorem heap_clear_context (h : heap) (t : tree) (k fuel : nat) :
    shape h t -> NoDup (map uuid (refs t)) -> depth t <= fuel ->
    (forall x, In x (refs t) -> h_ctx h x = Some k /\ h_reg h k (uuid x) <> None) ->
    exists h', set_context uuid fuel None (root t) h = (h', Ok tt) /\
      (forall x, h_ctx h' x = if in_dec Nat.eq_dec x (refs t) then None else h_ctx h x) /\
      h_calls h' = h_calls h ++ map (Unreg k) (refs t) /\
      (forall x, In x (refs t) -> h_reg h' k (uuid x) = None) /\
      (forall c u, c <> k \/ ~ In u (map uuid (refs t)) -> h_reg h' c u = h_reg h c u).
  Proof.
    intros S N D E. destruct (set_context_tree uuid None t fuel h S N D) as (h' & Es & [T C X L G Z]).
    - intros x I. destruct (E x I) as [E1 E2]. split; [congruence | intros k' Ek; congruence].
    - exists h'. split; [exact Es |]. split; [exact X |]. split; [| split].
      + rewrite L. f_equal. clear -E. induction (refs t) as [|x l IH]; [reflexivity |]. cbn. unfold calls_of at 1. destruct (E x (or_introl eq_refl)) as [-> _]. cbn. f_equal.
        apply IH. intros y I. apply E. now right.
      + intros x I. rewrite G by exact I. unfold reg_of. destruct (E x I) as [-> _]. now rewrite Nat.eqb_refl.
      + intros c u [Nc|Nu]; [| now apply Z]. destruct (in_dec Nat.eq_dec u (map uuid (refs t))) as [I|I]; [| now apply Z].
        apply in_map_iff in I as (x & <- & I). rewrite G by exact I. unfold reg_of. destruct (E x I) as [-> _]. apply Nat.eqb_neq in Nc. now rewrite Nc.
  Qed.
  (** A context is not replaced by another: the assertion fails and nothing changes. *)
  Theorem heap_context_assert (h : heap) (r k k' fuel : nat) :
    h_ctx h r = Some k -> set_context uuid (S fuel) (Some k') r h = (h, Err AssertionError).
  Proof. intros E. cbn. now rewrite E. Qed.
End Steps.

(** ** C74: histories *)
Section History.
  Variable uuid : nat -> nat.
  Hypothesis uuid_inj : forall x y, uuid x = uuid y -> x = y.
  Notation good := (good uuid). Notation registered := (registered uuid).
  Notation cnt := (count_occ Nat.eq_dec).

  Definition item_refs (d : list (string * option nat)) : list nat := flat_map (fun p => match snd p with Some x => [x] | None => [] end) d.
  Definition rel_refs (d : list (string * list nat)) : list nat := flat_map snd d.
  Definition one (x y : nat) : nat := if Nat.eq_dec x y then 1 else 0.
  Lemma cnt_cons x l y : cnt (x :: l) y = one x y + cnt l y.
  Proof. cbn. unfold one. destruct (Nat.eq_dec x y); reflexivity. Qed.
  Lemma items_set_none n d y : dict_get string_dec n d = Some None -> cnt (item_refs (dict_set string_dec n None d)) y = cnt (item_refs d) y.
  Proof.
    induction d as [|[k v] d IH]; cbn [dict_get dict_set]; [discriminate |]. destruct (string_dec n k) as [->|]; intros E.
    - now injection E as ->.
    - unfold item_refs. cbn [flat_map snd]. rewrite !count_occ_app. f_equal. now apply IH.
  Qed.
  Lemma items_set_some n d x y : dict_get string_dec n d = Some None -> cnt (item_refs (dict_set string_dec n (Some x) d)) y = one x y + cnt (item_refs d) y.
  Proof.
    induction d as [|[k v] d IH]; cbn [dict_get dict_set]; [discriminate |]. destruct (string_dec n k) as [->|]; intros E.
    - injection E as ->. unfold item_refs. cbn [flat_map snd app]. now rewrite cnt_cons.
    - unfold item_refs. cbn [flat_map snd]. rewrite !count_occ_app. fold (item_refs d) (item_refs (dict_set string_dec n (Some x) d)). rewrite IH by exact E. lia.
  Qed.
  Lemma rels_set n d l l' y : dict_get string_dec n d = Some l -> cnt (rel_refs (dict_set string_dec n l' d)) y + cnt l y = cnt (rel_refs d) y + cnt l' y.
  Proof.
    induction d as [|[k v] d IH]; cbn [dict_get dict_set]; [discriminate |]. destruct (string_dec n k) as [->|]; intros E.
    - injection E as ->. unfold rel_refs. cbn [flat_map snd]. rewrite !count_occ_app. lia.
    - unfold rel_refs. cbn [flat_map snd]. rewrite !count_occ_app. fold (rel_refs d) (rel_refs (dict_set string_dec n l' d)). specialize (IH E). lia.
  Qed.
  Lemma insert_cnt i x l y : cnt (py_insert i x l) y = one x y + cnt l y.
  Proof. unfold py_insert, insert_at. rewrite count_occ_app, cnt_cons. pose proof (f_equal (fun l => cnt l y) (firstn_skipn (py_insert_pos (length l) i) l)) as X. cbv beta in X. rewrite count_occ_app in X. lia. Qed.
  Lemma remove_cnt x l l' y : remove_first x l = Some l' -> cnt l y = one x y + cnt l' y.
  Proof.
    revert l'. induction l as [|z l IH]; intros l' E; [discriminate |]. cbn in E. destruct (Nat.eqb_spec z x) as [->|].
    - injection E as <-. apply cnt_cons.
    - destruct (remove_first x l) as [l2|]; [| discriminate]. injection E as <-. rewrite !cnt_cons, (IH l2 eq_refl). lia.
  Qed.
  Lemma children_split h r : children h r = item_refs (h_items h r) ++ rel_refs (h_rels h r).
  Proof. reflexivity. Qed.

  Lemma good_frame h h' : good h -> same_tree h h' -> h_ctx h' = h_ctx h -> h_reg h' = h_reg h -> good h'.
  Proof.
    intros (A & L & B & R) (E1 & E2 & E3 & _) E4 E5. split; [| split; [| split]].
    - intros r. destruct (A r) as (l & C). exists l. eapply chain_ext; [| exact C]. intros z. now rewrite E1.
    - intros r x. unfold isp. rewrite (children_ext h h') by assumption. rewrite E1. apply L.
    - intros y p. rewrite E1, E4. apply B.
    - intros c u x. rewrite E4, E5. apply R.
  Qed.
  Lemma update_ok fuel r h h' : update_modified fuel r h = (h', Ok tt) -> same_tree h h' /\ h_ctx h' = h_ctx h /\ h_reg h' = h_reg h.
  Proof. intros E. destruct (update_modified_frame fuel r h) as (A & B & C & _). rewrite E in *. auto. Qed.
  Lemma linked_same h h' : linked h -> same_tree h h' -> linked h'.
  Proof. intros L (E1 & E2 & E3 & _) r x. unfold isp. rewrite (children_ext h h') by assumption. rewrite E1. apply L. Qed.

  (** adding [x] below [r]: the tree before any context is set *)
  Lemma add_tree h h' x r :
    good h -> h_parent h x = None -> h_ctx h x = None -> (forall l, chain h r l -> ~ In x (r :: l)) ->
    h_parent h' = upd (h_parent h) x (Some r) -> h_ctx h' = h_ctx h -> h_reg h' = h_reg h ->
    (forall y z, cnt (children h' y) z = cnt (children h y) z + (if Nat.eqb y r then one x z else 0)) ->
    acyclic h' /\ linked h' /\ shared_but (Some x) h' /\ registered h' /\ h_parent h' x = Some r /\ h_ctx h' x = None /\ x <> r.
  Proof.
    intros (A & L & B & R) Px Cx N E1 E2 E3 E4. split; [| split; [| split; [| split; [| split; [| split]]]]].
    - eapply acyclic_add; eauto.
    - intros y z. rewrite E4, L. unfold isp. rewrite E1. unfold one. destruct (Nat.eq_dec x z) as [<-|Nz].
      + rewrite upd_eq, Px. destruct (Nat.eqb_spec y r) as [->|Ny]; [now rewrite Nat.eqb_refl | destruct (Nat.eqb_spec r y); [congruence | reflexivity]].
      + rewrite upd_neq by congruence. destruct (Nat.eqb y r); lia.
    - intros y p Ny E. rewrite E1, upd_neq in E by congruence. rewrite E2. apply B; [discriminate | exact E].
    - intros c u z. rewrite E2, E3. apply R.
    - now rewrite E1, upd_eq.
    - now rewrite E2.
    - intros ->. destruct (A r) as (l & C). apply (N l C). now left.
  Qed.
  (** then the storage handler's part *)
  Lemma add_context fuel x r h h' :
    acyclic h -> linked h -> shared_but (Some x) h -> registered h -> h_parent h x = Some r -> h_ctx h x = None -> x <> r ->
    with_storage fuel r (fun c h => set_context uuid fuel (Some c) x h) h = (h', Ok tt) -> good h'.
  Proof.
    intros A L B R P C N E. unfold with_storage in E. destruct (h_ctx h r) as [c|] eqn:Cr.
    - destruct (get_storage fuel c r h) as [[s|]|e]; try discriminate. eapply good_set_context; eauto; intros r' E'; congruence.
    - injection E as <-. split; [exact A |]. split; [exact L |]. split; [| exact R]. intros y p _ Ep.
      destruct (Nat.eq_dec y x) as [->|Ny]; [congruence | apply B; [congruence | exact Ep]].
  Qed.

  Lemma effect_parent c R x p h h' : effect uuid c R h h' -> effect uuid c R (set_parent x p h) (set_parent x p h').
  Proof. intros [(T1 & T2 & T3 & T4) C X L G Z]. split; cbn in *; auto. repeat split; cbn; congruence. Qed.
  Lemma effect_again R h h1 h2 : effect uuid None R h h1 -> effect uuid None R h1 h2 -> effect uuid None R h h2.
  Proof.
    intros [(T1 & T2 & T3 & T4) C X L G Z] [(T1' & T2' & T3' & T4') C' X' L' G' Z'].
    assert (N : forall x, In x R -> h_ctx h1 x = None) by (intros x I; rewrite X; destruct (in_dec Nat.eq_dec x R); tauto).
    split.
    - repeat split; congruence.
    - congruence.
    - intros x. rewrite X', X. now destruct (in_dec Nat.eq_dec x R).
    - rewrite L', L. rewrite <- app_nil_r. f_equal. clear -N. induction R as [|x R IH]; [reflexivity |]. cbn. unfold calls_of at 1. rewrite N by now left.
      cbn. apply IH. intros y I. apply N. now right.
    - intros k x I. rewrite G' by exact I. unfold reg_of at 1. rewrite N by exact I. now apply G.
    - intros k u NU. now rewrite Z', Z.
  Qed.

  Lemma proper_step fuel h o h' : good h -> proper h o -> step uuid fuel h o = (h', Ok tt) -> good h'.
  Proof.
    intros Gd [Nc Pr] E. pose proof Gd as (A & L & B & R). destruct o as [r|r n v|r n i x|r n x|r c|c r s]; cbn [step] in E.
    - unfold set_property in E. destruct (update_modified fuel r h) as [h1 [[]|e]] eqn:U; [| discriminate]. destruct (update_ok _ _ _ _ U) as (T & Ec & Er).
      cbn [andthen] in E. assert (h' = h1) as ->; [| now apply (good_frame h)].
      unfold with_storage in E. destruct (h_ctx h1 r) as [c|]; [destruct (get_storage fuel c r h1) as [[s|]|e] |]; congruence.
    - unfold set_item in E. destruct (dict_get string_dec n (h_items h r)) as [old|] eqn:G; [| discriminate]. destruct Pr as [Em Pr].
      destruct old as [y|]; [exfalso; now apply (Em y) |]. set (h0 := set_items r _ h) in E.
      destruct (update_modified fuel r h0) as [h1 [[]|e]] eqn:U; [| discriminate]. destruct (update_ok _ _ _ _ U) as ((T1 & T2 & T3 & T4) & Ec & Er). cbn [andthen] in E.
      destruct v as [x|].
      + destruct Pr as [Px Cx].
        destruct (add_tree h (set_parent x (Some r) h1) x r) as (A1 & L1 & B1 & R1 & P1 & C1 & N1); auto; try (cbn; congruence).
        * cbn. now rewrite T1.
        * intros y z. rewrite !children_split. cbn [h_items h_rels set_parent]. rewrite T2, T3. unfold h0. cbn [h_items h_rels h_parent set_items set_rels]. unfold upd. rewrite !count_occ_app.
          destruct (Nat.eqb_spec y r) as [->|]; [rewrite items_set_some by exact G; lia | lia].
        * eapply add_context; eauto.
      + assert (h' = h1) as ->.
        { unfold with_storage in E. destruct (h_ctx h1 r) as [c|]; [destruct (get_storage fuel c r h1) as [[s|]|e] |]; congruence. }
        split; [| split; [| split]].
        * eapply acyclic_same; [exact A | now rewrite T1].
        * intros y z. rewrite children_split, T2, T3. unfold isp. rewrite T1. unfold h0. cbn [h_items h_rels h_parent set_items set_rels]. unfold upd. rewrite count_occ_app.
          destruct (Nat.eqb_spec y r) as [->|]; [rewrite items_set_none by exact G |]; rewrite <- count_occ_app, <- children_split; apply L.
        * intros y p. rewrite T1, Ec. apply B.
        * intros c u z. rewrite Ec, Er. apply R.
    - unfold insert_item in E. destruct (dict_get string_dec n (h_rels h r)) as [l|] eqn:G; [| discriminate]. destruct Pr as [Px Cx]. set (h0 := set_rels r _ h) in E.
      destruct (update_modified fuel r h0) as [h1 [[]|e]] eqn:U; [| discriminate]. destruct (update_ok _ _ _ _ U) as ((T1 & T2 & T3 & T4) & Ec & Er). cbn [andthen] in E.
      destruct (add_tree h (set_parent x (Some r) h1) x r) as (A1 & L1 & B1 & R1 & P1 & C1 & N1); auto; try (cbn; congruence).
      + cbn. now rewrite T1.
      + intros y z. rewrite !children_split. cbn [h_items h_rels set_parent]. rewrite T2, T3. unfold h0. cbn [h_items h_rels h_parent set_items set_rels]. unfold upd. rewrite !count_occ_app.
        destruct (Nat.eqb_spec y r) as [->|]; [| lia]. pose proof (rels_set n (h_rels h r) l (py_insert i x l) z G) as X. rewrite insert_cnt in X. lia.
      + eapply add_context; eauto.
    - unfold remove_item in E. destruct (dict_get string_dec n (h_rels h r)) as [l|] eqn:G; [| discriminate]. destruct (remove_first x l) as [l'|] eqn:F; [| discriminate].
      set (h0 := set_rels r _ h) in E. destruct (update_modified fuel r h0) as [h1 [[]|e]] eqn:U; [| discriminate].
      destruct (update_ok _ _ _ _ U) as ((T1 & T2 & T3 & T4) & Ec & Er). cbn [andthen] in E.
      assert (Px : h_parent h x = Some r).
      { apply linked_iff; [exact L |]. apply (count_occ_In Nat.eq_dec). rewrite children_split, count_occ_app.
        pose proof (rels_set n (h_rels h r) l l' x G) as X. rewrite (remove_cnt x l l' x F) in X. unfold one in X. destruct (Nat.eq_dec x x); [lia | congruence]. }
      (* the tree with the item cut off *)
      set (hc := set_parent x None h1).
      assert (Ac : acyclic hc) by (eapply acyclic_cut; [exact A |]; cbn; now rewrite T1).
      assert (Lc : linked hc).
      { intros y z. unfold isp. rewrite children_split. unfold hc. cbn [h_parent h_items h_rels set_parent]. rewrite T1, T2, T3. unfold h0. cbn [h_items h_rels h_parent set_items set_rels]. unfold upd at 1.
        rewrite count_occ_app. pose proof (L y z) as Lyz. rewrite children_split, count_occ_app in Lyz. unfold isp in Lyz. destruct (Nat.eqb_spec y r) as [->|Ny].
        - pose proof (rels_set n (h_rels h r) l l' z G) as X. rewrite (remove_cnt x l l' z F) in X. unfold one in X. destruct (Nat.eq_dec x z) as [<-|Nz].
          + rewrite upd_eq. rewrite Px, Nat.eqb_refl in Lyz. lia.
          + rewrite upd_neq by congruence. lia.
        - rewrite Lyz. destruct (Nat.eq_dec z x) as [->|Nz]; [| now rewrite upd_neq]. rewrite upd_eq, Px. destruct (Nat.eqb_spec r y); [congruence | reflexivity]. }
      assert (Bc : shared_but None hc).
      { intros y p _ Ep. cbn in *. rewrite Ec. destruct (Nat.eq_dec y x) as [->|Ny]; [rewrite upd_eq in Ep; discriminate |]. rewrite upd_neq in Ep by exact Ny.
        rewrite T1 in Ep. now apply B. }
      assert (Rc : registered hc) by (intros c u z; cbn; rewrite Ec, Er; apply R).
      destruct (set_context uuid fuel None x h1) as [h2 [[]|e]] eqn:S1; [| discriminate]. cbn [andthen] in E.
      destruct (set_context_shape uuid fuel None x h1 h2 S1) as (t & Rt & Sh & D).
      assert (Shc : shape hc t) by (eapply shape_ext; [| | exact Sh]; reflexivity).
      pose proof (nodup_refs hc t Ac Lc Shc) as N.
      assert (Rd : forall h, registered h -> ready uuid None (refs t) h).
      { intros hh Rh y I. split; [congruence |]. intros k Ek. now rewrite (proj2 (Rh k (uuid y) y) (conj Ek eq_refl)). }
      destruct (set_context_tree uuid None t fuel h1 Sh (nodup_uuid uuid uuid_inj _ N) D (Rd h1 Rc)) as (h2' & S2 & Ef). rewrite Rt in S2.
      assert (h2' = h2) as -> by congruence. clear S2.
      destruct (good_effect uuid uuid_inj None t x hc (set_parent x None h2)) as [Gd2 _]; auto.
      { intros y p _ Ep. apply Bc; [discriminate | exact Ep]. }
      { intros r' Ep. cbn in Ep. rewrite upd_eq in Ep. discriminate. }
      { congruence. }
      { now apply effect_parent. }
      assert (Fin : forall h3, effect uuid None (refs t) h1 h3 -> good (set_parent x None h3)).
      { intros h3 Ef3. apply (good_effect uuid uuid_inj None t x hc (set_parent x None h3)); auto.
        - intros y p _ Ep. apply Bc; [discriminate | exact Ep].
        - intros r' Ep. cbn in Ep. rewrite upd_eq in Ep. discriminate.
        - congruence.
        - now apply effect_parent. }
      destruct (with_storage fuel r _ h2) as [h3 [[]|e]] eqn:W; [| discriminate]. cbn [andthen] in E. injection E as <-. apply Fin.
      unfold with_storage in W. destruct (h_ctx h2 r) as [c|]; [| now injection W as <-]. destruct (get_storage fuel c r h2) as [[s|]|e]; try discriminate.
      assert (Sh2 : shape h2 t) by (destruct Ef as [(_ & T2' & T3' & _) _ _ _ _ _]; eapply shape_ext; eauto).
      destruct Gd2 as (_ & _ & _ & R2).
      destruct (set_context_tree uuid None t fuel h2 Sh2 (nodup_uuid uuid uuid_inj _ N) D (Rd h2 R2)) as (h3' & S3 & Ef3). rewrite Rt in S3.
      assert (h3' = h3) as -> by congruence. eapply effect_again; eauto.
    - eapply good_set_context in E; try apply E; auto.
      + intros y p _. apply B. discriminate.
      + cbn in Pr. intros r'. congruence.
      + intros Nn. destruct c as [k|]; [| congruence]. destruct fuel as [|f]; [discriminate |]. cbn in E. destruct (h_ctx h r) as [k'|]; [discriminate | reflexivity].
    - injection E as <-. destruct Gd as (A' & L' & B' & R'). split; [| split; [| split]]; auto.
      intros y. destruct (A' y) as (l & C). exists l. eapply chain_ext; [| exact C]. reflexivity.
  Qed.
  Lemma good_make items rels : good (heap_make items rels).
  Proof.
    split; [| split; [| split]].
    - intros r. exists []. now apply chain_root.
    - intros r x. rewrite children_split. cbn. unfold isp. cbn. rewrite count_occ_app. unfold item_refs, rel_refs.
      assert (E1 : forall l : list string, flat_map (fun p : string * option nat => match snd p with Some x => [x] | None => [] end) (map (fun n => (n, None)) l) = []) by (induction l; auto).
      assert (E2 : forall l : list string, flat_map snd (map (fun n => (n, @nil nat)) l) = []) by (induction l; auto).
      now rewrite E1, E2.
    - intros y p _ E. discriminate.
    - intros c u x. split; [discriminate | intros [E _]; discriminate].
  Qed.
  Lemma properly_good items rels h : properly uuid items rels h -> good h.
  Proof. induction 1; [apply good_make | eapply proper_step; eauto]. Qed.

  Lemma child_iff h x r : In x (children h r) <-> child h x r.
  Proof.
    unfold children, child. rewrite in_app_iff, !in_flat_map. split; intros [H|H].
    - left. destruct H as ([n [y|]] & I & J); cbn in J; [destruct J as [->|[]]; eauto | destruct J].
    - right. destruct H as ([n l] & I & J). eauto.
    - left. destruct H as (n & I). exists (n, Some x). split; [exact I | now left].
    - right. destruct H as (n & l & I & J). exists (n, l). auto.
  Qed.

  (** After every history of proper operations, an object is an item or in a relationship of its parent and of no other,
      everything below an object has the object's context, and a context has registered exactly the objects it is the
      context of. *)
  Theorem heap_context_covers (items rels : nat -> list string) (h : heap) :
    properly uuid items rels h ->
    (forall x r, child h x r <-> h_parent h x = Some r) /\
    (forall x r, below h x r -> h_ctx h x = h_ctx h r) /\
    (forall c u x, h_reg h c u = Some x <-> h_ctx h x = Some c /\ uuid x = u).
  Proof.
    intros P. destruct (properly_good items rels h P) as (A & L & B & R).
    assert (K : forall x r, child h x r <-> h_parent h x = Some r) by (intros x r; rewrite <- child_iff; now apply linked_iff).
    split; [exact K |]. split; [| exact R]. intros x r Bl. induction Bl as [r|r x y Cx _ IH]; [reflexivity |]. rewrite IH. apply B; [discriminate |]. now apply K.
  Qed.

  (** Removing an item takes the context from everything below it, and the registrations with it. *)
  Theorem heap_remove_clears (items rels : nat -> list string) (h h' : heap) (fuel r x : nat) (name : string) :
    properly uuid items rels h -> step uuid fuel h (RemoveItem r name x) = (h', Ok tt) ->
    h_parent h' x = None /\ forall y, below h' y x -> h_ctx h' y = None /\ forall c, h_reg h' c (uuid y) = None.
  Proof.
    intros P E. assert (P' : properly uuid items rels h') by (eapply properly_step; eauto; now repeat split).
    destruct (heap_context_covers items rels h' P') as (_ & Bl & Rg).
    assert (X : h_parent h' x = None /\ h_ctx h' x = None).
    { cbn in E. unfold remove_item in E. destruct (dict_get string_dec name (h_rels h r)) as [l|]; [| discriminate]. destruct (remove_first x l) as [l'|]; [| discriminate].
      destruct (update_modified fuel r _) as [h1 [[]|e]]; [| discriminate]. cbn [andthen] in E.
      destruct (set_context uuid fuel None x h1) as [h2 [[]|e]] eqn:S1; [| discriminate]. cbn [andthen] in E.
      assert (Cz : forall f h h', set_context uuid f None x h = (h', Ok tt) -> (forall y, h_ctx h y = None -> h_ctx h' y = None) /\ h_ctx h' x = None).
      { clear. assert (Mono : forall f c r h, c = None -> forall y, h_ctx h y = None -> h_ctx (fst (set_context uuid f c r h)) y = None).
        { induction f as [|f IH]; intros c r h -> y Hy; [exact Hy |]. cbn [set_context].
          assert (Ps : forall xs o, h_ctx (fst o) y = None -> h_ctx (fst (fold_left (fun o x => andthen o (set_context uuid f None x)) xs o)) y = None).
          { induction xs as [|z xs IHx]; intros o Ho; [exact Ho |]. cbn. apply IHx. destruct o as [ho [[]|e]]; cbn; [now apply IH | exact Ho]. }
          specialize (Ps (children h r) (set_ctx r None h, Ok tt)). cbn in Ps. unfold upd in Ps.
          assert (Q : (if Nat.eqb y r then None else h_ctx h y) = None) by (destruct (Nat.eqb y r); auto). specialize (Ps Q). clear Q.
          destruct (h_ctx h r) as [k|]; destruct (fold_left _ _ _) as [h1 [[]|e]]; cbn [andthen fst] in *; try exact Ps.
          unfold unregister. cbn. destruct (h_reg h1 k (uuid r)); exact Ps. }
        intros f h h' E. split; [intros y Hy; pose proof (Mono f None x h eq_refl y Hy) as M; now rewrite E in M |].
        destruct f as [|f]; [discriminate |]. cbn [set_context] in E.
        assert (Ps : forall xs o, h_ctx (fst o) x = None -> h_ctx (fst (fold_left (fun o z => andthen o (set_context uuid f None z)) xs o)) x = None).
        { induction xs as [|z xs IHx]; intros o Ho; [exact Ho |]. cbn. apply IHx. destruct o as [ho [[]|e]]; cbn; [now apply Mono | exact Ho]. }
        specialize (Ps (children h x) (set_ctx x None h, Ok tt)). cbn in Ps. rewrite upd_eq in Ps. specialize (Ps eq_refl).
        destruct (h_ctx h x) as [k|]; destruct (fold_left _ _ _) as [h1 [[]|e]]; cbn [andthen fst] in *; try discriminate.
        - unfold unregister in E. cbn in E. destruct (h_reg h1 k (uuid x)); [| discriminate]. injection E as <-. exact Ps.
        - injection E as <-. exact Ps. }
      destruct (Cz _ _ _ S1) as [_ C2]. destruct (with_storage fuel r _ h2) as [h3 [[]|e]] eqn:W; [| discriminate]. cbn [andthen] in E. injection E as <-.
      cbn. rewrite upd_eq. split; [reflexivity |]. unfold with_storage in W. destruct (h_ctx h2 r) as [c|]; [| now injection W as <-].
      destruct (get_storage fuel c r h2) as [[s|]|e]; try discriminate. now destruct (Cz _ _ _ W). }
    destruct X as [X1 X2]. split; [exact X1 |]. intros y Hy. rewrite (Bl y x Hy). split; [exact X2 |]. intros c.
    destruct (h_reg h' c (uuid y)) as [z|] eqn:Ez; [| reflexivity]. apply Rg in Ez as [E1 E2]. apply uuid_inj in E2 as ->. rewrite (Bl y x Hy) in E1. congruence.
  Qed.

  (** Adding an object puts it and everything below it into the target's context and registers it there. *)
  Theorem heap_add_covers (items rels : nat -> list string) (h h' : heap) (fuel r x : nat) (o : op) :
    properly uuid items rels h -> proper h o -> step uuid fuel h o = (h', Ok tt) ->
    (exists name, o = SetItem r name (Some x)) \/ (exists name i, o = InsertItem r name i x) ->
    child h' x r /\ h_ctx h' r = h_ctx h r /\
    forall y, below h' y x -> h_ctx h' y = h_ctx h r /\ forall c, h_ctx h r = Some c -> h_reg h' c (uuid y) = Some y.
  Proof.
    intros P Pr E Ho. assert (P' : properly uuid items rels h') by (eapply properly_step; eauto).
    destruct (heap_context_covers items rels h' P') as (Ch & Bl & Rg).
    assert (W : forall h0, h_ctx h0 = h_ctx h ->
              andthen (update_modified fuel r h0) (fun h1 => with_storage fuel r (fun c h => set_context uuid fuel (Some c) x h) (set_parent x (Some r) h1)) = (h', Ok tt) ->
              h_parent h' x = Some r /\ h_ctx h' r = h_ctx h r).
    { intros h0 C0 W. destruct (update_modified fuel r h0) as [h1 [[]|e]] eqn:U; [| discriminate]. cbn [andthen] in W.
      destruct (update_ok _ _ _ _ U) as ((T1 & T2 & T3 & T4) & Ec & Er). unfold with_storage in W. cbn [h_ctx set_parent] in W.
      destruct (h_ctx h1 r) as [c|] eqn:Cr.
      - destruct (get_storage fuel c r _) as [[s|]|e]; try discriminate. destruct (set_context_frame uuid fuel (Some c) x (set_parent x (Some r) h1)) as [(F1 & _) _].
        rewrite W in F1. cbn in F1. assert (Px : h_parent h' x = Some r) by now rewrite F1, upd_eq. split; [exact Px |].
        rewrite <- (Bl x r); [| apply (below_child h' r x x); [now apply Ch | apply below_refl]].
        assert (Cx : h_ctx h' x = Some c); [| congruence].
        destruct (set_context_shape uuid fuel (Some c) x _ h' W) as (t & Rt & _). clear -W.
        destruct fuel as [|f]; [discriminate W |]. cbn [set_context] in W. destruct (h_ctx (set_parent x (Some r) h1) x); [discriminate W |].
        destruct (fold_left _ _ _) as [h2 [[]|e]] eqn:Fo; cbn [andthen] in W; [| discriminate]. injection W as <-. cbn.
        assert (Ps : forall xs ho h2, h_ctx ho x = Some c -> fold_left (fun o z => andthen o (set_context uuid f (Some c) z)) xs (ho, Ok tt) = (h2, Ok tt) -> h_ctx h2 x = Some c).
        { clear. assert (Mono : forall g z h h' y, set_context uuid g (Some c) z h = (h', Ok tt) -> h_ctx h y = Some c -> h_ctx h' y = Some c).
          { clear f. induction g as [|f IH]; intros z h h' y E Hy; [discriminate E |]. cbn [set_context] in E. destruct (h_ctx h z); [discriminate E |].
            assert (Q : forall xs ho h2, h_ctx ho y = Some c -> fold_left (fun o z => andthen o (set_context uuid f (Some c) z)) xs (ho, Ok tt) = (h2, Ok tt) -> h_ctx h2 y = Some c).
            { induction xs as [|w xs IHx]; intros ho h2 Ho Ef; [now injection Ef as <- |]. cbn in Ef. destruct (set_context uuid f (Some c) w ho) as [h3 [[]|e]] eqn:E3.
              - apply (IHx h3); [| exact Ef]. eapply IH; eauto.
              - fold (pass uuid f (Some c) xs (h3, Err e)) in Ef. rewrite pass_err in Ef. discriminate. }
            destruct (fold_left _ _ _) as [h2 [[]|e]] eqn:Fo; cbn [andthen] in E; [| discriminate E]. injection E as <-. cbn.
            eapply Q; [| exact Fo]. cbn. unfold upd. now destruct (Nat.eqb y z). }
          induction xs as [|w xs IHx]; intros ho h2 Ho Ef; [now injection Ef as <- |]. cbn in Ef. destruct (set_context uuid f (Some c) w ho) as [h3 [[]|e]] eqn:E3.
          - apply (IHx h3); [| exact Ef]. eapply Mono; eauto.
          - fold (pass uuid f (Some c) xs (h3, Err e)) in Ef. rewrite pass_err in Ef. discriminate. }
        eapply Ps; [| exact Fo]. cbn. apply upd_eq.
      - injection W as <-. cbn. rewrite upd_eq. split; [reflexivity |]. congruence. }
    assert (X : h_parent h' x = Some r /\ h_ctx h' r = h_ctx h r).
    { destruct Ho as [(n & ->)|(n & i & ->)]; cbn [step] in E.
      - unfold set_item in E. destruct (dict_get string_dec n (h_items h r)); [| discriminate]. eapply W; [| exact E]. reflexivity.
      - unfold insert_item in E. destruct (dict_get string_dec n (h_rels h r)); [| discriminate]. eapply W; [| exact E]. reflexivity. }
    destruct X as [X1 X2]. apply Ch in X1. split; [exact X1 |]. split; [exact X2 |]. intros y Hy.
    assert (Cy : h_ctx h' y = h_ctx h r). { rewrite (Bl y x Hy), <- X2. apply Bl. apply (below_child h' r x x); [exact X1 | apply below_refl]. }
    split; [exact Cy |]. intros c Cr. apply Rg. split; [congruence | reflexivity].
  Qed.
End History.

(** ** Findings and examples.  Objects 0, 1, 2, ... with an item "i" and a relationship "r" each; uuid n is n. *)
Definition heap0 : heap := heap_make (fun _ => ["i"%string]) (fun _ => ["r"%string]).
Definition runs (l : list op) (h : heap) : out := fold_left (fun o p => andthen o (fun h => step (fun n => n) 10 h p)) l (h, Ok tt).

(** FINDING: the object that set_item replaces keeps its parent, its context and its registration, so it is still
    counted as part of the parent. *)
Theorem heap_set_item_old_refuted :
  let o := runs [SetStorage 7 0 1; SetContext 0 (Some 7); SetItem 0 "i" (Some 1); SetItem 0 "i" None] heap0 in
  let h := fst o in let o2 := step (fun n => n) 10 h (SetProperty 1) in
  snd o = Ok tt /\ children h 0 = [] /\ h_parent h 1 = Some 0 /\ h_ctx h 1 = Some 7 /\ h_reg h 7 1 = Some 1 /\
  snd o2 = Ok tt /\ h_count (fst o2) 0 = S (h_count h 0).
Proof. vm_compute. repeat split. Qed.
(** FINDING: an insert into an object whose context has no storage handler for it raises after the item was inserted. *)
Theorem heap_no_storage_refuted :
  let o := step (fun n => n) 10 (fst (runs [SetContext 0 (Some 7)] heap0)) (InsertItem 0 "r" 0 1) in
  snd o = Err AttributeError /\ children (fst o) 0 = [1] /\ h_parent (fst o) 1 = Some 0 /\ h_ctx (fst o) 1 = None /\ h_count (fst o) 0 = 1.
Proof. vm_compute. repeat split. Qed.

(** 0 has 1 and 2 in its relationship, 2 has the item 3; then 2 is removed *)
Definition ops0 : list op := [SetStorage 7 0 5; InsertItem 0 "r" 0 1; SetItem 2 "i" (Some 3); SetContext 0 (Some 7); InsertItem 0 "r" 1 2; SetProperty 3]%string.
Example heap_case :
  let o := runs ops0 heap0 in let h := fst o in
  snd o = Ok tt /\ map (h_count h) [0; 1; 2; 3] = [3; 0; 2; 1] /\ map (h_ctx h) [0; 1; 2; 3; 4] = [Some 7; Some 7; Some 7; Some 7; None] /\
  h_calls h = [Reg 7 1; Reg 7 0; Reg 7 3; Reg 7 2] /\ get_storage 10 7 3 h = Ok (Some 5) /\
  children h 0 = [1; 2] /\ map (h_parent h) [3; 2; 0] = [Some 2; Some 0; None].
Proof. vm_compute. repeat split. Qed.
Example heap_remove_case :
  let o := runs (ops0 ++ [RemoveItem 0 "r"%string 2; SetProperty 3]) heap0 in let h := fst o in
  snd o = Ok tt /\ map (h_count h) [0; 1; 2; 3] = [4; 0; 3; 2] /\ map (h_ctx h) [0; 1; 2; 3] = [Some 7; Some 7; None; None] /\
  h_calls h = [Reg 7 1; Reg 7 0; Reg 7 3; Reg 7 2; Unreg 7 3; Unreg 7 2] /\ map (h_reg h 7) [0; 1; 2; 3] = [Some 0; Some 1; None; None].
Proof. vm_compute. repeat split. Qed.

(** these histories are proper, as the theorems about histories need *)
Example heap_properly_case :
  let h := fst (runs [SetStorage 7 0 5; SetContext 0 (Some 7); InsertItem 0 "r" 0 1]%string heap0) in
  properly (fun n => n) (fun _ => ["i"%string]) (fun _ => ["r"%string]) h /\ h_ctx h 1 = Some 7.
Proof.
  cbv zeta. split; [| vm_compute; reflexivity].
  assert (P : forall h o, properly (fun n => n) (fun _ => ["i"%string]) (fun _ => ["r"%string]) h -> proper h o ->
            snd (step (fun n => n) 10 h o) = Ok tt -> properly (fun n => n) (fun _ => ["i"%string]) (fun _ => ["r"%string]) (fst (step (fun n => n) 10 h o))).
  { intros h o Ph Po E. eapply properly_step; [exact Ph | exact Po |]. rewrite (surjective_pairing (step _ 10 h o)), E. reflexivity. }
  set (h1 := fst (step (fun n => n) 10 heap0 (SetStorage 7 0 5))). set (h2 := fst (step (fun n => n) 10 h1 (SetContext 0 (Some 7)))).
  assert (P2 : properly (fun n => n) (fun _ => ["i"%string]) (fun _ => ["r"%string]) h2).
  { apply P; [apply P; [apply properly_make | now split | reflexivity] | now split | vm_compute; reflexivity]. }
  refine (P h2 (InsertItem 0 "r" 0 1) P2 _ _); [| vm_compute; reflexivity].
  split; [| split; vm_compute; reflexivity]. intros l C. inversion C as [|? p l' E _]; subst; [intros [I|[]]; discriminate I |]. vm_compute in E. discriminate E.
Qed.

Print Assumptions heap_storage.
Print Assumptions heap_modified.
Print Assumptions heap_unmodified.
Print Assumptions heap_forest.
Print Assumptions heap_set_context.
Print Assumptions heap_clear_context.
Print Assumptions heap_context_assert.
Print Assumptions heap_context_covers.
Print Assumptions heap_remove_clears.
Print Assumptions heap_add_covers.
Print Assumptions heap_set_item_old_refuted.
Print Assumptions heap_no_storage_refuted.
