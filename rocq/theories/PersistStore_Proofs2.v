(** Proofs for PersistStore_Props: trees of objects and the accessors. *)
From Coq Require Import String ZArith Bool List Lia.
From Verif Require Import PyBase PersistDict_Model PersistDict_Spec PersistDict_Proofs PersistStore_Model PersistStore_Spec PersistStore_Proofs.
Import ListNotations.

Section Index.
  Lemma index_of_nth x l i : index_of x l = Some i -> nth_error l i = Some x.
  Proof.
    revert i. induction l as [|y l IH]; simpl; intros i; [discriminate|]. destruct (Nat.eqb_spec y x) as [->|]; [intros [= <-]; reflexivity|].
    destruct (index_of x l) as [j|]; [|discriminate]. intros [= <-]. simpl. auto.
  Qed.
  Lemma index_of_in x l : In x l -> exists i, index_of x l = Some i.
  Proof.
    induction l as [|y l IH]; simpl; [tauto|]. destruct (Nat.eqb_spec y x) as [->|N]; [eauto|]. intros [E|H]; [destruct (N E)|].
    destruct (IH H) as [i ->]. simpl. eauto.
  Qed.
End Index.

Section Trees.
  Context {A V U : Type}.
  Variable ustr : U -> json A.
  Variable class : nat -> classdef A V.
  Variable cls : nat -> nat.
  Variable uu : nat -> U.
  Notation heap := (heap A V).
  Notation path := (list (string + nat)).
  Hypothesis all_plain : forall c, plain (class c).
  Notation held := (held class cls).
  Notation below := (below class cls).
  Notation view := (view ustr class cls uu).
  Notation shows := (shows ustr class cls uu).

  Definition top (h : heap) (s : nat) : Prop := forall r pl, ~ held h r pl s.
  Record struct (h : heap) : Prop := Struct {
    st_par : forall r pl x, held h r pl x -> h_parent h x = Some (r, pl);
    st_nodup : forall r n, NoDup (h_rels h r n);
    st_top : forall s, h_store h s <> None -> top h s }.

  Lemma below_trans h x y z : below h x y -> below h y z -> below h x z.
  Proof. intros H1 H2. induction H2 as [|y' pl z H2 IH H3]; [exact H1|]. exact (below_held _ _ _ _ _ _ _ IH H3). Qed.
  Lemma held_below h x pl y : held h x pl y -> below h x y.
  Proof. intros H. exact (below_held _ _ _ _ _ _ _ (below_refl _ _ _ _) H). Qed.
  Lemma held_one h r pl r' pl' x : struct h -> held h r pl x -> held h r' pl' x -> r' = r /\ pl' = pl.
  Proof. intros S H1 H2. apply (st_par _ S) in H1, H2. rewrite H1 in H2. injection H2 as -> ->. auto. Qed.
  Lemma below_inv h x z : below h x z -> z = x \/ exists y pl, below h x y /\ held h y pl z.
  Proof. intros [|y pl z' H1 H2]; [auto|]. right. eauto. Qed.
  Lemma comparable h a b z : struct h -> below h a z -> below h b z -> below h a b \/ below h b a.
  Proof.
    intros S H. revert b. induction H as [|y pl z H IH H1]; intros b Hb; [auto|].
    apply below_inv in Hb. destruct Hb as [->|(y' & pl' & Hb & H2)].
    - left. exact (below_held _ _ _ _ _ _ _ H H1).
    - destruct (held_one _ _ _ _ _ _ S H1 H2) as [-> ->]. auto.
  Qed.
  Lemma below_top h s x : top h s -> below h x s -> x = s.
  Proof. intros T H. apply below_inv in H. destruct H as [->|(y & pl & _ & H)]; [reflexivity|]. exfalso. exact (T _ _ H). Qed.
  Lemma top_one h s s' x : struct h -> top h s -> top h s' -> below h s x -> below h s' x -> s' = s.
  Proof.
    intros S T T' H H'. destruct (comparable _ _ _ _ S H H') as [C|C].
    - symmetry. exact (below_top _ _ _ T' C).
    - exact (below_top _ _ _ T C).
  Qed.
  Lemma no_loop h s x y pl : struct h -> top h s -> below h s x -> held h x pl y -> ~ below h y x.
  Proof.
    intros S T H. revert y pl. induction H as [|w pw x H IH Hw]; intros y pl H1 H2.
    - apply below_inv in H2. destruct H2 as [->|(z & pz & _ & H2)]; [exact (T _ _ H1)|exact (T _ _ H2)].
    - apply below_inv in H2. destruct H2 as [->|(z & pz & H2 & H3)].
      + destruct (held_one _ _ _ _ _ _ S H1 Hw) as [-> ->]. apply (IH _ _ H1). apply below_refl.
      + destruct (held_one _ _ _ _ _ _ S Hw H3) as [-> ->]. apply (IH _ _ Hw). exact (below_trans _ _ _ _ (held_below _ _ _ _ H1) H2).
  Qed.
  (** of two objects in the same place, only one has [r] below it *)
  Lemma one_branch h s x r y pl z pl' :
    struct h -> top h s -> below h s x -> held h x pl y -> held h x pl' z -> below h y r -> below h z r -> z = y.
  Proof.
    intros S T Hx Hy Hz Hyr Hzr.
    assert (Aux : forall a b pa pb, held h x pa a -> held h x pb b -> below h a b -> a = b).
    { intros a b pa pb Ha Hb H. apply below_inv in H. destruct H as [->|(w & pw & H & Hw)]; [reflexivity|].
      destruct (held_one _ _ _ _ _ _ S Hb Hw) as [-> ->]. exfalso. exact (no_loop _ _ _ _ _ S T Hx Ha H). }
    destruct (comparable _ _ _ _ S Hyr Hzr) as [C|C]; [symmetry|]; eauto.
  Qed.

  (** ** objects that are the same in both heaps *)
  Definition agree (h h' : heap) (r : nat) : Prop :=
    (forall n, h_props h r n = h_props h' r n) /\ (forall n, h_items h r n = h_items h' r n) /\ (forall n, h_rels h r n = h_rels h' r n).
  Lemma agree_sym h h' r : agree h h' r -> agree h' h r.
  Proof. intros (H1 & H2 & H3). repeat split; intros n; symmetry; auto. Qed.
  Lemma agree_held h h' r pl x : agree h h' r -> held h r pl x -> held h' r pl x.
  Proof. intros (_ & H2 & H3). destruct pl as [n|n]; simpl; intros [H E]; (split; [exact H|]); [rewrite <- H2|rewrite <- H3]; exact E. Qed.
  Lemma item_def_in r k i : item_def class cls r k = Some i -> In k (map i_name (k_items (class (cls r)))).
  Proof. intros H. apply (find_name_in i_name). exists i. exact H. Qed.
  Lemma rel_def_in r k i : rel_def class cls r k = Some i -> In k (map r_name (k_rels (class (cls r)))).
  Proof. intros H. apply (find_name_in r_name). exists i. exact H. Qed.
  Lemma view_frame h h' p : forall x, (forall y, below h x y -> agree h h' y) -> view h p x = view h' p x.
  Proof.
    remember (length p) as n eqn:En. revert p En. induction n as [n IH] using lt_wf_ind. intros p -> x H.
    destruct p as [|[k|i] p]; [reflexivity| |reflexivity]. cbn [PersistStore_Proofs.view].
    destruct (H x (below_refl _ _ _ _)) as (E1 & E2 & E3).
    destruct (string_dec k "uuid"); [reflexivity|]. destruct (string_dec k "type"); [reflexivity|].
    destruct (prop_def class cls x k) as [q|]; [rewrite E1; reflexivity|].
    destruct (item_def class cls x k) as [i|] eqn:Ei.
    - rewrite <- E2. destruct (h_items h x k) as [y|] eqn:Ey; [|reflexivity].
      apply (IH (length p)); [simpl; lia|reflexivity|]. intros z Hz. apply H.
      refine (below_trans _ _ _ _ _ Hz). apply (held_below _ _ (AtItem k)). split; [exact (item_def_in _ _ _ Ei)|exact Ey].
    - destruct (rel_def class cls x k) as [t|] eqn:Et; [|reflexivity]. rewrite <- E3.
      destruct p as [|[k'|i] p]; [reflexivity|reflexivity|].
      destruct (nth_error (h_rels h x k) i) as [y|] eqn:Ey; [|reflexivity].
      apply (IH (length p)); [simpl; lia|reflexivity|]. intros z Hz. apply H.
      refine (below_trans _ _ _ _ _ Hz). apply (held_below _ _ (InRel k)). split; [exact (rel_def_in _ _ _ Et)|exact (nth_error_In _ _ Ey)].
  Qed.

  (** ** the accessors *)
  Inductive leads (h : heap) : nat -> list access -> nat -> Prop :=
    | leads_nil r : leads h r [] r
    | leads_item x n y l r : held h x (AtItem n) y -> leads h y l r -> leads h x (Item n :: l) r
    | leads_elem x n i y l r : held h x (InRel n) y -> nth_error (h_rels h x n) i = Some y -> leads h y l r -> leads h x (Elem n i :: l) r.
  Lemma leads_app h x l y l' z : leads h x l y -> leads h y l' z -> leads h x (l ++ l') z.
  Proof. intros H1 H2. induction H1; simpl; [exact H2| |]; econstructor; eauto. Qed.
  Lemma leads_below h x l y : leads h x l y -> below h x y.
  Proof. intros H. induction H as [|x n y l r H1 H2 IH|x n i y l r H1 H2 H3 IH]; [apply below_refl| |]; exact (below_trans _ _ _ _ (held_below _ _ _ _ H1) IH). Qed.
  Lemma path_leads f h s r l :
    struct h -> below h s r -> path_to f h s r = Ok l -> leads h s l r.
  Proof.
    intros S. revert r l. induction f as [|f IH]; intros r l Hb; [discriminate|]. cbn [path_to].
    destruct (Nat.eqb_spec r s) as [->|N]; [intros [= <-]; constructor|].
    apply below_inv in Hb. destruct Hb as [->|(y & pl & Hb & Hh)]; [congruence|].
    rewrite (st_par _ S _ _ _ Hh). destruct (path_to f h s y) as [l0|] eqn:El; [|discriminate].
    unfold accessor. rewrite (st_par _ S _ _ _ Hh). destruct pl as [n|n].
    - destruct (String.eqb n ""); [discriminate|]. intros [= <-]. refine (leads_app _ _ _ _ _ _ (IH _ _ Hb El) _).
      eapply leads_item; [exact Hh|constructor].
    - destruct (String.eqb n ""); [discriminate|]. destruct (index_of r (h_rels h y n)) as [i|] eqn:Ei; [|discriminate].
      intros [= <-]. refine (leads_app _ _ _ _ _ _ (IH _ _ Hb El) _).
      eapply leads_elem; [exact Hh|exact (index_of_nth _ _ _ Ei)|constructor].
  Qed.
  Lemma storage_right f h s r o :
    struct h -> h_store h s <> None -> below h s r -> storage_of f h r = Ok o -> o = Some s.
  Proof.
    intros S Hs. revert r. induction f as [|f IH]; intros r Hb; [discriminate|]. cbn [storage_of].
    destruct (h_store h r) as [d|] eqn:Er.
    - intros [= <-]. f_equal. apply (top_one _ _ _ r S); [apply (st_top _ S); exact Hs|apply (st_top _ S); congruence|exact Hb|apply below_refl].
    - apply below_inv in Hb. destruct Hb as [->|(y & pl & Hb & Hh)]; [congruence|]. rewrite (st_par _ S _ _ _ Hh). apply IH. exact Hb.
  Qed.

  (** ** a change at the end of the path *)
  Lemma set_nth_nth {X} (i : nat) (x : X) l k : nth_error (set_nth i x l) k = if Nat.eqb k i then match nth_error l i with Some _ => Some x | None => None end else nth_error l k.
  Proof.
    unfold set_nth. destruct (nth_error l i) as [y|] eqn:E.
    - revert i k E. induction l as [|z l IH]; intros [|i] [|k] E; try discriminate; simpl; try reflexivity.
      apply (IH i k E).
    - destruct (Nat.eqb_spec k i) as [->|]; [exact E|reflexivity].
  Qed.
  Lemma set_nth_len {X} (i : nat) (x : X) l : length (set_nth i x l) = length l.
  Proof.
    unfold set_nth. destruct (nth_error l i) as [y|] eqn:E; [|reflexivity].
    assert (i < length l) by (apply nth_error_Some; congruence). rewrite app_length. cbn [length]. rewrite firstn_length, skipn_length. lia.
  Qed.
  Lemma shows_dict h r j : shows h r j -> exists d, j = JDict d.
  Proof. intros H. specialize (H []). destruct j; simpl in H; try discriminate. eauto. Qed.
  (** what stands under a name *)
  Lemma view_item h r n x p : held h r (AtItem n) x -> view h (inl n :: p) r = view h p x.
  Proof.
    intros [H E]. destruct (class_parts class all_plain (cls r)) as (_ & _ & _ & Dp & _ & Dk & _). cbn [PersistStore_Proofs.view].
    destruct (string_dec n "uuid") as [Q1|Q1]; [exfalso; destruct (Dk n (or_introl Q1)) as (B1 & B2 & B3); auto|]. destruct (string_dec n "type") as [Q2|Q2]; [exfalso; destruct (Dk n (or_intror Q2)) as (B1 & B2 & B3); auto|].
    destruct (prop_def class cls r n) as [q|] eqn:Eq.
    - exfalso. destruct (Dp n) as [B1 B2]; [apply (find_name_in p_name); exists q; exact Eq|auto].
    - apply (find_name_in i_name) in H. destruct H as [i Hi]. change (item_def class cls r n = Some i) in Hi. rewrite Hi, E. reflexivity.
  Qed.
  Lemma view_rel h r n p :
    In n (map r_name (k_rels (class (cls r)))) ->
    view h (inl n :: p) r =
    match p with
    | [] => Some (LList (length (h_rels h r n)))
    | inr i :: p'' => match nth_error (h_rels h r n) i with Some x => view h p'' x | None => None end
    | inl _ :: _ => None
    end.
  Proof.
    intros H. destruct (class_parts class all_plain (cls r)) as (_ & _ & _ & Dp & Di & Dk & _). cbn [PersistStore_Proofs.view].
    destruct (string_dec n "uuid") as [Q1|Q1]; [exfalso; destruct (Dk n (or_introl Q1)) as (B1 & B2 & B3); auto|]. destruct (string_dec n "type") as [Q2|Q2]; [exfalso; destruct (Dk n (or_intror Q2)) as (B1 & B2 & B3); auto|].
    destruct (prop_def class cls r n) as [q|] eqn:Eq.
    - exfalso. destruct (Dp n) as [B1 B2]; [apply (find_name_in p_name); exists q; exact Eq|auto].
    - destruct (item_def class cls r n) as [i|] eqn:Ei; [exfalso; exact (Di n (item_def_in _ _ _ Ei) H)|].
      apply (find_name_in r_name) in H. destruct H as [t Ht]. change (rel_def class cls r n = Some t) in Ht. rewrite Ht. reflexivity.
  Qed.
  (** under any other name, nothing differs if the objects there do not *)
  Lemma view_other h h' r k p :
    (forall q, prop_def class cls r k = Some q -> h_props h r k = h_props h' r k) ->
    (In k (map i_name (k_items (class (cls r)))) -> h_items h r k = h_items h' r k) ->
    (In k (map r_name (k_rels (class (cls r)))) -> h_rels h r k = h_rels h' r k) ->
    (forall pl x, (pl = AtItem k \/ pl = InRel k) -> held h' r pl x -> forall p, view h p x = view h' p x) ->
    view h (inl k :: p) r = view h' (inl k :: p) r.
  Proof.
    intros H1 H2 H3 H4. cbn [PersistStore_Proofs.view].
    destruct (string_dec k "uuid"); [reflexivity|]. destruct (string_dec k "type"); [reflexivity|].
    destruct (prop_def class cls r k) as [q|] eqn:Eq; [rewrite (H1 q eq_refl); reflexivity|].
    destruct (item_def class cls r k) as [i|] eqn:Ei.
    - apply item_def_in in Ei. rewrite (H2 Ei). destruct (h_items h' r k) as [x|] eqn:Ex; [|reflexivity].
      apply (H4 (AtItem k)); [auto|]. split; assumption.
    - destruct (rel_def class cls r k) as [t|] eqn:Et; [|reflexivity]. apply rel_def_in in Et. rewrite (H3 Et).
      destruct p as [|[k'|j] p]; [reflexivity|reflexivity|]. destruct (nth_error (h_rels h' r k) j) as [x|] eqn:Ex; [|reflexivity].
      apply (H4 (InRel k)); [auto|]. split; [assumption|exact (nth_error_In _ _ Ex)].
  Qed.

  Lemma change_shows h h' s r g path :
    struct h' -> top h' s -> (forall y, y <> r -> agree h h' y) ->
    (forall d d', shows h r (JDict d) -> g d = Ok d' -> shows h' r (JDict d')) ->
    forall x j j', below h' s x -> leads h' x path r -> shows h x j -> change_at path g j = Ok j' -> shows h' x j'.
  Proof.
    intros S T Hag Hg. induction path as [|a path IH]; intros x j j' Hx Hl Hj E.
    - inversion Hl; subst. destruct (shows_dict _ _ _ Hj) as [d ->]. cbn [change_at] in E.
      destruct (g d) as [d'|] eqn:Ed; [|discriminate]. injection E as <-. exact (Hg _ _ Hj Ed).
    - assert (Hxr : x <> r).
      { intros ->. inversion Hl as [|? n y ? ? H1 H2|? n i y ? ? H1 H2 H3]; subst;
          apply (no_loop _ _ _ _ _ S T Hx H1); eapply leads_below; eassumption. }
      destruct (Hag x Hxr) as (Ep & Ei & Er). destruct (shows_dict _ _ _ Hj) as [d ->].
      assert (Hsib : forall y pl, held h' x pl y -> below h' y r -> forall z pz, held h' x pz z -> z <> y -> forall p, view h p z = view h' p z).
      { intros y pl Hy Hyr z pz Hz N p. symmetry. apply view_frame. intros w Hw. apply agree_sym. apply Hag. intros ->.
        apply N. exact (one_branch _ _ _ _ _ _ _ _ S T Hx Hy Hz Hyr Hw). }
      inversion Hl as [|? n y ? ? H1 H2|? n i y ? ? H1 H2 H3]; subst.
      + assert (Hyr := leads_below _ _ _ _ H2). cbn [change_at] in E.
        assert (H1' : held h x (AtItem n) y) by (refine (agree_held _ _ _ _ _ _ H1); apply agree_sym; repeat split; auto).
        assert (Hg' : forall p, look (inl n :: p) (JDict d) = view h p y) by (intros p; rewrite Hj; apply view_item; exact H1').
        assert (He := Hg' []). cbn [look] in He. destruct (dget n d) as [x'|] eqn:En; [|discriminate]. clear He.
        destruct (change_at path g x') as [x''|] eqn:Ec; [|discriminate]. injection E as <-.
        assert (Hs : shows h' y x'').
        { apply (IH y x' x''); [exact (below_held _ _ _ _ _ _ _ Hx H1)|exact H2| |exact Ec].
          intros p. specialize (Hg' p). cbn [look] in Hg'. rewrite En in Hg'. exact Hg'. }
        intros [|[k|i] p]; [reflexivity| |reflexivity]. rewrite look_dict, dget_dset. destruct (string_dec k n) as [->|Nk].
        * rewrite (view_item _ _ _ _ _ H1). exact (Hs p).
        * rewrite <- look_dict. rewrite Hj. apply view_other; auto. intros pl z Hpl Hz. apply (Hsib _ _ H1 Hyr _ _ Hz).
          intros ->. destruct (held_one _ _ _ _ _ _ S H1 Hz) as [_ ->]. destruct Hpl; congruence.
      + assert (Hyr := leads_below _ _ _ _ H3). cbn [change_at] in E. assert (Hn := proj1 H1).
        assert (Hg' : forall p, look (inl n :: p) (JDict d) = view h (inl n :: p) x) by (intros p; apply Hj).
        assert (He := Hg' []). rewrite view_rel in He by exact Hn. cbn [look] in He. destruct (dget n d) as [x'|] eqn:En; [|discriminate].
        destruct x' as [| |l|]; try discriminate. injection He as He.
        assert (Hlk : forall k p, match nth_error l k with Some x => look p x | None => None end =
                        match nth_error (h_rels h' x n) k with Some z => view h p z | None => None end).
        { intros k p. specialize (Hg' (inr k :: p)). rewrite view_rel in Hg' by exact Hn. cbn [look] in Hg'. rewrite En in Hg'.
          rewrite Er in Hg'. exact Hg'. }
        destruct (nth_error l i) as [x'|] eqn:Ex; [|discriminate].
        destruct (change_at path g x') as [x''|] eqn:Ec; [|discriminate]. injection E as <-.
        assert (Hs : shows h' y x'').
        { apply (IH y x' x''); [exact (below_held _ _ _ _ _ _ _ Hx H1)|exact H3| |exact Ec].
          intros p. specialize (Hlk i p). rewrite Ex, H2 in Hlk. exact Hlk. }
        intros [|[k|i'] p]; [reflexivity| |reflexivity]. rewrite look_dict, dget_dset. destruct (string_dec k n) as [->|Nk].
        * rewrite view_rel by exact Hn. cbn [olook]. destruct p as [|[k|k] p]; [|reflexivity|].
          -- cbn [look]. rewrite set_nth_len, He, Er. reflexivity.
          -- cbn [look]. rewrite set_nth_nth. destruct (Nat.eqb_spec k i) as [->|Nk].
             ++ rewrite Ex, H2. exact (Hs p).
             ++ rewrite Hlk. destruct (nth_error (h_rels h' x n) k) as [z|] eqn:Ez; [|reflexivity].
                apply (Hsib _ _ H1 Hyr z (InRel n)); [split; [exact Hn|exact (nth_error_In _ _ Ez)]|].
                intros ->. apply Nk. apply (proj1 (NoDup_nth_error _) (st_nodup _ S x n)); [apply nth_error_Some; congruence|congruence].
        * rewrite <- look_dict. rewrite Hj. apply view_other; auto. intros pl z Hpl Hz. apply (Hsib _ _ H1 Hyr _ _ Hz).
          intros ->. destruct (held_one _ _ _ _ _ _ S H1 Hz) as [_ ->]. destruct Hpl; congruence.
  Qed.
End Trees.
