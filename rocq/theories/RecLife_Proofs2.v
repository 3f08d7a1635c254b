(** Closing recorders and replaying in the same world: proofs, replay on a copy. *)
From Coq Require Import Arith Bool List Permutation Lia.
From Verif Require Import PyBase Recorder_Model Recorder_Spec Recorder_Proofs Recorder_Proofs2 Recorder_Proofs3 RecLife_Model RecLife_Spec RecLife_Proofs.
Import ListNotations.

Section P.
  Context {V : Type} (item : nat -> bool) (recordable : nat -> nat -> bool).
  Notation obj := (node (nat * list V)).
  Notation world := (@world V).
  Notation life := (life V).
  Notation lrun := (lrun item recordable).
  Notation good := (@good V recordable).
  Implicit Types (o x : obj) (w : world) (s : life).

  Lemma erase_slots o : slots (erase o) = map (map erase) (slots o).
  Proof. destruct o. reflexivity. Qed.
  Lemma erase_label o : label (erase o) = props_of o.
  Proof. destruct o. reflexivity. Qed.
  Lemma map_set_nth {X Y} (f : X -> Y) k (x : X) (l : list X) : map f (set_nth k x l) = set_nth k (f x) (map f l).
  Proof.
    unfold set_nth. rewrite nth_error_map. destruct (nth_error l k); [|reflexivity]. cbn [option_map].
    rewrite map_app, firstn_map. cbn [map]. rewrite skipn_map. reflexivity.
  Qed.
  Lemma erase_sub q : forall o, sub q (erase o) = option_map erase (sub q o).
  Proof.
    induction q as [|[k i] q IH]; intros o; cbn [sub]; [reflexivity|]. rewrite erase_slots, nth_error_map. unfold Recorder_Model.obj, Recorder_Model.tree in *.
    destruct (nth_error (slots o) k) as [l|]; [|reflexivity]. cbn [option_map]. rewrite nth_error_map.
    destruct (nth_error l i) as [y|]; [|reflexivity]. apply IH.
  Qed.
  Lemma erase_set_slot k l o : erase (set_slot k l o) = set_slot k (map erase l) (erase o).
  Proof. unfold set_slot. destruct o as [a ss]. cbn [erase label slots]. f_equal. apply map_set_nth. Qed.
  Lemma erase_put q : forall y o, erase (put q y o) = put q (erase y) (erase o).
  Proof.
    induction q as [|[k i] q IH]; intros y o; cbn [put]; [reflexivity|]. rewrite erase_slots, nth_error_map. unfold Recorder_Model.obj, Recorder_Model.tree in *.
    destruct (nth_error (slots o) k) as [l|]; [|reflexivity]. cbn [option_map]. rewrite nth_error_map.
    destruct (nth_error l i) as [z|]; [|reflexivity]. cbn [option_map]. rewrite erase_set_slot, map_set_nth, IH. reflexivity.
  Qed.
  Lemma all_one (o : obj) : all_ids [o] = ids o.
  Proof. unfold all_ids, all_nodes. cbn [flat_map]. rewrite app_nil_r. reflexivity. Qed.
  Lemma in_one (o x : obj) : In x (all_nodes [o]) <-> In x (nodes o).
  Proof. unfold all_nodes. cbn [flat_map]. rewrite app_nil_r. reflexivity. Qed.
  Lemma nodes_set i p v o z' : NoDup (ids o) -> In z' (nodes (upd (is_id i) (set_prop p v) o)) ->
    exists z, In z (nodes o) /\ z' = upd (is_id i) (set_prop p v) z.
  Proof.
    intros Hn Hz. destruct (in_dec Nat.eq_dec i (ids o)) as [Hi|Hi].
    2:{ rewrite (upd_absent i _ o Hi) in Hz. exists z'. split; [exact Hz|]. symmetry. apply upd_absent. intros H. apply Hi. exact (ids_sub o z' i Hz H). }
    assert (Hid : In (id_of z') (ids o)) by (rewrite <- (form_ids _ _ (form_set i p v o)); apply in_map, Hz).
    unfold ids in Hid, Hi. apply in_map_iff in Hid, Hi. destruct Hid as (z & Ez & Hzo). destruct Hi as (x & Ex & Hx).
    destruct (nodes_sub o x Hx) as (q & Hq).
    assert (H1 : NoDup (all_ids [o])) by (rewrite all_one; exact Hn).
    assert (H2 : NoDup (all_ids [upd (is_id i) (set_prop p v) o])) by (rewrite all_one, (form_ids _ _ (form_set i p v o)); exact Hn).
    exists z. split; [exact Hzo|].
    destruct (nodes_upd (is_id i) (set_prop p v) (fun _ => False) o z (hits_once i o Hn)) as [H|(c & [] & _)].
    - intros y Hy _ l c Hl Hc. left. apply in_concat. exists l. split; [exact Hl|exact Hc].
    - exact Hzo.
    - assert (E : id_of (upd (is_id i) (set_prop p v) z) = id_of z) by (exact (upd_id i (SetProp i p v) None z)).
      assert (L1 := lookup_in _ z' H2 (proj2 (in_one _ _) Hz)). assert (L2 := lookup_in _ _ H2 (proj2 (in_one _ _) H)).
      rewrite E, Ez, L1 in L2. congruence.
  Qed.
  Lemma upd_props i p v o : props_of (upd (is_id i) (set_prop p v) o) = if id_of o =? i then set_nth p v (props_of o) else props_of o.
  Proof. destruct o as [[j ps] ss]. unfold id_of. cbn [upd label fst]. unfold is_id. cbn [fst]. destruct (j =? i); reflexivity. Qed.

  (** the values of the copy after the entries [L] were called *)
  Definition logged (L : list entry) (i p : nat) : Prop := exists q, In (ESet q i p) L.
  Lemma good_apply w o L : NoDup (ids o) -> Forall (good o) L ->
    (forall x, In x (nodes o) -> exists y, lookup (id_of x) w = Some y /\ length (props_of y) = length (props_of x)) ->
    exists o1, apply item w L (erase o) = Ok (erase o1) /\ form o1 o /\
      forall z x, In z (nodes o1) -> In x (nodes o) -> id_of x = id_of z -> forall p, p < length (props_of x) ->
        (logged L (id_of x) p -> forall y, lookup (id_of x) w = Some y -> nth_error (props_of z) p = nth_error (props_of y) p) /\
        (~ logged L (id_of x) p -> nth_error (props_of z) p = nth_error (props_of x) p).
  Proof.
    intros Hn HL Hw. induction L as [|e L IH] using rev_ind.
    - exists o. split; [reflexivity|]. split; [apply form_refl|]. intros z x Hz Hx Ei p Hp. split; [intros (q & [])|]. intros _.
      assert (x = z) by (apply (nodup_inj (@id_of V) (nodes o)); assumption). subst z. reflexivity.
    - apply Forall_app in HL. destruct HL as [HL He]. inversion He as [|? ? (q & i & p & x & -> & Hq & Hi & Hp & Hr) _]; subst. clear He.
      destruct (IH HL) as (o1 & Ea & F & Hv). clear IH.
      destruct (like_sub _ q o1 o x F Hq) as (x1 & Hq1 & L1). pose proof (like_label _ _ _ L1) as [La Lb].
      destruct (Hw x (sub_nodes q o x Hq)) as (y & Hy & Hly).
      destruct (nth_error (props_of y) p) as [v|] eqn:Ev; [|apply nth_error_None in Ev; lia].
      assert (Hn1 : NoDup (ids o1)) by (rewrite (form_ids _ _ F); exact Hn).
      pose proof (form_set (id_of x) p v o1) as F1.
      exists (upd (is_id (id_of x)) (set_prop p v) o1). split; [|split; [exact (form_trans _ _ _ F1 F)|]].
      + rewrite apply_app, Ea. cbn [apply call].
        rewrite (at_path_put item _ q (erase o1) (erase x1) (erase (set_prop p v x1))).
        * rewrite <- erase_put. f_equal. f_equal. symmetry. apply upd_put; [apply hits_once, Hn1|exact Hq1|]. unfold is_id. apply Nat.eqb_eq. exact La.
        * rewrite erase_sub, Hq1. reflexivity.
        * rewrite Hy, Ev, erase_label, erase_slots. reflexivity.
      + intros z' x' Hz' Hx' Ei p' Hp'. destruct (nodes_set _ p v o1 z' Hn1 Hz') as (z & Hz & ->).
        change (upd (is_id (id_of x)) (set_prop p v) z) with (upd (is_id (id_of x)) (act (SetProp (id_of x) p v) None) z) in Ei. rewrite upd_id in Ei.
        destruct (Hv z x' Hz Hx' Ei p' Hp') as [H1 H2]. rewrite upd_props.
        assert (Hlen : length (props_of z) = length (props_of x')).
        { assert (Hz0 : exists z0, In z0 (nodes o) /\ id_of z0 = id_of z /\ length (props_of z0) = length (props_of z)).
          { destruct (nodes_sub o1 z Hz) as (u & Hu). destruct (like_sub _ u o o1 z (like_flip _ _ _ F) Hu) as (z0 & Hz0 & L0). apply like_label in L0.
            cbv beta in L0. destruct L0 as [L0 L0']. exists z0. split; [exact (sub_nodes u o z0 Hz0)|]. split; [symmetry; exact L0|symmetry; exact L0']. }
          destruct Hz0 as (z0 & Hz0 & E0 & E0'). assert (z0 = x') by (apply (nodup_inj (@id_of V) (nodes o)); try assumption; congruence). congruence. }
        destruct (Nat.eqb_spec (id_of z) (id_of x)) as [E|E].
        * assert (Hxx : x' = x) by (apply (nodup_inj (@id_of V) (nodes o)); [exact Hn|exact Hx'|exact (sub_nodes q o x Hq)|congruence]). subst x'.
          rewrite nth_error_set_nth. destruct (Nat.eqb_spec p' p) as [->|Hne].
          -- split; [|intros Hno; exfalso; apply Hno; exists q; apply in_or_app; right; left; reflexivity].
             intros _ y' Hy'. assert (y' = y) by congruence. subst y'. rewrite Ev. destruct (nth_error (props_of z) p) eqn:Ez; [reflexivity|].
             apply nth_error_None in Ez. lia.
          -- split.
             ++ intros (u & Hu). apply H1. apply in_app_or in Hu. destruct Hu as [Hu|[[= _ Hu]|[]]]; [exists u; exact Hu|congruence].
             ++ intros Hno. apply H2. intros (u & Hu). apply Hno. exists u. apply in_or_app. left. exact Hu.
        * split.
          -- intros (u & Hu). apply H1. apply in_app_or in Hu. destruct Hu as [Hu|[[= _ Hu _]|[]]]; [exists u; exact Hu|congruence].
          -- intros Hno. apply H2. intros (u & Hu). apply Hno. exists u. apply in_or_app. left. exact Hu.
  Qed.

  (** objects keep the number of their properties *)
  Lemma hear_length s a j x : NoDup (all_ids (l_world s)) -> lookup j (l_world s) = Some x ->
    NoDup (all_ids (l_world (hear item recordable s a))) /\
    exists y, lookup j (l_world (hear item recordable s a)) = Some y /\ length (props_of y) = length (props_of x).
  Proof.
    intros Hn Hl.
    assert (E : l_world (hear item recordable s a) = match change item (l_world s) a with Some w => w | None => l_world s end).
    { unfold hear, step. cbn [st_world]. destruct (l_rec s); destruct (change item (l_world s) a); reflexivity. }
    rewrite E. destruct (change item (l_world s) a) as [w|] eqn:Ec; [|eauto].
    split; [exact (change_nodup item _ _ _ Hn Ec)|]. rewrite (change_lookup item _ _ _ j x Hn Ec Hl). eexists. split; [reflexivity|]. apply upd_length.
  Qed.
  Lemma lrun_length l : forall s j x, NoDup (all_ids (l_world s)) -> lookup j (l_world s) = Some x ->
    NoDup (all_ids (l_world (lrun s l))) /\ exists y, lookup j (l_world (lrun s l)) = Some y /\ length (props_of y) = length (props_of x).
  Proof.
    induction l as [|d l IH]; intros s j x Hn Hl; [cbn; eauto|]. change (lrun s (d :: l)) with (lrun (lstep item recordable s d) l).
    destruct d as [a|]; cbn [lstep].
    - destruct (hear_length s a j x Hn Hl) as (Hn1 & y & Hy & Ey). destruct (IH _ j y Hn1 Hy) as (H1 & z & Hz & Ez). split; [exact H1|]. exists z. split; [exact Hz|congruence].
    - unfold close. destruct (l_rec s); apply IH; assumption.
  Qed.

  Lemma late_run w r o l : NoDup (all_ids w) -> lookup r w = Some o -> Forall setting l ->
    exists t, apply item (l_world (lrun (open w o) l)) (l_log (lrun (open w o) l)) (erase o) = Ok t /\
      late recordable l (l_world (lrun (open w o) l)) t o.
  Proof.
    intros Hn Hl Hs. destruct (setting_run item recordable l (open w o) r o Hs (open_follows recordable w r o Hn Hl)) as (o' & Hf & F & _ & HL).
    destruct (lookup_some _ _ _ Hl) as [Ho _]. pose proof (nodup_root o w Hn Ho) as Hno.
    assert (Hin : forall x, In x (nodes o) -> In x (all_nodes w)).
    { intros x Hx. apply in_all_nodes in Ho. destruct Ho as (ro & Hro & Ho). apply in_all_nodes. exists ro. split; [exact Hro|exact (nodes_trans ro o x Ho Hx)]. }
    destruct (good_apply (l_world (lrun (open w o) l)) o (l_log (lrun (open w o) l)) Hno) as (o1 & Ea & F1 & Hv).
    - destruct Hf as (_ & _ & _ & Hg). rewrite Forall_forall in *. intros e He. apply (good_form recordable o'); [|apply Hg, He].
      refine (like_impl _ _ _ _ _ (like_flip _ _ _ F)). intros ? ? _ [? ?]. split; congruence.
    - intros x Hx. apply (lrun_length l (open w o) (id_of x) x Hn). apply lookup_in; [exact Hn|apply Hin, Hx].
    - exists (erase o1). split; [exact Ea|]. unfold late.
      assert (Hw : forall x p, In x (nodes o) -> p < length (props_of x) -> logged (l_log (lrun (open w o) l)) (id_of x) p <-> was_recorded recordable l (id_of x) p).
      { intros x p Hx Hp. unfold logged. rewrite HL. split.
        - intros [(q & [])|(_ & H & _)]. exact H.
        - intros H. right. split; [discriminate|]. split; [exact H|]. exists x. auto. }
      assert (H : like (fun (a : list V) (b : nat * list V) => length a = length (snd b) /\ exists z, In z (nodes o1) /\ label z = b /\ a = props_of z) (erase o1) o1).
      { refine (like_impl_r _ _ _ _ _ (erase_like o1)). intros z b Hz ->. split; [reflexivity|]. exists z. auto. }
      refine (like_impl_r _ _ _ _ _ (like_trans _ _ (fun (a : list V) (d : nat * list V) => length a = length (snd d) /\ exists z, In z (nodes o1) /\ id_of z = fst d /\ a = props_of z) _ _ o1 o H F1)).
      + intros x a Hx (Hla & z & Hz & Ez & ->). split; [exact Hla|]. intros p Hp. change (fst (label x)) with (id_of x) in *.
        destruct (Hv z x Hz Hx (eq_sym Ez) p Hp) as [H1 H2]. rewrite (Hw x p Hx Hp) in H1, H2. split; [exact H1|exact H2].
      + intros a b d (H1 & z & Hz & Eb & ->) [H3 H4]. split; [congruence|]. exists z. split; [exact Hz|]. split; [unfold id_of; congruence|reflexivity].
  Qed.
End P.
