From stdpp Require Import list.
From Coq Require Import ZArith Bool Arith Lia.
From Verif Require Import PyBase Selection_Model Selection_Spec Selection_Proofs Filtered_Model Filtered_Spec Filtered_Proofs
  Filtered_Proofs2 Filtered_Proofs3 FilteredSel_Spec.
Import ListNotations.
Local Open Scope nat_scope.

Section FS.
  Context {A C K : Type} (A_dec : forall a b : A, {a = b} + {a <> b}) (lt : K -> K -> bool).
  Notation fstate := (fstate A C K).

  Lemma selection_calls_app (t1 t2 : list (fev A)) : selection_calls (t1 ++ t2) = selection_calls t1 ++ selection_calls t2.
  Proof. induction t1 as [|e t1 IH]; simpl; [reflexivity|]. destruct e; simpl; rewrite IH; reflexivity. Qed.

  (** everything accepted, no key, no block, a container *)
  Definition plain (s : fstate) : Prop :=
    inv s /\ uns s /\ (forall c, fs_filter s c = true) /\ fs_key s = None /\ (fs_level s <= 0)%Z /\ fs_cont s <> None.

  Lemma plain_items s : plain s -> fs_items s = contents s /\ fs_master s = contents s.
  Proof.
    intros (Hi & Hu & Hf & Hk & Hl & _). pose proof (inv_master s Hi) as Hm. split; [|exact Hm].
    rewrite (Hu Hl Hk), <- Hm. apply filter_all. intros x _. unfold matching. apply Hf.
  Qed.

  Lemma plain_step (s : fstate) o s' tr e :
    f_step A_dec lt s o = (s', tr, e) -> plain s -> plain_edit s o ->
    plain s' /\ exists ed r, edits (fs_items s) [ed] r (fs_items s') /\
      selection_calls tr = [accompany ed] /\ map fst (removals tr) = r.
  Proof.
    intros E Hp Ho. destruct (plain_items s Hp) as [Hit Hma]. destruct Hp as (Hi & Hu & Hf & Hk & Hl & Hc).
    destruct o as [i x|i| | | | | | | | | |]; try contradiction.
    - destruct Ho as (k & -> & Hk2 & Hx).
      destruct (insert_step_inv A_dec lt _ _ _ _ _ _ E Hi Hx) as (Hi' & Fk & Fl & _ & _ & Hm' & HU & _).
      cbn [f_step] in E. destruct (fs_cont s) as [l|] eqn:Ec; [|congruence].
      assert (Hconn : fs_conn s = true). { destruct Hi as [_ HL]. unfold link in HL. rewrite Ec in HL. tauto. }
      rewrite Hconn in E. unfold item_inserted in E. cbn [fs_master with_cont] in E.
      rewrite Hma in E. rewrite (proj2 (inb_false A_dec x _) Hx) in E.
      assert (Hcont : contents s = l) by (unfold contents; rewrite Ec; reflexivity). rewrite Hcont in *.
      unfold inserted_master in E. cbn [fs_level with_master with_cont] in E. destruct (Z.ltb_spec 0 (fs_level s)); [lia|].
      match type of E with context [matching ?t x] => assert (Hmx : matching t x = true) by (unfold matching; apply Hf) end.
      rewrite Hmx in E. unfold do_insert in E. cbn in E. injection E as <- <- <-.
      assert (Hpl : plain (fst (fst (f_step A_dec lt s (FInsert (Z.of_nat k) x))))).
      { cbn [f_step]. rewrite Ec, Hconn. unfold item_inserted. cbn [fs_master with_cont]. rewrite Hma.
        rewrite (proj2 (inb_false A_dec x _) Hx). unfold inserted_master. cbn [fs_level with_master with_cont].
        destruct (Z.ltb_spec 0 (fs_level s)); [lia|]. rewrite Hmx. cbn. split; [exact Hi'|].
        split; [apply HU; exact Hu|]. split; [exact Hf|]. split; [exact Hk|]. split; [exact Hl|]. discriminate. }
      cbn [f_step] in Hpl. rewrite Ec, Hconn in Hpl. unfold item_inserted in Hpl. cbn [fs_master with_cont] in Hpl. rewrite Hma in Hpl.
      rewrite (proj2 (inb_false A_dec x _) Hx) in Hpl. unfold inserted_master in Hpl. cbn [fs_level with_master with_cont] in Hpl.
      destruct (Z.ltb_spec 0 (fs_level s)); [lia|]. rewrite Hmx in Hpl. cbn in Hpl.
      split; [exact Hpl|]. exists (LIns k x), []. destruct (plain_items _ Hpl) as [Hit' _].
      split; [|split; reflexivity]. rewrite Hit'. cbn [contents fs_cont with_items with_master with_cont]. rewrite Hit.
      unfold py_insert. rewrite py_insert_pos_nat by exact Hk2.
      destruct (split_at l k Hk2) as (l1 & l2 & -> & <-). rewrite insert_at_app. apply edits_ins; [|constructor].
      rewrite elem_of_list_In. exact Hx.
    - destruct Ho as (k & -> & Hk2).
      destruct (remove_step_inv A_dec lt _ _ _ _ _ E Hi) as (Hi' & Fk & Fl & _ & _ & HU & _).
      assert (Hex : exists l1 x l2, contents s = l1 ++ x :: l2 /\ length l1 = k).
      { destruct (nth_error (contents s) k) as [x|] eqn:En; [|apply nth_error_None in En; lia].
        apply nth_error_split in En as (l1 & l2 & ? & ?). exists l1, x, l2. auto. }
      destruct Hex as (l1 & x & l2 & Hcs & <-).
      cbn [f_step] in E. destruct (fs_cont s) as [l|] eqn:Ec; [|congruence].
      assert (Hcont : contents s = l) by (unfold contents; rewrite Ec; reflexivity). rewrite Hcont in *. rewrite Hcs in Hk2, Hit, Hma, E, Ec.
      assert (Hg : py_get (l1 ++ x :: l2) (Z.of_nat (length l1)) = Ok x).
      { unfold py_get. rewrite py_index_nat by exact Hk2. rewrite nth_error_app2, Nat.sub_diag by lia. reflexivity. }
      assert (Hd : py_del (l1 ++ x :: l2) (Z.of_nat (length l1)) = Ok (l1 ++ l2)).
      { unfold py_del. rewrite py_index_nat by exact Hk2. rewrite delete_at_app. reflexivity. }
      rewrite Hg, Hd in E.
      assert (Hconn : fs_conn s = true). { destruct Hi as [_ HL]. unfold link in HL. rewrite Ec in HL. tauto. }
      rewrite Hconn in E. unfold item_removed in E. cbn [fs_master with_cont fs_listen] in E. rewrite Hma, Hd in E.
      destruct Hi as [[(Hnd & Hli & Hndi) _] _].
      assert (Hxl : inb A_dec x (fs_listen s) = true). { apply inb_spec. apply Hli. rewrite Hma, in_app_iff. right; left; reflexivity. }
      rewrite Hxl in E. unfold removed_master in E. cbn [fs_level with_master with_cont fs_items] in E.
      destruct (Z.ltb_spec 0 (fs_level s)); [lia|]. rewrite Hit in E, Hndi. rewrite index_of_app in E by (apply nodup_app_parts in Hndi; tauto).
      rewrite delete_at_app in E. cbn in E. injection E as <- <- <-.
      split.
      + split; [exact Hi'|]. split; [apply HU; exact Hu|]. split; [exact Hf|]. split; [exact Hk|]. split; [exact Hl|]. discriminate.
      + exists (LDel (length l1)), [x]. split; [|split; reflexivity]. rewrite Hit. cbn. apply edits_del. constructor.
  Qed.

  Lemma edits_cons {X} (L : list X) ed r L1 es r2 L2 :
    edits L [ed] r L1 -> edits L1 es r2 L2 -> edits L (ed :: es) (r ++ r2) L2.
  Proof.
    intros H1 H2. inversion H1 as [|La Lb x es' r' L' Hx He|La Lb x es' r' L' He]; subst.
    - inversion He; subst. apply edits_ins; assumption.
    - inversion He; subst. apply edits_del. assumption.
  Qed.

  Lemma plain_run h : forall s : fstate, plain s -> along A_dec lt plain_edit s h ->
    let '(s', tr) := f_run A_dec lt s h in
    plain s' /\ exists es, edits (fs_items s) es (map fst (removals tr)) (fs_items s') /\ selection_calls tr = map accompany es.
  Proof.
    induction h as [|o h IH]; intros s Hp Ha; simpl in *.
    - split; [exact Hp|]. exists []. split; [constructor|reflexivity].
    - destruct Ha as [Ho Ha]. destruct (f_step A_dec lt s o) as [[s1 t1] e1] eqn:E. cbn [fst] in Ha.
      destruct (plain_step _ _ _ _ _ E Hp Ho) as (Hp1 & ed & r & He & Hs & Hr).
      specialize (IH s1 Hp1 Ha). destruct (f_run A_dec lt s1 h) as [s2 t2]. destruct IH as (Hp2 & es & He2 & Hs2).
      split; [exact Hp2|]. exists (ed :: es). split.
      + rewrite removals_app, map_app, Hr. eapply edits_cons; eassumption.
      + rewrite selection_calls_app, Hs, Hs2. reflexivity.
  Qed.

  Lemma plain_start (w : A -> C) l :
    NoDup l -> plain (fst (f_run (K := K) A_dec lt (f_new w) [FSetContainer (Some l)])).
  Proof.
    intros Hnd. change (f_run A_dec lt (f_new w) [FSetContainer (Some l)]) with
      (let '(s1, t1, _) := attach A_dec lt (@f_new A C K w) (Some l) in (s1, t1 ++ [])).
    destruct (attach A_dec lt (f_new w) (Some l)) as [[s t] e] eqn:E. cbn [fst].
    assert (Hnew := new_inv (A := A) (C := C) (K := K) A_dec lt w). destruct Hnew as (Hi & Hu & _).
    destruct (attach_inv A_dec lt _ _ _ _ _ E) as (-> & Hi' & Hc & _ & HU & _).
    - apply Hi.
    - reflexivity.
    - apply NoDup_ListNoDup. exact Hnd.
    - pose proof E as E2. unfold attach in E2.
      destruct (insert_loop A_dec lt l 0 _) as [[s2 t2] e2] eqn:E3. injection E2 as <- <- ->.
      destruct (insert_loop_inv A_dec lt _ _ _ _ _ _ E3) as (_ & _ & _ & F & _); [apply Hi|reflexivity|apply NoDup_ListNoDup; exact Hnd|].
      destruct F as (_ & _ & _ & Ff & Fk & _ & Fl & _). cbn in Ff, Fk, Fl.
      split; [exact Hi'|]. split; [apply HU; exact Hu|]. rewrite Ff, Fk, Fl, Hc.
      split; [reflexivity|]. split; [reflexivity|]. split; [lia|discriminate].
  Qed.
End FS.
