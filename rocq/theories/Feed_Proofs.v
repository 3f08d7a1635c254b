(** Indices of the notifications of a filtered list, and the shape of the trace of a step. *)
From Coq Require Import List ZArith Bool Arith Permutation Sorted Lia.
From Verif Require Import PyBase Filtered_Model Filtered_Spec Filtered_Proofs Filtered_Proofs2 Filtered_Proofs3 Mapped_Model Flattened_Model Feed_Model Feed_Spec.
From Verif Require Chain_Proofs.
Import ListNotations.

Section P.
  Context {A C K : Type} (A_dec : forall a b : A, {a = b} + {a <> b}) (lt : K -> K -> bool).
  Notation fstate := (fstate A C K).
  Notation inb := (inb A_dec).
  Notation inv := (inv (A := A) (C := C) (K := K)).

  Lemma in_bounds_app (t1 t2 : list (fev A)) : forall l l1,
    in_bounds l t1 -> f_follows l t1 l1 -> in_bounds l1 t2 -> in_bounds l (t1 ++ t2).
  Proof.
    induction t1 as [|e t1 IH]; intros l l1 H1 F H2; simpl in *; [subst; exact H2|].
    destruct e; try (eapply IH; eassumption).
    - destruct H1 as [Hk H1]. split; [exact Hk|]. eapply IH; eassumption.
    - destruct H1 as [Hk H1]. destruct F as [_ F]. split; [exact Hk|]. eapply IH; eassumption.
  Qed.
  Lemma in_bounds_removing (tr : list (fev A)) : forall l l1,
    f_follows l tr l1 -> forallb Chain_Proofs.not_ins tr = true -> in_bounds l tr.
  Proof.
    induction tr as [|e tr IH]; intros l l1 F H; simpl in *; [exact I|].
    apply andb_prop in H as [He H]. destruct e; try discriminate; try (eapply IH; eassumption).
    destruct F as [Hk F]. split; [exact Hk|]. eapply IH; eassumption.
  Qed.

  Lemma find_sorted_le {T} (op : T -> T -> bool) (key : A -> T) l x : find_sorted op key l x <= length l.
  Proof. apply bsearch_le. lia. Qed.

  Lemma inserted_master_b (s : fstate) x s' tr :
    inserted_master A_dec lt s x = (s', tr) ->
    ((fs_level s <= 0)%Z -> fs_key s = None -> matching s x = true -> find_unsorted A_dec (matching s) x (fs_master s) <= length (fs_items s)) ->
    in_bounds (fs_items s) tr.
  Proof.
    unfold inserted_master. destruct (Z.ltb_spec 0 (fs_level s)) as [Hl|Hl]; [intros [= <- <-] _; exact I|].
    destruct (matching s x) eqn:Em; [|intros [= <- <-] _; exact I]. intros [= <- <-] H. simpl. split; [|exact I].
    unfold insert_pos. destruct (fs_key s) eqn:Ek; [apply find_sorted_le|apply H; auto].
  Qed.
  Lemma removed_master_b (s : fstate) x s' tr : removed_master A_dec s x = (s', tr) -> in_bounds (fs_items s) tr.
  Proof.
    intros E. pose proof (removed_master_tidy A_dec _ _ _ _ E) as [H _]. eapply in_bounds_removing; [apply f_names_follows; exact H|].
    eapply Chain_Proofs.removed_master_ni. exact E.
  Qed.

  Lemma item_inserted_b (s : fstate) x i s' tr e :
    item_inserted A_dec lt s x i = (s', tr, e) -> lists s -> in_bounds (fs_items s) tr.
  Proof.
    unfold item_inserted. intros E [_ Hp]. destruct (Filtered_Model.inb A_dec x (fs_master s)) eqn:Ex; [injection E as <- <- <-; exact I|].
    apply inb_false in Ex.
    destruct (inserted_master A_dec lt _ x) as [s2 t2] eqn:E2. injection E as <- <- <-.
    pose proof (inserted_master_tidy _ _ _ _ _ _ E2) as [Ht _].
    eapply in_bounds_app; [|apply f_names_follows; exact Ht|exact I]. change (fs_items s) with (fs_items (with_master s (py_insert i x (fs_master s)) (x :: fs_listen s))).
    eapply inserted_master_b; [exact E2|]. cbn [fs_level with_master fs_items fs_master fs_key].
    intros Hl _ _. destruct (py_insert_split i x (fs_master s)) as (l1 & l2 & E1 & E3). rewrite E3.
    rewrite find_unsorted_app by (intros H; apply Ex; rewrite E1; apply in_app_iff; auto).
    rewrite (Permutation_length (Hp Hl)), E1, filter_app, app_length. unfold matching. simpl. lia.
  Qed.

  Lemma updated_master_b (s0 : fstate) x c s' tr :
    let s := with_content s0 (update_content A_dec (fs_content s0) x c) in
    updated_master A_dec lt s x = (s', tr) -> lists s0 -> In x (fs_master s0) -> in_bounds (fs_items s0) tr.
  Proof.
    intros s E [(Nm & _ & Ni) Hp] Hx. unfold updated_master in E. destruct (Z.ltb_spec 0 (fs_level s)) as [Hl|Hl]; [injection E as <- <-; exact I|].
    assert (R : remove_then_insert A_dec lt s x = (s', tr) -> fs_key s <> None -> in_bounds (fs_items s0) tr).
    { unfold remove_then_insert. intros E' Hk. destruct (removed_master A_dec s x) as [s1 t1] eqn:E1.
      destruct (inserted_master A_dec lt s1 x) as [s2 t2] eqn:E2. injection E' as <- <-.
      pose proof (removed_master_tidy _ _ _ _ _ E1) as [H1 _]. change (fs_items s0) with (fs_items s).
      eapply in_bounds_app; [eapply removed_master_b; exact E1|apply f_names_follows; exact H1|].
      eapply inserted_master_b; [exact E2|]. intros _ Hk1. exfalso. apply Hk.
      destruct (removed_master_cases _ _ _ _ _ E1) as [[-> _]|(i1 & i2 & _ & _ & -> & _)]; exact Hk1. }
    assert (I : ~ In x (fs_items s0) -> inserted_master A_dec lt s x = (s', tr) -> in_bounds (fs_items s0) tr).
    { intros Hxi E'. change (fs_items s0) with (fs_items s). eapply inserted_master_b; [exact E'|]. intros _ Hk Hm.
      change (fs_items s) with (fs_items s0). change (fs_master s) with (fs_master s0).
      apply in_split in Hx as (l1 & l2 & E1). rewrite E1 in Nm |- *.
      assert (H1 : ~ In x l1) by (apply nodup_app_parts in Nm; tauto).
      rewrite find_unsorted_app by exact H1. unfold s. rewrite content_filter by exact H1.
      rewrite (Permutation_length (Hp Hl)), E1, filter_app, app_length. lia. }
    destruct (matching s x).
    - destruct (fs_key s) as [k|] eqn:Ek.
      + destruct (index_of A_dec x (fs_items s)) as [i|] eqn:Ei.
        * destruct (_ <? _); [apply R; [exact E|congruence]|]. destruct (_ <? _); [apply R; [exact E|congruence]|]. injection E as <- <-. exact Logic.I.
        * apply index_of_none in Ei. apply I; [exact Ei|exact E].
      + destruct (Filtered_Model.inb A_dec x (fs_items s)) eqn:Ei; [injection E as <- <-; exact Logic.I|].
        apply inb_false in Ei. apply I; [exact Ei|exact E].
    - change (fs_items s0) with (fs_items s). eapply removed_master_b. exact E.
  Qed.

  Lemma ins_loop_b pos xs : (forall l x, pos l x <= length l) -> forall items : list A, in_bounds items (snd (ins_loop pos xs items)).
  Proof.
    intros Hp. induction xs as [|x xs IH]; intros items; simpl; [exact I|].
    specialize (IH (insert_at (pos items x) x items)). destruct (ins_loop pos xs _) as [it tr]. simpl. auto.
  Qed.
  Lemma append_loop_b new : forall items : list A, in_bounds items (snd (append_loop new items)).
  Proof.
    induction new as [|x new IH]; intros items; simpl; [exact I|].
    specialize (IH (items ++ [x])). destruct (append_loop new _) as [it tr]. simpl. split; [lia|].
    rewrite <- (app_nil_r items) at 2. rewrite insert_at_app. exact IH.
  Qed.
  Lemma update_items_b ord (s : fstate) s' tr e : update_items A_dec lt ord s = (s', tr, e) -> in_bounds (fs_items s) tr.
  Proof.
    unfold update_items. destruct (0 <? fs_level s)%Z; [intros [= <- <- <-]; exact I|].
    destruct (negb _); [intros [= <- <- <-]; exact I|]. destruct (fs_sorted s).
    - destruct (rem_loop _ (fs_items s) 0 0 (fs_items s)) as [it1 t1] eqn:E1.
      match goal with |- context [ins_loop ?p ?x ?l] => pose proof (ins_loop_b p x) as Hb; destruct (ins_loop p x l) as [it2 t2] eqn:E2 end.
      intros [= <- <- <-]. simpl.
      destruct (rem_loop_names _ (fs_items s) [] 0 0 it1 t1 eq_refl (le_n 0) E1) as [H1 _]. apply f_names_follows in H1.
      destruct (ins_loop_names _ _ _ _ _ E2) as [H3 _]. apply f_names_follows in H3.
      eapply in_bounds_app; [|eapply f_follows_app; [exact H1|exact H3]|exact I].
      eapply in_bounds_app; [|exact H1|].
      + eapply in_bounds_removing; [exact H1|]. pose proof (Chain_Proofs.rem_loop_ni (fun x => negb (Filtered_Model.inb A_dec x (build_items lt s))) (fs_items s) 0 0 (fs_items s)) as R. rewrite E1 in R. exact R.
      + specialize (Hb ltac:(intros l x; destruct (fs_key s); apply find_sorted_le) it1). rewrite E2 in Hb. exact Hb.
    - pose proof (append_loop_b (build_items lt s) []) as Hb. destruct (append_loop (build_items lt s) []) as [it2 t2] eqn:E2. intros [= <- <- <-].
      destruct (pop_loop_follows (fs_items s) (fs_items s) eq_refl) as [H1 _]. destruct (append_loop_follows _ _ _ _ E2) as [H3 _]. apply f_names_follows in H3.
      simpl. eapply in_bounds_app; [|eapply f_follows_app; [exact H1|exact H3]|exact I].
      eapply in_bounds_app; [|exact H1|exact Hb]. eapply in_bounds_removing; [exact H1|]. apply Chain_Proofs.pop_loop_ni.
  Qed.

  Lemma remove_loop_b xs : forall (s : fstate) s' tr e, remove_loop A_dec xs s = (s', tr, e) -> in_bounds (fs_items s) tr.
  Proof.
    intros s s' tr e E. pose proof (remove_loop_tidy A_dec _ _ _ _ _ E) as [H _].
    eapply in_bounds_removing; [apply f_names_follows; exact H|]. eapply Chain_Proofs.remove_loop_ni. exact E.
  Qed.
  Lemma insert_loop_b xs : forall idx (s : fstate) s' tr e,
    insert_loop A_dec lt xs idx s = (s', tr, e) -> lists s -> length (fs_master s) = idx -> NoDup (fs_master s ++ xs) -> in_bounds (fs_items s) tr.
  Proof.
    induction xs as [|x xs IH]; intros idx s s' tr e; cbn [insert_loop]; [intros [= <- <- <-] _ _ _; exact I|].
    intros E H Hm Hnd. destruct (item_inserted A_dec lt s x _) as [[s1 t1] e1] eqn:E1.
    assert (Hx : ~ In x (fs_master s)) by (apply nodup_app_parts in Hnd; tauto).
    destruct (item_inserted_inv A_dec lt s x _ _ _ _ E1 H Hx) as (-> & H1 & Hm1 & _).
    assert (Em : fs_master s1 = fs_master s ++ [x]).
    { rewrite Hm1. unfold py_insert. rewrite py_insert_pos_nat by lia. rewrite <- Hm.
      rewrite <- (app_nil_r (fs_master s)) at 2. rewrite insert_at_app. reflexivity. }
    destruct (insert_loop A_dec lt xs (S idx) s1) as [[s2 t2] e2] eqn:E2. injection E as <- <- <-.
    pose proof (item_inserted_tidy _ _ _ _ _ _ _ _ E1) as [Ht _].
    eapply in_bounds_app; [eapply item_inserted_b; eassumption|apply f_names_follows; exact Ht|].
    eapply IH; [exact E2|exact H1|rewrite Em, app_length; simpl; lia|rewrite Em, <- app_assoc; exact Hnd].
  Qed.

  (** every notification of a step has an index inside the list *)
  Lemma step_in_bounds (s : fstate) o s' tr e :
    f_step A_dec lt s o = (s', tr, e) -> inv s -> no_duplicates s o -> in_bounds (fs_items s) tr.
  Proof.
    intros E Hi Hd.
    assert (U : forall s0, fs_items s0 = fs_items s -> reset_and_update A_dec lt s0 = (s', tr, e) -> in_bounds (fs_items s) tr).
    { intros s0 H0 E0. unfold reset_and_update in E0. destruct (update_items _ _ _ s0) as [[s1 t1] e1] eqn:E1. injection E0 as <- <- <-.
      rewrite <- H0. simpl. eapply update_items_b. exact E1. }
    destruct o as [i x|i|x c|f|k|b| |ord|c| | |]; cbn [f_step] in E; try (injection E as <- <- <-; exact I).
    - destruct (fs_cont s) as [l|] eqn:Ec; [|injection E as <- <- <-; exact I]. destruct (fs_conn s); [|injection E as <- <- <-; exact I].
      change (fs_items s) with (fs_items (with_cont s (Some (py_insert i x l)) true)). eapply item_inserted_b; [exact E|]. apply Hi.
    - destruct (fs_cont s) as [l|] eqn:Ec; [|injection E as <- <- <-; exact I].
      destruct (py_get l i) as [x|]; [|injection E as <- <- <-; exact I]. destruct (py_del l i) as [l'|]; [|injection E as <- <- <-; exact I].
      destruct (fs_conn s); [|injection E as <- <- <-; exact I].
      change (fs_items s) with (fs_items (with_cont s (Some l') true)).
      pose proof (item_removed_tidy _ _ _ _ _ _ _ E) as [H _]. eapply in_bounds_removing; [apply f_names_follows; exact H|].
      eapply Chain_Proofs.item_removed_ni. exact E.
    - destruct (Filtered_Model.inb A_dec x (fs_listen s)) eqn:El; [|injection E as <- <- <-; exact I].
      destruct (Filtered_Model.inb A_dec x (fs_master s)) eqn:Em; [|injection E as <- <- <-; exact I].
      destruct (updated_master _ _ _ x) as [s2 t2] eqn:E2. injection E as <- <- <-. eapply updated_master_b; [exact E2|apply Hi|].
      apply inb_spec in Em. exact Em.
    - refine (U _ _ E). reflexivity.
    - refine (U _ _ E). reflexivity.
    - refine (U _ _ E). reflexivity.
    - destruct (_ =? 0)%Z; [|injection E as <- <- <-; exact I].
      change (fs_items s) with (fs_items (with_level s (fs_level s - 1))). eapply update_items_b. exact E.
    - assert (At : forall s1 t, lists s1 -> fs_master s1 = [] -> match c with Some l => NoDup l | None => True end ->
        attach A_dec lt s1 c = (s', t, e) -> in_bounds (fs_items s1) t).
      { intros s1 t L1 M1 Hc E1. unfold attach in E1. destruct c as [l|]; [|injection E1 as <- <- <-; exact I].
        destruct (insert_loop A_dec lt l 0 _) as [[s2 t2] e2] eqn:E2. injection E1 as <- <- <-. simpl.
        change (fs_items s1) with (fs_items (with_sorted (with_cont s1 (Some l) true) false)).
        eapply insert_loop_b; [exact E2|exact L1|simpl; rewrite M1; reflexivity|simpl; rewrite M1; exact Hc]. }
      unfold set_container in E. destruct Hi as [L Lk]. unfold link in Lk. destruct (fs_cont s) as [old|] eqn:Ec.
      + destruct Lk as [Hc Hm]. rewrite Hc in E.
        destruct (remove_loop A_dec (rev old) (with_cont s (Some old) false)) as [[s1 t1] e1] eqn:E1.
        destruct (remove_loop_inv A_dec lt _ _ _ _ _ E1) as (-> & L1 & M1 & _); [exact L|simpl; rewrite rev_involutive; exact Hm|].
        destruct (attach A_dec lt s1 c) as [[s2 t2] e2] eqn:E2. injection E as <- <- <-.
        change (fs_items s) with (fs_items (with_cont s (Some old) false)).
        pose proof (remove_loop_tidy A_dec _ _ _ _ _ E1) as [Ht _].
        eapply in_bounds_app; [eapply remove_loop_b; exact E1|apply f_names_follows; exact Ht|].
        eapply At; [exact L1|exact M1| |exact E2]. destruct c; exact Hd.
      + eapply At; [exact L|exact Lk| |exact E]. destruct c; exact Hd.
  Qed.

  (** ** traces without a rebuild: right names, indices inside, no item twice *)
  Fixpoint plain (l : list A) (tr : list (fev A)) (l' : list A) : Prop :=
    match tr with
    | [] => l = l'
    | FIns x k :: tr' => ~ In x l /\ k <= length l /\ plain (insert_at k x l) tr' l'
    | FRem x k :: tr' => nth_error l k = Some x /\ plain (delete_at k l) tr' l'
    | _ :: tr' => plain l tr' l'
    end.
  Lemma plain_app t1 t2 : forall l l1 l2, plain l t1 l1 -> plain l1 t2 l2 -> plain l (t1 ++ t2) l2.
  Proof.
    induction t1 as [|e t1 IH]; intros l l1 l2 H1 H2; simpl in *; [subst; exact H2|].
    destruct e; try (eapply IH; eassumption).
    - destruct H1 as (Ha & Hb & H1). split; [exact Ha|]. split; [exact Hb|]. eapply IH; eassumption.
    - destruct H1 as (Ha & H1). split; [exact Ha|]. eapply IH; eassumption.
  Qed.
  Lemma plain_rem tr : forall l l', f_names l tr l' -> forallb Chain_Proofs.not_ins tr = true -> plain l tr l'.
  Proof.
    induction tr as [|e tr IH]; intros l l' H Hn; [exact H|]. cbn [forallb] in Hn. apply andb_prop in Hn as [He Hn].
    destruct e; simpl in *; try discriminate; try (apply IH; assumption). destruct H as [Hx H]. auto.
  Qed.
  Lemma plain_ins tr : forall l l', f_names l tr l' -> forallb Chain_Proofs.not_rem tr = true -> NoDup l' -> in_bounds l tr -> plain l tr l'.
  Proof.
    induction tr as [|e tr IH]; intros l l' H Hn Hd Hb; [exact H|]. cbn [forallb] in Hn. apply andb_prop in Hn as [He Hn].
    destruct e; simpl in *; try discriminate; try (apply IH; assumption). destruct Hb as [Hk Hb].
    split; [|split; [exact Hk|apply IH; assumption]].
    eapply (Chain_Proofs.nodup_inserted k x). eapply Chain_Proofs.names_ins_nodup; eassumption.
  Qed.
  Lemma in_bounds_split t1 t2 : forall l l1, f_names l t1 l1 -> in_bounds l (t1 ++ t2) -> in_bounds (A := A) l1 t2.
  Proof.
    induction t1 as [|e t1 IH]; intros l l1 H Hb; simpl in *; [subst; exact Hb|].
    destruct e; try (eapply IH; eassumption).
    - destruct Hb as [_ Hb]. eapply IH; eassumption.
    - destruct Hb as [_ Hb]. destruct H as [_ H]. eapply IH; eassumption.
  Qed.
  Lemma named_plain l tr l' : f_names l tr l' -> Chain_Proofs.two_phase tr -> NoDup l' -> in_bounds l tr -> plain l tr l'.
  Proof.
    intros H (t1 & t2 & -> & H1 & H2) Hd Hb. apply Chain_Proofs.f_names_split in H as (l1 & Ha & Hc).
    eapply plain_app; [apply plain_rem; eassumption|apply plain_ins; try assumption]. eapply in_bounds_split; eassumption.
  Qed.

  Lemma rebuild_shape ord (s : fstate) s' tr e :
    update_items A_dec lt ord s = (s', tr, e) -> fs_sorted s = false -> (fs_level s <= 0)%Z -> NoDup (fs_master s) -> NoDup (fs_items s') ->
    exists t2, tr = FBegin :: pop_loop (fs_items s) (fs_items s) ++ t2 /\ plain [] t2 (fs_items s').
  Proof.
    unfold update_items. intros E Hs Hl Hm Hd. destruct (Z.ltb_spec 0 (fs_level s)); [lia|].
    rewrite (proj2 (nodupb_spec A_dec _) Hm) in E. cbn [negb] in E. rewrite Hs in E.
    pose proof (Chain_Proofs.append_loop_nr (build_items lt s) []) as Hn. pose proof (append_loop_b (build_items lt s) []) as Hb.
    destruct (append_loop (build_items lt s) []) as [it2 t2] eqn:E2. injection E as <- <- <-.
    destruct (append_loop_follows _ _ _ _ E2) as [H3 _]. cbn [fs_items with_sorted with_items] in *.
    exists (t2 ++ [FEnd]). split; [rewrite <- app_assoc; reflexivity|].
    eapply plain_app; [apply plain_ins; [exact H3|exact Hn|exact Hd|exact Hb]|reflexivity].
  Qed.

  (** the two shapes of a step *)
  Lemma step_shape (s : fstate) o s' tr e :
    f_step A_dec lt s o = (s', tr, e) -> inv s -> no_duplicates s o -> set_order s o ->
    if rebuilds s o then
      exists t1 t2, tr = t1 ++ pop_loop (fs_items s) (fs_items s) ++ t2 /\ forallb Chain_Proofs.quiet t1 = true /\ plain [] t2 (fs_items s')
    else plain (fs_items s) tr (fs_items s').
  Proof.
    intros E Hi Hnd Hso. pose proof (Chain_Proofs.f_step_tp A_dec lt _ _ _ _ _ E) as Ht.
    destruct (f_step_trace A_dec lt _ _ _ _ _ E) as (_ & Hn & _). pose proof (step_in_bounds _ _ _ _ _ E Hi Hnd) as Hb.
    destruct (step_inv A_dec lt _ _ _ _ _ E Hi Hnd Hso) as [Hi' _].
    assert (Hd : NoDup (fs_items s')) by apply Hi'. assert (Hm : NoDup (fs_master s)) by apply Hi.
    assert (U : forall s0, fs_sorted s0 = false -> fs_items s0 = fs_items s -> fs_master s0 = fs_master s -> fs_level s0 = fs_level s ->
      reset_and_update A_dec lt s0 = (s', tr, e) ->
      if (fs_level s <=? 0)%Z then
        exists t1 t2, tr = t1 ++ pop_loop (fs_items s) (fs_items s) ++ t2 /\ forallb Chain_Proofs.quiet t1 = true /\ plain [] t2 (fs_items s')
      else plain (fs_items s) tr (fs_items s')).
    { intros s0 Hs H1 H2 H3. unfold reset_and_update. destruct (update_items _ _ _ s0) as [[s1 t1] e1] eqn:E1. intros [= <- <- <-].
      destruct (Z.leb_spec (fs_level s) 0) as [Hl|Hl].
      - destruct (rebuild_shape _ _ _ _ _ E1 Hs) as (t2 & -> & Hp); [lia|congruence|exact Hd|]. rewrite H1.
        exists [FReset; FBegin], t2. auto.
      - unfold update_items in E1. destruct (Z.ltb_spec 0 (fs_level s0)); [|lia]. injection E1 as <- <- <-. simpl. congruence. }
    destruct o as [i x|i|x c|f|k|b| |ord|c| | |]; cbn [rebuilds]; try solve [apply named_plain; [apply Hn; intros []|exact Ht|exact Hd|exact Hb]].
    - refine (U (with_settings s _ _ _) _ _ _ _ E); reflexivity.
    - refine (U (with_settings s _ _ _) _ _ _ _ E); reflexivity.
    - refine (U (with_settings s _ _ _) _ _ _ _ E); reflexivity.
    - cbn [f_step] in E. destruct (Z.eqb_spec (fs_level s) 1) as [Hl|Hl].
      + assert (Ez : (fs_level (with_level s (fs_level s - 1)) =? 0)%Z = true) by (simpl; apply Z.eqb_eq; lia). rewrite Ez in E.
        destruct (fs_sorted s) eqn:Es; cbn [andb negb]; [apply named_plain; [apply Hn; simpl; congruence|exact Ht|exact Hd|exact Hb]|].
        destruct (rebuild_shape _ _ _ _ _ E) as (t2 & -> & Hp); [exact Es|simpl; lia|exact Hm|exact Hd|].
        exists [FBegin], t2. auto.
      + cbn [andb]. assert (Ez : (fs_level (with_level s (fs_level s - 1)) =? 0)%Z = false) by (simpl; apply Z.eqb_neq; lia). rewrite Ez in E.
        injection E as <- <- <-. reflexivity.
  Qed.
End P.
