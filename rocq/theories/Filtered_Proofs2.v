From Coq Require Import List ZArith Bool Arith Permutation Sorted Lia.
From Verif Require Import PyBase Filtered_Model Filtered_Spec Filtered_Proofs.
Import ListNotations.

Lemma sort_insert_srt {A X} (op : X -> X -> bool) (key : A -> X) x l :
  strict_weak_order op -> srt op key l -> srt op key (sort_insert (fun a b => op (key a) (key b)) x l).
Proof.
  intros (Hirr & Hneg & Htr). induction l as [|y l IH]; intros H; simpl.
  - constructor; constructor.
  - inversion H as [|? ? H1 H2]; subst. destruct (op (key y) (key x)) eqn:E.
    + constructor; [apply IH; exact H1|]. apply Forall_forall. intros b Hb.
      apply (Permutation_in _ (sort_insert_perm _ x l)) in Hb. destruct Hb as [<-|Hb].
      * destruct (op (key x) (key y)) eqn:E2; [|reflexivity]. rewrite <- (Hirr (key x)). symmetry. eapply Htr; eassumption.
      * rewrite Forall_forall in H2. apply H2. exact Hb.
    + constructor; [exact H|]. apply Forall_forall. intros b [<-|Hb]; [exact E|].
      rewrite Forall_forall in H2. specialize (H2 b Hb). destruct (op (key b) (key x)) eqn:E2; [|reflexivity].
      destruct (Hneg _ (key y) _ E2); congruence.
Qed.
Lemma py_sorted_srt {A X} (op : X -> X -> bool) (key : A -> X) l :
  strict_weak_order op -> srt op key (py_sorted (fun a b => op (key a) (key b)) l).
Proof.
  intros H. induction l as [|x l IH]; simpl; [constructor|]. apply sort_insert_srt; assumption.
Qed.

Lemma nat_swo : strict_weak_order Nat.ltb.
Proof.
  split; [|split]; intros *; rewrite ?Nat.ltb_lt, ?Nat.ltb_ge; lia.
Qed.

Lemma app_inj_pivot_len {A} (l1 l2 m1 m2 : list A) x :
  l1 ++ x :: l2 = m1 ++ x :: m2 -> length l1 = length m1 -> l1 = m1 /\ l2 = m2.
Proof.
  revert m1. induction l1 as [|a l1 IH]; intros [|b m1] E H; simpl in *; try discriminate.
  - injection E as ->. auto.
  - injection E as -> E. injection H as H. destruct (IH _ E H) as [-> ->]. auto.
Qed.

Section F2.
  Context {A C K : Type} (A_dec : forall a b : A, {a = b} + {a <> b}) (lt : K -> K -> bool).
  Notation inb := (inb A_dec).
  Notation index_of := (index_of A_dec).
  Notation fstate := (fstate A C K).

  Lemma index_in_srt (l : list A) : NoDup l -> srt (sort_op Nat.ltb false) (index_in A_dec l) l.
  Proof.
    intros Hnd. apply ss_ordered. intros l1 a l2 b l3 E. unfold sort_op, index_in.
    rewrite E in Hnd.
    assert (Ha : index_of a l = Some (length l1)).
    { rewrite E. apply index_of_app. apply nodup_app_parts in Hnd. tauto. }
    assert (Hb : index_of b l = Some (length (l1 ++ a :: l2))).
    { rewrite E. replace (l1 ++ a :: l2 ++ b :: l3) with ((l1 ++ a :: l2) ++ b :: l3) in * by (rewrite <- app_assoc; reflexivity).
      apply index_of_app. apply nodup_app_parts in Hnd. tauto. }
    rewrite Ha, Hb. apply Nat.ltb_ge. rewrite app_length. simpl. lia.
  Qed.
  Lemma index_in_inj (l : list A) a b : In a l -> In b l -> index_in A_dec l a = index_in A_dec l b -> a = b.
  Proof.
    unfold index_in. intros Ha Hb.
    destruct (index_of a l) as [i|] eqn:Ea; [|apply index_of_none in Ea; contradiction].
    destruct (index_of b l) as [j|] eqn:Eb; [|apply index_of_none in Eb; contradiction].
    intros ->. apply index_of_some in Ea as (l1 & l2 & -> & Hl & _). apply index_of_some in Eb as (m1 & m2 & E & Hm & _).
    assert (N : nth_error (l1 ++ a :: l2) j = Some a) by (rewrite <- Hl, nth_error_app2, Nat.sub_diag by lia; reflexivity).
    rewrite E, <- Hm, nth_error_app2, Nat.sub_diag in N by lia. simpl in N. congruence.
  Qed.

  (** invariants *)
  Definition lists0 (s : fstate) : Prop :=
    NoDup (fs_master s) /\ (forall x, In x (fs_listen s) <-> In x (fs_master s)) /\ NoDup (fs_items s).
  Definition lists (s : fstate) : Prop :=
    lists0 s /\ ((fs_level s <= 0)%Z -> Permutation (fs_items s) (filter (matching s) (fs_master s))).
  Definition link (s : fstate) : Prop :=
    match fs_cont s with Some c => fs_conn s = true /\ fs_master s = c | None => fs_master s = [] end.
  Definition uns (s : fstate) : Prop :=
    (fs_level s <= 0)%Z -> fs_key s = None -> fs_items s = filter (matching s) (fs_master s).
  Definition sor (s : fstate) : Prop :=
    forall k, fs_key s = Some k -> ((fs_level s <= 0)%Z \/ fs_sorted s = true) ->
      srt (sort_op lt (fs_rev s)) (fun y => k (fs_content s y)) (fs_items s).
  Definition blk (gone : list A) (s : fstate) : Prop :=
    (0 < fs_level s)%Z -> fs_sorted s = true -> fs_key s = None ->
    filter (fun x => inb x (fs_master s)) (fs_items s) = filter (fun x => inb x (fs_items s)) (fs_master s) /\
    (forall x, In x (fs_items s) -> In x (fs_master s) \/ In x gone).
  Definition frame (s s' : fstate) : Prop :=
    fs_cont s' = fs_cont s /\ fs_conn s' = fs_conn s /\ fs_sorted s' = fs_sorted s /\ fs_filter s' = fs_filter s /\
    fs_key s' = fs_key s /\ fs_rev s' = fs_rev s /\ fs_level s' = fs_level s /\ fs_content s' = fs_content s.

  Lemma frame_refl s : frame s s.
  Proof. repeat split. Qed.
  Lemma frame_trans s1 s2 s3 : frame s1 s2 -> frame s2 s3 -> frame s1 s3.
  Proof. unfold frame. intuition congruence. Qed.
  Lemma frame_matching s s' : frame s s' -> forall x, matching s' x = matching s x.
  Proof. intros (_ & _ & _ & H1 & _ & _ & _ & H2) x. unfold matching. rewrite H1, H2. reflexivity. Qed.

  Lemma py_insert_split i (x : A) l : exists l1 l2, l = l1 ++ l2 /\ py_insert i x l = l1 ++ x :: l2.
  Proof.
    unfold py_insert. destruct (split_at l (py_insert_pos (length l) i) (py_insert_pos_le _ _)) as (l1 & l2 & E & Hl).
    exists l1, l2. split; [exact E|]. rewrite <- Hl, E. apply insert_at_app.
  Qed.

  Lemma filter_app_cons (f : A -> bool) l1 x l2 :
    filter f (l1 ++ x :: l2) = filter f l1 ++ (if f x then [x] else []) ++ filter f l2.
  Proof. rewrite filter_app. simpl. destruct (f x); reflexivity. Qed.

  (** inserting a matching item at the position found, in a state whose lists are right *)
  Lemma insert_pos_uns (s : fstate) x l1 l2 :
    fs_key s = None -> ~ In x l1 -> fs_master s = l1 ++ x :: l2 ->
    fs_items s = filter (matching s) (l1 ++ l2) -> matching s x = true ->
    insert_at (insert_pos A_dec lt s x) x (fs_items s) = filter (matching s) (fs_master s).
  Proof.
    intros Hk Hx Hm Hi Hmx. unfold insert_pos. rewrite Hk, Hm, find_unsorted_app by exact Hx.
    rewrite Hi, filter_app, insert_at_app, filter_app_cons, Hmx. reflexivity.
  Qed.

  Lemma item_inserted_inv (s : fstate) x i s' tr e :
    item_inserted A_dec lt s x i = (s', tr, e) -> lists s -> ~ In x (fs_master s) ->
    e = None /\ lists s' /\ fs_master s' = py_insert i x (fs_master s) /\ frame s s' /\
    (uns s -> uns s') /\ (strict_weak_order lt -> sor s -> sor s') /\ ((0 < fs_level s)%Z -> fs_items s' = fs_items s).
  Proof.
    unfold item_inserted. intros E [(Hm & Hl & Hi) Hp] Hx.
    rewrite (proj2 (inb_false A_dec x _) Hx) in E.
    destruct (py_insert_split i x (fs_master s)) as (l1 & l2 & E1 & E2).
    assert (Hnd : NoDup (py_insert i x (fs_master s))).
    { rewrite E2. rewrite E1 in Hm, Hx. apply nodup_insert; assumption. }
    assert (Hin : forall y, In y (x :: fs_listen s) <-> In y (py_insert i x (fs_master s))).
    { intros y. rewrite E2. simpl. rewrite Hl, E1, !in_app_iff. simpl. tauto. }
    assert (Hxl : ~ In x l1). { rewrite E1, in_app_iff in Hx. tauto. }
    unfold inserted_master in E. cbn [fs_level with_master] in E.
    destruct (Z.ltb_spec 0 (fs_level s)) as [Hlev|Hlev].
    { injection E as <- <- <-. split; [reflexivity|]. split; [|split; [reflexivity|split; [repeat split|]]].
      - split; [split; [exact Hnd|split; [exact Hin|exact Hi]]|]. simpl. lia.
      - split; [intros _; unfold uns; simpl; lia|]. split; [intros _ H; exact H|reflexivity]. }
    specialize (Hp Hlev).
    change (matching (with_master s (py_insert i x (fs_master s)) (x :: fs_listen s)) x) with (matching s x) in E.
    destruct (matching s x) eqn:Emx.
    - unfold do_insert in E. simpl in E. injection E as <- <- <-.
      split; [reflexivity|]. split; [|split; [reflexivity|split; [repeat split|]]].
      + split; [split; [exact Hnd|split; [exact Hin|]]|].
        * simpl. apply (Permutation_NoDup (l := x :: fs_items s)); [symmetry; apply insert_at_perm|].
          constructor; [|exact Hi]. intros Hc. apply (Permutation_in _ Hp) in Hc. apply filter_In in Hc. tauto.
        * intros _. simpl. change (matching _) with (matching s). rewrite insert_at_perm, Hp.
          rewrite E2, E1, filter_app_cons, filter_app, Emx. simpl. apply Permutation_middle.
      + split; [|split].
        * intros Hu _ Hk. simpl in *. specialize (Hu Hlev Hk).
          change (fs_items s) with (fs_items (with_master s (py_insert i x (fs_master s)) (x :: fs_listen s))).
          apply (insert_pos_uns (with_master s (py_insert i x (fs_master s)) (x :: fs_listen s)) x l1 l2); try assumption.
          simpl. rewrite Hu, E1. reflexivity.
        * intros Hswo Hs k Hk Hor. simpl in *. unfold insert_pos. simpl. rewrite Hk.
          apply find_sorted_insert; [apply swo_op; exact Hswo|]. apply Hs; assumption.
        * intros; lia.
    - injection E as <- <- <-. split; [reflexivity|]. split; [|split; [reflexivity|split; [repeat split|]]].
      + split; [split; [exact Hnd|split; [exact Hin|exact Hi]]|]. intros _. simpl.
        change (matching _) with (matching s). rewrite Hp, E2, E1, filter_app_cons, filter_app, Emx. reflexivity.
      + split; [|split; [intros _ H; exact H|reflexivity]].
        intros Hu _ Hk. simpl in *. change (matching _) with (matching s). rewrite (Hu Hlev Hk), E2, E1, filter_app_cons, filter_app, Emx. reflexivity.
  Qed.

  (** removing x: the list without x *)
  Lemma removed_master_cases (s : fstate) x s' tr :
    removed_master A_dec s x = (s', tr) ->
    (s' = s /\ ((0 < fs_level s)%Z \/ ~ In x (fs_items s))) \/
    (exists i1 i2, fs_items s = i1 ++ x :: i2 /\ ~ In x i1 /\ s' = with_items s (i1 ++ i2) /\ (fs_level s <= 0)%Z).
  Proof.
    unfold removed_master. destruct (Z.ltb_spec 0 (fs_level s)); [intros [= <- <-]; auto|].
    destruct (index_of x (fs_items s)) as [k|] eqn:E.
    - intros [= <- <-]. apply index_of_some in E as (i1 & i2 & E & <- & Hni). right. exists i1, i2.
      rewrite E, delete_at_app. auto.
    - intros [= <- <-]. apply index_of_none in E. auto.
  Qed.

  Lemma item_removed_inv (s : fstate) x i l1 l2 s' tr e :
    item_removed A_dec s x i = (s', tr, e) -> lists s ->
    fs_master s = l1 ++ x :: l2 -> py_index (length (fs_master s)) i = Some (length l1) ->
    e = None /\ lists s' /\ fs_master s' = l1 ++ l2 /\ frame s s' /\
    (uns s -> uns s') /\ (sor s -> sor s') /\ ((0 < fs_level s)%Z -> fs_items s' = fs_items s).
  Proof.
    unfold item_removed, py_del. intros E [(Hm & Hl & Hi) Hp] E1 Hidx. rewrite Hidx in E.
    assert (Hxl : inb x (fs_listen s) = true). { apply inb_spec. rewrite Hl, E1, in_app_iff. right; left; reflexivity. }
    rewrite Hxl in E. rewrite E1, delete_at_app in E.
    rewrite E1 in Hm. apply nodup_app_parts in Hm as (Hx1 & Hx2 & Hnd & Hx12).
    assert (Hin : forall y, In y (remove A_dec x (fs_listen s)) <-> In y (l1 ++ l2)).
    { intros y. split.
      - intros H. apply in_remove in H as [H Hne]. rewrite Hl, E1, in_app_iff in H. simpl in H.
        rewrite in_app_iff. destruct H as [H|[H|H]]; [auto|congruence|auto].
      - intros H. apply in_in_remove; [intros ->; tauto|]. rewrite Hl, E1. rewrite in_app_iff in *. simpl. tauto. }
    set (s1 := with_master s (l1 ++ l2) (remove A_dec x (fs_listen s))) in *.
    destruct (removed_master A_dec s1 x) as [s2 t2] eqn:E2. injection E as <- <- <-.
    assert (HF : forall m, fs_level s = m -> filter (matching s) (l1 ++ x :: l2) =
       filter (matching s) l1 ++ (if matching s x then [x] else []) ++ filter (matching s) l2) by (intros; apply filter_app_cons).
    destruct (removed_master_cases _ _ _ _ E2) as [[-> Hc]|(i1 & i2 & Ei & Hni & -> & Hlev)].
    - split; [reflexivity|]. split; [|split; [reflexivity|split; [repeat split|]]].
      + split; [split; [exact Hnd|split; [exact Hin|exact Hi]]|]. intros Hlev. simpl in *.
        destruct Hc as [Hc|Hc]; [lia|]. specialize (Hp Hlev). rewrite Hp, E1, filter_app_cons.
        assert (Hmx : matching s x = false).
        { destruct (matching s x) eqn:Emx; [|reflexivity]. exfalso. apply Hc. rewrite Hp. apply filter_In.
          split; [rewrite E1, in_app_iff; right; left; reflexivity|exact Emx]. }
        rewrite Hmx. change (matching s1) with (matching s). rewrite filter_app. reflexivity.
      + split; [|split; [intros H; exact H|reflexivity]].
        intros Hu Hlev Hk. simpl in *. destruct Hc as [Hc|Hc]; [lia|]. specialize (Hu Hlev Hk).
        assert (Hmx : matching s x = false).
        { destruct (matching s x) eqn:Emx; [|reflexivity]. exfalso. apply Hc. rewrite Hu. apply filter_In.
          split; [rewrite E1, in_app_iff; right; left; reflexivity|exact Emx]. }
        rewrite Hu, E1, filter_app_cons, Hmx. change (matching s1) with (matching s). rewrite filter_app. reflexivity.
    - simpl in Ei, Hlev. specialize (Hp Hlev).
      assert (Hmx : matching s x = true).
      { assert (Hc : In x (fs_items s)) by (rewrite Ei, in_app_iff; right; left; reflexivity).
        rewrite Hp in Hc. apply filter_In in Hc. tauto. }
      rewrite Ei in Hi. apply nodup_app_parts in Hi as (Hn1 & Hn2 & Hi12 & Hni12).
      split; [reflexivity|]. split; [|split; [reflexivity|split; [repeat split|]]].
      + split; [split; [exact Hnd|split; [exact Hin|exact Hi12]]|]. intros _. simpl.
        rewrite Ei, E1, filter_app_cons, Hmx in Hp. simpl in Hp. apply Permutation_app_inv in Hp.
        change (matching _) with (matching s). rewrite filter_app. exact Hp.
      + split; [|split].
        * intros Hu _ Hk. simpl in *. specialize (Hu Hlev Hk). rewrite Ei, E1, filter_app_cons, Hmx in Hu. simpl in Hu.
          change (matching _) with (matching s). rewrite filter_app.
          assert (N1 : ~ In x (filter (matching s) l1)) by (rewrite filter_In; tauto).
          assert (Hlen : length i1 = length (filter (matching s) l1)).
          { pose proof (index_of_app A_dec x i1 i2 Hn1) as I1. rewrite Hu, index_of_app in I1 by exact N1. congruence. }
          destruct (app_inj_pivot_len _ _ _ _ _ Hu Hlen) as [-> ->]. reflexivity.
        * intros Hs k Hk Hor. simpl in *. specialize (Hs k Hk Hor). rewrite Ei in Hs. eapply ss_delete. exact Hs.
        * intros. lia.
  Qed.
End F2.
