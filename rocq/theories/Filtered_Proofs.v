From Coq Require Import List ZArith Bool Arith Permutation Sorted Lia.
From Verif Require Import PyBase Filtered_Model Filtered_Spec.
Import ListNotations.

(** * Generic list facts *)
Lemma filter_filter {A} (f g : A -> bool) l : filter f (filter g l) = filter (fun x => g x && f x) l.
Proof. induction l as [|x l IH]; simpl; [reflexivity|]. destruct (g x); simpl; rewrite IH; reflexivity. Qed.

Lemma filter_ext_in' {A} (f g : A -> bool) l : (forall x, In x l -> f x = g x) -> filter f l = filter g l.
Proof.
  induction l as [|x l IH]; intros H; simpl; [reflexivity|].
  rewrite (H x) by (left; reflexivity). rewrite IH by (intros; apply H; right; assumption). reflexivity.
Qed.

Lemma filter_all {A} (f : A -> bool) l : (forall x, In x l -> f x = true) -> filter f l = l.
Proof.
  induction l as [|x l IH]; intros H; simpl; [reflexivity|].
  rewrite H by (left; reflexivity). rewrite IH by (intros; apply H; right; assumption). reflexivity.
Qed.

Lemma filter_perm {A} (f : A -> bool) l l' : Permutation l l' -> Permutation (filter f l) (filter f l').
Proof.
  induction 1; simpl.
  - constructor.
  - destruct (f x); [constructor|]; assumption.
  - destruct (f x), (f y); first [reflexivity | apply perm_swap].
  - etransitivity; eassumption.
Qed.

Lemma insert_at_perm {A} k (x : A) l : Permutation (insert_at k x l) (x :: l).
Proof.
  unfold insert_at. rewrite <- Permutation_middle. constructor. rewrite firstn_skipn. reflexivity.
Qed.

Lemma nodup_app_parts {A} (l1 l2 : list A) x :
  NoDup (l1 ++ x :: l2) -> ~ In x l1 /\ ~ In x l2 /\ NoDup (l1 ++ l2) /\ ~ In x (l1 ++ l2).
Proof.
  intros H. apply NoDup_remove in H as [H1 H2]. rewrite in_app_iff in H2. rewrite in_app_iff. tauto.
Qed.

Lemma nodup_insert {A} (l1 l2 : list A) x : NoDup (l1 ++ l2) -> ~ In x (l1 ++ l2) -> NoDup (l1 ++ x :: l2).
Proof.
  intros H1 H2. apply (Permutation_NoDup (l := x :: l1 ++ l2)); [apply Permutation_middle|]. constructor; assumption.
Qed.

Lemma NoDup_app_intro {A} (l1 l2 : list A) :
  NoDup l1 -> NoDup l2 -> (forall x, In x l1 -> ~ In x l2) -> NoDup (l1 ++ l2).
Proof.
  induction l1 as [|x l1 IH]; intros H1 H2 H; simpl; [exact H2|]. inversion H1; subst. constructor.
  - rewrite in_app_iff. intros [Hi|Hi]; [contradiction|]. apply (H x); [left; reflexivity|exact Hi].
  - apply IH; [assumption|exact H2|]. intros y Hy. apply H. right. exact Hy.
Qed.

(** StronglySorted facts *)
Lemma ss_app {A} (R : A -> A -> Prop) l1 l2 :
  StronglySorted R (l1 ++ l2) <->
  StronglySorted R l1 /\ StronglySorted R l2 /\ (forall a b, In a l1 -> In b l2 -> R a b).
Proof.
  induction l1 as [|x l1 IH]; simpl.
  - split; [intros H; split; [constructor|]; split; [exact H|intros a b []]|tauto].
  - split.
    + intros H. inversion H as [|? ? H1 H2]; subst. apply IH in H1 as (Ha & Hb & Hc).
      rewrite Forall_forall in H2. split.
      * constructor; [exact Ha|]. apply Forall_forall. intros y Hy. apply H2, in_app_iff. auto.
      * split; [exact Hb|]. intros a b [<-|Hin] Hb'; [apply H2, in_app_iff; auto|auto].
    + intros (H1 & H2 & H3). inversion H1 as [|? ? Ha Hb]; subst. constructor.
      * apply IH. auto.
      * rewrite Forall_forall in *. intros y Hy. apply in_app_iff in Hy as [Hy|Hy]; [auto|]. apply H3; auto.
Qed.

Lemma ss_filter {A} (R : A -> A -> Prop) f l : StronglySorted R l -> StronglySorted R (filter f l).
Proof.
  induction 1 as [|x l H IH HF]; simpl; [constructor|]. destruct (f x); [|exact IH].
  constructor; [exact IH|]. rewrite Forall_forall in *. intros y Hy. apply filter_In in Hy. apply HF. tauto.
Qed.

Lemma ss_delete {A} (R : A -> A -> Prop) l1 x l2 : StronglySorted R (l1 ++ x :: l2) -> StronglySorted R (l1 ++ l2).
Proof.
  rewrite !ss_app. intros (H1 & H2 & H3). inversion H2; subst. split; [exact H1|]. split; [assumption|].
  intros a b Ha Hb. apply H3; simpl; auto.
Qed.

Lemma ss_perm_eq {A} (R : A -> A -> Prop) l l' :
  (forall a b, In a l -> In b l -> R a b -> R b a -> a = b) ->
  StronglySorted R l -> StronglySorted R l' -> Permutation l l' -> l = l'.
Proof.
  revert l'. induction l as [|x l IH]; intros l' Hanti Hs Hs' Hp.
  - apply Permutation_nil in Hp. auto.
  - destruct l' as [|y l']; [apply Permutation_sym, Permutation_nil in Hp; discriminate|].
    inversion Hs as [|? ? Hs1 HF1]; inversion Hs' as [|? ? Hs2 HF2]; subst.
    rewrite Forall_forall in HF1, HF2.
    assert (x = y) as ->.
    { assert (Hx : In x (y :: l')) by (rewrite <- Hp; left; reflexivity).
      assert (Hy : In y (x :: l)) by (rewrite Hp; left; reflexivity).
      destruct Hx as [->|Hx]; [reflexivity|]. destruct Hy as [->|Hy]; [reflexivity|].
      apply Hanti; [left; reflexivity|right; exact Hy|apply HF1; exact Hy|apply HF2; exact Hx]. }
    f_equal. apply IH; auto.
    + intros a b Ha Hb. apply Hanti; right; assumption.
    + apply Permutation_cons_inv in Hp. exact Hp.
Qed.

Lemma ss_weaken {A} (R R' : A -> A -> Prop) l :
  (forall a b, In a l -> In b l -> R a b -> R' a b) -> StronglySorted R l -> StronglySorted R' l.
Proof.
  intros H Hs. induction Hs as [|x l Hs IH HF]; constructor.
  - apply IH. intros a b Ha Hb. apply H; right; assumption.
  - rewrite Forall_forall in *. intros y Hy. apply H; [left; reflexivity|right; exact Hy|apply HF; exact Hy].
Qed.

Lemma ss_ordered {A} (R : A -> A -> Prop) l :
  StronglySorted R l <-> (forall l1 a l2 b l3, l = l1 ++ a :: l2 ++ b :: l3 -> R a b).
Proof.
  split.
  - intros H l1 a l2 b l3 ->. apply ss_app in H as (_ & H & _). inversion H as [|? ? _ HF]; subst.
    rewrite Forall_forall in HF. apply HF, in_app_iff. right. left. reflexivity.
  - induction l as [|x l IH]; intros H; constructor.
    + apply IH. intros l1 a l2 b l3 ->. apply (H (x :: l1) a l2 b l3). reflexivity.
    + apply Forall_forall. intros y Hy. apply in_split in Hy as (l2 & l3 & ->). apply (H [] x l2 y l3). reflexivity.
Qed.

(** Sortedness as used in the proofs *)
Definition srt {A X} (op : X -> X -> bool) (key : A -> X) (l : list A) : Prop :=
  StronglySorted (fun a b => op (key b) (key a) = false) l.

Lemma ordered_by_srt {A K} (lt : K -> K -> bool) rev (key : A -> K) l :
  ordered_by lt rev key l <-> srt (sort_op lt rev) key l.
Proof.
  unfold ordered_by, srt. rewrite ss_ordered. unfold sort_op.
  split; intros H l1 a l2 b l3 E; specialize (H l1 a l2 b l3 E); destruct rev; exact H.
Qed.

Lemma swo_op {K} (lt : K -> K -> bool) rev : strict_weak_order lt -> strict_weak_order (sort_op lt rev).
Proof.
  intros (H1 & H2 & H3). unfold strict_weak_order, sort_op. destruct rev; [|auto].
  split; [exact H1|]. split; [intros x y z H; destruct (H2 _ y _ H); auto|]. intros x y z Ha Hb. eauto.
Qed.

Section F.
  Context {A C K : Type} (A_dec : forall a b : A, {a = b} + {a <> b}) (lt : K -> K -> bool).
  Notation inb := (inb A_dec).
  Notation index_of := (index_of A_dec).

  Lemma inb_spec x l : inb x l = true <-> In x l.
  Proof. unfold Filtered_Model.inb. destruct (in_dec A_dec x l); split; intros; congruence || tauto. Qed.
  Lemma inb_false x l : inb x l = false <-> ~ In x l.
  Proof. unfold Filtered_Model.inb. destruct (in_dec A_dec x l); split; intros; congruence || tauto. Qed.
  Lemma negb_inb x l : negb (inb x l) = true <-> ~ In x l.
  Proof. rewrite negb_true_iff. apply inb_false. Qed.

  Lemma index_of_some x l k : index_of x l = Some k ->
    exists l1 l2, l = l1 ++ x :: l2 /\ length l1 = k /\ ~ In x l1.
  Proof.
    revert k. induction l as [|y l IH]; simpl; intros k; [discriminate|].
    destruct (A_dec y x) as [->|Hne].
    - intros [= <-]. exists [], l. auto.
    - destruct (index_of x l) as [j|]; [|discriminate]. intros [= <-].
      destruct (IH j eq_refl) as (l1 & l2 & -> & <- & Hni). exists (y :: l1), l2. simpl. intuition congruence.
  Qed.
  Lemma index_of_none x l : index_of x l = None <-> ~ In x l.
  Proof.
    induction l as [|y l IH]; simpl; [tauto|]. destruct (A_dec y x) as [->|Hne]; [split; [discriminate|tauto]|].
    destruct (index_of x l); simpl; [split; [discriminate|]|].
    - intros H. exfalso. apply H. right. destruct (in_dec A_dec x l) as [|Hn]; [assumption|].
      apply IH in Hn. discriminate.
    - split; [|reflexivity]. intros _ [?|?]; [congruence|]. apply IH; auto.
  Qed.
  Lemma index_of_app x l1 l2 : ~ In x l1 -> index_of x (l1 ++ x :: l2) = Some (length l1).
  Proof.
    induction l1 as [|y l1 IH]; simpl; intros H.
    - destruct (A_dec x x); [reflexivity|congruence].
    - destruct (A_dec y x); [tauto|]. rewrite IH by tauto. reflexivity.
  Qed.

  Lemma nodupb_spec l : nodupb A_dec l = true <-> NoDup l.
  Proof.
    induction l as [|x l IH]; simpl; [split; [constructor|reflexivity]|].
    rewrite andb_true_iff, negb_inb, IH. split; [intros []; constructor; assumption|inversion 1; auto].
  Qed.

  (** * Binary search *)
  Lemma bsearch_le (p : A -> bool) l fuel low high : low <= high -> bsearch p l fuel low high <= high.
  Proof.
    revert low high. induction fuel as [|f IH]; intros low high H; cbn [bsearch]; [exact H|].
    destruct (Nat.ltb_spec low high) as [Hlt|Hge]; [|exact H].
    assert (Hm : low <= (low + high) / 2 < high).
    { split; [apply Nat.div_le_lower_bound; lia|apply Nat.div_lt_upper_bound; lia]. }
    set (mid := (low + high) / 2) in *.
    destruct (nth_error l mid) as [y|]; [|exact H]. destruct (p y).
    - apply IH. lia.
    - etransitivity; [apply IH; lia|lia].
  Qed.

  Lemma bsearch_spec (p : A -> bool) l fuel low high :
    (forall i j x y, i < j -> nth_error l i = Some x -> nth_error l j = Some y -> p y = true -> p x = true) ->
    high - low <= fuel -> low <= high -> high <= length l ->
    (forall i x, i < low -> nth_error l i = Some x -> p x = true) ->
    (forall i x, high <= i -> nth_error l i = Some x -> p x = false) ->
    let k := bsearch p l fuel low high in
    k <= length l /\ (forall i x, i < k -> nth_error l i = Some x -> p x = true) /\
    (forall i x, k <= i -> nth_error l i = Some x -> p x = false).
  Proof.
    intros Hmono. revert low high. induction fuel as [|f IH]; intros low high Hf Hlh Hh Hlow Hhigh; cbn [bsearch]; cbv zeta.
    - assert (low = high) as -> by lia. auto.
    - destruct (Nat.ltb_spec low high) as [Hlt|Hge].
      2:{ assert (low = high) as -> by lia. auto. }
      assert (Hm : low <= (low + high) / 2 < high).
      { split; [apply Nat.div_le_lower_bound; lia|apply Nat.div_lt_upper_bound; lia]. }
      set (mid := (low + high) / 2) in *.
      destruct (nth_error l mid) as [y|] eqn:Ey.
      + destruct (p y) eqn:Epy.
        * apply IH; try lia; [|assumption].
          intros i x Hi Hx. destruct (Nat.eq_dec i mid) as [->|Hne]; [congruence|].
          eapply Hmono; [|exact Hx|exact Ey|exact Epy]. lia.
        * apply IH; try lia; [assumption|].
          intros i x Hi Hx. destruct (Nat.eq_dec i mid) as [->|Hne]; [congruence|].
          destruct (p x) eqn:Ep; [|reflexivity]. rewrite <- Epy. symmetry.
          eapply Hmono; [|exact Ey|exact Hx|exact Ep]. lia.
      + apply nth_error_None in Ey. lia.
  Qed.

  Lemma find_sorted_insert {X} (op : X -> X -> bool) (key : A -> X) l x :
    strict_weak_order op -> srt op key l -> srt op key (insert_at (find_sorted op key l x) x l).
  Proof.
    intros (Hirr & Hneg & Htr) Hs. unfold find_sorted.
    destruct (bsearch_spec (fun y => op (key y) (key x)) l (length l) 0 (length l)) as (Hk & Hlo & Hhi); try lia.
    - intros i j a b Hij Ha Hb Hpb. apply nth_error_split in Ha as (l1 & l2 & -> & <-).
      rewrite nth_error_app2 in Hb by lia. destruct (j - length l1) as [|m] eqn:Em; [lia|]. simpl in Hb.
      apply nth_error_In in Hb. apply ss_app in Hs as (_ & Hs & _). inversion Hs as [|? ? _ HF]; subst.
      rewrite Forall_forall in HF. specialize (HF b Hb).
      destruct (Hneg _ (key a) _ Hpb); congruence.
    - intros i y Hi Hy. assert (nth_error l i <> None) by congruence. apply nth_error_Some in H. lia.
    - set (k := bsearch _ _ _ _ _) in *.
      destruct (split_at l k Hk) as (l1 & l2 & -> & <-). rewrite insert_at_app.
      apply ss_app in Hs as (Hs1 & Hs2 & Hs3). apply ss_app. split; [exact Hs1|]. split.
      + constructor; [exact Hs2|]. apply Forall_forall. intros b Hb. apply In_nth_error in Hb as (m & Hm).
        apply (Hhi (length l1 + m)); [lia|]. rewrite nth_error_app2 by lia. replace (length l1 + m - length l1) with m by lia. exact Hm.
      + intros a b Ha [<-|Hb]; [|apply Hs3; assumption]. apply In_nth_error in Ha as (m & Hm).
        assert (m < length l1) by (apply nth_error_Some; congruence).
        assert (Hp : op (key a) (key x) = true). { apply (Hlo m); [assumption|]. rewrite nth_error_app1 by assumption. exact Hm. }
        destruct (op (key x) (key a)) eqn:E; [|reflexivity]. rewrite <- (Hirr (key a)). symmetry. eapply Htr; eassumption.
  Qed.

  Lemma find_unsorted_app (m : A -> bool) x l1 l2 :
    ~ In x l1 -> find_unsorted A_dec m x (l1 ++ x :: l2) = length (filter m l1).
  Proof.
    induction l1 as [|y l1 IH]; simpl; intros H.
    - destruct (A_dec x x); [reflexivity|congruence].
    - destruct (A_dec y x); [tauto|]. rewrite IH by tauto. destruct (m y); reflexivity.
  Qed.

  (** * The loops of update_items *)
  Lemma rem_loop_spec (gone : A -> bool) rest : forall P idx removed,
    idx - removed = length P -> removed <= idx ->
    let r := rem_loop gone rest idx removed (P ++ rest) in
    fst r = P ++ filter (fun x => negb (gone x)) rest.
  Proof.
    induction rest as [|x rest IH]; intros P idx removed Hk Hle; simpl; [reflexivity|].
    destruct (gone x) eqn:E; simpl.
    - rewrite Hk, delete_at_app. specialize (IH P (S idx) (S removed)).
      destruct (rem_loop gone rest (S idx) (S removed) (P ++ rest)) as [it tr] eqn:Er. cbv zeta in IH. cbn [fst] in *.
      apply IH; lia.
    - specialize (IH (P ++ [x]) (S idx) removed). rewrite <- app_assoc in IH. cbn [app] in IH.
      rewrite IH; [rewrite <- app_assoc; reflexivity| |lia].
      rewrite app_length. cbn [length]. lia.
  Qed.

  Lemma ins_loop_perm (pos : list A -> A -> nat) xs : forall items, Permutation (fst (ins_loop pos xs items)) (xs ++ items).
  Proof.
    induction xs as [|x xs IH]; intros items; simpl; [reflexivity|].
    specialize (IH (insert_at (pos items x) x items)).
    destruct (ins_loop pos xs _) as [it tr]. simpl in *. rewrite IH, insert_at_perm.
    symmetry. apply (Permutation_middle xs items x).
  Qed.

  Lemma ins_loop_srt {X} (op : X -> X -> bool) (key : A -> X) xs :
    strict_weak_order op -> forall items, srt op key items -> srt op key (fst (ins_loop (find_sorted op key) xs items)).
  Proof.
    intros Hop. induction xs as [|x xs IH]; intros items Hs; simpl; [exact Hs|].
    specialize (IH (insert_at (find_sorted op key items x) x items)).
    destruct (ins_loop _ xs _) as [it tr]. simpl in *. apply IH. apply find_sorted_insert; assumption.
  Qed.

  Lemma append_loop_spec (new items : list A) : fst (append_loop new items) = items ++ new.
  Proof.
    revert items. induction new as [|x new IH]; intros items; simpl; [rewrite app_nil_r; reflexivity|].
    specialize (IH (items ++ [x])). destruct (append_loop new _) as [it tr]. simpl in *.
    rewrite IH, <- app_assoc. reflexivity.
  Qed.

  (** * C10: notifications reconstruct the list *)
  Notation fstate := (fstate A C K).

  Lemma f_follows_app (t1 t2 : list (fev A)) l l1 l2 :
    f_follows l t1 l1 -> f_follows l1 t2 l2 -> f_follows l (t1 ++ t2) l2.
  Proof.
    revert l. induction t1 as [|e t1 IH]; simpl; intros l H1 H2; [subst; exact H2|].
    destruct e; try (apply IH; assumption). destruct H1 as [Hk H1]. split; [exact Hk|]. apply IH; assumption.
  Qed.
  Lemma f_names_app (t1 t2 : list (fev A)) l l1 l2 :
    f_names l t1 l1 -> f_names l1 t2 l2 -> f_names l (t1 ++ t2) l2.
  Proof.
    revert l. induction t1 as [|e t1 IH]; simpl; intros l H1 H2; [subst; exact H2|].
    destruct e; try (apply IH; assumption). destruct H1 as [Hk H1]. split; [exact Hk|]. apply IH; assumption.
  Qed.
  Lemma f_names_follows (tr : list (fev A)) l l' : f_names l tr l' -> f_follows l tr l'.
  Proof.
    revert l. induction tr as [|e tr IH]; simpl; intros l H; [exact H|].
    destruct e; try (apply IH; assumption). destruct H as [Hk H]. split; [|apply IH; exact H].
    apply nth_error_Some. congruence.
  Qed.
  Lemma nesting_app (t1 t2 : list (fev A)) d d1 :
    nesting d t1 = Some d1 -> nesting d (t1 ++ t2) = nesting d1 t2.
  Proof.
    revert d. induction t1 as [|e t1 IH]; simpl; intros d H; [congruence|].
    destruct e; try (apply IH; assumption); destruct d; try discriminate; apply IH; assumption.
  Qed.
  Lemma nesting_weaken (tr : list (fev A)) d d1 : nesting d tr = Some d1 -> nesting (S d) tr = Some (S d1).
  Proof.
    revert d. induction tr as [|e tr IH]; simpl; intros d H; [congruence|].
    destruct e; try (apply IH; assumption); destruct d; try discriminate; apply IH; assumption.
  Qed.
  Lemma nesting_at (tr : list (fev A)) d : nesting 0 tr = Some 0 -> nesting d tr = Some d.
  Proof. intros H. induction d; [exact H|]. apply nesting_weaken. exact IHd. Qed.

  (** the three trace facts together: names, bracketing *)
  Definition tidy (l : list A) (tr : list (fev A)) (l' : list A) : Prop := f_names l tr l' /\ nesting 0 tr = Some 0.
  Lemma tidy_nil l : tidy l [] l.
  Proof. split; reflexivity. Qed.
  Lemma tidy_app t1 t2 l l1 l2 : tidy l t1 l1 -> tidy l1 t2 l2 -> tidy l (t1 ++ t2) l2.
  Proof.
    intros [H1 H2] [H3 H4]. split; [eapply f_names_app; eassumption|]. rewrite (nesting_app _ _ _ 0) by exact H2. exact H4.
  Qed.

  Lemma inserted_master_tidy (s : fstate) x s' tr :
    inserted_master A_dec lt s x = (s', tr) -> tidy (fs_items s) tr (fs_items s').
  Proof.
    unfold inserted_master, do_insert. destruct (0 <? fs_level s)%Z; [intros [= <- <-]; apply tidy_nil|].
    destruct (matching s x); intros [= <- <-]; [|apply tidy_nil]. split; reflexivity.
  Qed.
  Lemma removed_master_tidy (s : fstate) x s' tr :
    removed_master A_dec s x = (s', tr) -> tidy (fs_items s) tr (fs_items s').
  Proof.
    unfold removed_master. destruct (0 <? fs_level s)%Z; [intros [= <- <-]; apply tidy_nil|].
    destruct (index_of x (fs_items s)) as [k|] eqn:E; intros [= <- <-]; [|apply tidy_nil].
    split; [|reflexivity]. apply index_of_some in E as (l1 & l2 & E & Hl & _). simpl. rewrite E.
    split; [|reflexivity]. rewrite <- Hl, nth_error_app2, Nat.sub_diag by lia. reflexivity.
  Qed.
  Lemma updated_master_tidy (s : fstate) x s' tr :
    updated_master A_dec lt s x = (s', tr) -> tidy (fs_items s) tr (fs_items s').
  Proof.
    assert (R : forall s' tr, remove_then_insert A_dec lt s x = (s', tr) -> tidy (fs_items s) tr (fs_items s')).
    { intros s0 t0. unfold remove_then_insert. destruct (removed_master A_dec s x) as [s1 t1] eqn:E1.
      destruct (inserted_master A_dec lt s1 x) as [s2 t2] eqn:E2. intros [= <- <-].
      eapply tidy_app; [eapply removed_master_tidy; exact E1|eapply inserted_master_tidy; exact E2]. }
    unfold updated_master. destruct (0 <? fs_level s)%Z; [intros [= <- <-]; apply tidy_nil|].
    destruct (matching s x); [|apply removed_master_tidy].
    destruct (fs_key s).
    - destruct (index_of x (fs_items s)) as [i|]; [|apply inserted_master_tidy].
      destruct (_ <? i); [apply R|]. destruct (i <? _); [apply R|]. intros [= <- <-]; apply tidy_nil.
    - destruct (inb x (fs_items s)); [intros [= <- <-]; apply tidy_nil|apply inserted_master_tidy].
  Qed.

  Lemma rem_loop_names (gone : A -> bool) rest : forall P idx removed it tr,
    idx - removed = length P -> removed <= idx ->
    rem_loop gone rest idx removed (P ++ rest) = (it, tr) ->
    f_names (P ++ rest) tr it /\ forall d, nesting (S d) tr = Some (S d).
  Proof.
    induction rest as [|x rest IH]; intros P idx removed it tr Hk Hle; simpl.
    - intros [= <- <-]. simpl. auto.
    - destruct (gone x) eqn:E; simpl.
      + rewrite Hk, delete_at_app.
        destruct (rem_loop gone rest (S idx) (S removed) (P ++ rest)) as [it1 tr1] eqn:Er. intros [= <- <-].
        destruct (IH P (S idx) (S removed) it1 tr1) as [H1 H2]; [lia|lia|exact Er|].
        split; [|intros d; apply H2]. simpl. rewrite delete_at_app. split; [|exact H1].
        rewrite nth_error_app2, Nat.sub_diag by lia. reflexivity.
      + intros Er. replace (P ++ x :: rest) with ((P ++ [x]) ++ rest) in Er |- * by (rewrite <- app_assoc; reflexivity).
        apply (IH (P ++ [x]) (S idx) removed); [rewrite app_length; cbn [length]; lia|lia|exact Er].
  Qed.
  Lemma ins_loop_names (pos : list A -> A -> nat) xs : forall items it tr,
    ins_loop pos xs items = (it, tr) -> f_names items tr it /\ forall d, nesting (S d) tr = Some (S d).
  Proof.
    induction xs as [|x xs IH]; intros items it tr; simpl; [intros [= <- <-]; simpl; auto|].
    destruct (ins_loop pos xs _) as [it1 tr1] eqn:E. intros [= <- <-]. simpl. apply (IH _ _ _ E).
  Qed.
  Lemma append_loop_follows (new : list A) : forall items it tr,
    append_loop new items = (it, tr) -> f_names items tr it /\ forall d, nesting (S d) tr = Some (S d).
  Proof.
    induction new as [|x new IH]; intros items it tr; simpl; [intros [= <- <-]; simpl; auto|].
    destruct (append_loop new _) as [it1 tr1] eqn:E. intros [= <- <-]. simpl.
    destruct (IH _ _ _ E) as [H1 H2]. split; [|exact H2].
    replace (insert_at (length items) x items) with (items ++ [x]); [exact H1|].
    rewrite <- (app_nil_r items) at 3. rewrite insert_at_app. reflexivity.
  Qed.
  Lemma removelast_delete (l : list A) : l <> [] -> delete_at (length (removelast l)) l = removelast l.
  Proof.
    intros H. destruct (exists_last H) as (l0 & x & ->). rewrite removelast_last.
    rewrite delete_at_app, app_nil_r. reflexivity.
  Qed.
  Lemma pop_loop_follows (old : list A) : forall items,
    length old = length items ->
    f_follows items (pop_loop old items) [] /\ forall d, nesting (S d) (pop_loop old items) = Some (S d).
  Proof.
    induction old as [|x old IH]; intros items Hl; simpl.
    - destruct items; [auto|discriminate].
    - assert (Hne : items <> []) by (destruct items; [discriminate|congruence]).
      assert (Hlen : length (removelast items) = length old).
      { destruct (exists_last Hne) as (l0 & y & ->). rewrite removelast_last. rewrite app_length in Hl. simpl in Hl. lia. }
      destruct (IH (removelast items)) as [H1 H2]; [auto|]. split; [|exact H2].
      split; [simpl in Hl; lia|]. rewrite removelast_delete by exact Hne. exact H1.
  Qed.

  (** update_items: what it does to the trace in the two cases *)
  Lemma update_items_trace ord (s : fstate) s' tr e :
    update_items A_dec lt ord s = (s', tr, e) ->
    f_follows (fs_items s) tr (fs_items s') /\ nesting 0 tr = Some 0 /\
    (fs_sorted s = true -> f_names (fs_items s) tr (fs_items s')).
  Proof.
    unfold update_items. destruct (0 <? fs_level s)%Z; [intros [= <- <- <-]; simpl; auto|].
    destruct (negb (nodupb A_dec (fs_master s))); [intros [= <- <- <-]; simpl; auto|].
    destruct (fs_sorted s) eqn:Es.
    - destruct (rem_loop _ (fs_items s) 0 0 (fs_items s)) as [it1 t1] eqn:E1.
      destruct (ins_loop _ _ it1) as [it2 t2] eqn:E2. intros [= <- <- <-].
      destruct (rem_loop_names _ (fs_items s) [] 0 0 it1 t1 eq_refl (le_n 0) E1) as [H1 H2].
      destruct (ins_loop_names _ _ _ _ _ E2) as [H3 H4].
      assert (Hn : f_names (fs_items s) (FBegin :: (t1 ++ t2) ++ [FEnd]) it2).
      { simpl. eapply f_names_app; [eapply f_names_app; eassumption|reflexivity]. }
      split; [apply f_names_follows; exact Hn|]. split; [|intros _; exact Hn].
      simpl. rewrite <- app_assoc. rewrite (nesting_app _ _ _ 1) by apply H2. rewrite (nesting_app _ _ _ 1) by apply H4. reflexivity.
    - destruct (append_loop (build_items lt s) []) as [it2 t2] eqn:E2. intros [= <- <- <-].
      destruct (pop_loop_follows (fs_items s) (fs_items s) eq_refl) as [H1 H2].
      destruct (append_loop_follows _ _ _ _ E2) as [H3 H4].
      split; [|split; [|discriminate]].
      + simpl. eapply f_follows_app; [eapply f_follows_app; [exact H1|apply f_names_follows; exact H3]|reflexivity].
      + simpl. rewrite <- app_assoc. rewrite (nesting_app _ _ _ 1) by apply H2. rewrite (nesting_app _ _ _ 1) by apply H4. reflexivity.
  Qed.

  Lemma item_inserted_tidy (s : fstate) x i s' tr e :
    item_inserted A_dec lt s x i = (s', tr, e) -> tidy (fs_items s) tr (fs_items s').
  Proof.
    unfold item_inserted. destruct (inb x (fs_master s)); [intros [= <- <- <-]; apply tidy_nil|].
    destruct (inserted_master _ _ _ x) as [s2 t2] eqn:E. intros [= <- <- <-].
    apply inserted_master_tidy in E. eapply tidy_app; [exact E|]. split; reflexivity.
  Qed.
  Lemma item_removed_tidy (s : fstate) x i s' tr e :
    item_removed A_dec s x i = (s', tr, e) -> tidy (fs_items s) tr (fs_items s').
  Proof.
    unfold item_removed. destruct (py_del (fs_master s) i) as [m|]; [|intros [= <- <- <-]; apply tidy_nil].
    destruct (inb x (fs_listen s)); [|intros [= <- <- <-]; apply tidy_nil].
    destruct (removed_master _ _ x) as [s2 t2] eqn:E. intros [= <- <- <-].
    apply removed_master_tidy in E. eapply tidy_app; [exact E|]. split; reflexivity.
  Qed.
  Lemma remove_loop_tidy xs : forall (s : fstate) s' tr e,
    remove_loop A_dec xs s = (s', tr, e) -> tidy (fs_items s) tr (fs_items s').
  Proof.
    induction xs as [|x xs IH]; intros s s' tr e; simpl; [intros [= <- <- <-]; apply tidy_nil|].
    destruct (item_removed _ s x _) as [[s1 t1] [e1|]] eqn:E1.
    - intros [= <- <- <-]. eapply item_removed_tidy. exact E1.
    - destruct (remove_loop A_dec xs s1) as [[s2 t2] e2] eqn:E2. intros [= <- <- <-].
      eapply tidy_app; [eapply item_removed_tidy; exact E1|eapply IH; exact E2].
  Qed.
  Lemma insert_loop_tidy xs : forall idx (s : fstate) s' tr e,
    insert_loop A_dec lt xs idx s = (s', tr, e) -> tidy (fs_items s) tr (fs_items s').
  Proof.
    induction xs as [|x xs IH]; intros idx s s' tr e; simpl; [intros [= <- <- <-]; apply tidy_nil|].
    destruct (item_inserted _ _ s x _) as [[s1 t1] [e1|]] eqn:E1.
    - intros [= <- <- <-]. eapply item_inserted_tidy. exact E1.
    - destruct (insert_loop A_dec lt xs (S idx) s1) as [[s2 t2] e2] eqn:E2. intros [= <- <- <-].
      eapply tidy_app; [eapply item_inserted_tidy; exact E1|eapply IH; exact E2].
  Qed.
  Lemma attach_tidy (s : fstate) c s' tr e :
    attach A_dec lt s c = (s', tr, e) -> tidy (fs_items s) tr (fs_items s').
  Proof.
    unfold attach. destruct c as [l|]; [|intros [= <- <- <-]; split; reflexivity].
    destruct (insert_loop _ _ l 0 _) as [[s2 t2] e2] eqn:E. intros [= <- <- <-].
    apply insert_loop_tidy in E. simpl in E. destruct E as [H1 H2]. split; assumption.
  Qed.
  Lemma set_container_tidy (s : fstate) c s' tr e :
    set_container A_dec lt s c = (s', tr, e) -> tidy (fs_items s) tr (fs_items s').
  Proof.
    unfold set_container. destruct (fs_cont s) as [old|]; [|apply attach_tidy].
    destruct (fs_conn s); [|intros [= <- <- <-]; apply tidy_nil].
    destruct (remove_loop _ _ _) as [[s1 t1] [e1|]] eqn:E1.
    - intros [= <- <- <-]. apply remove_loop_tidy in E1. exact E1.
    - destruct (attach _ _ s1 c) as [[s2 t2] e2] eqn:E2. intros [= <- <- <-].
      apply remove_loop_tidy in E1. eapply tidy_app; [exact E1|eapply attach_tidy; exact E2].
  Qed.

  Lemma tidy_follows l tr l' : tidy l tr l' -> f_follows l tr l'.
  Proof. intros [H _]. apply f_names_follows. exact H. Qed.

  Lemma f_step_trace (s : fstate) o s' tr e :
    f_step A_dec lt s o = (s', tr, e) ->
    f_follows (fs_items s) tr (fs_items s') /\
    (~ full_rebuild s o -> f_names (fs_items s) tr (fs_items s')) /\
    (o <> FContBegin -> o <> FContEnd -> nesting 0 tr = Some 0).
  Proof.
    assert (T : forall l t l', tidy l t l' -> f_follows l t l' /\ (~ full_rebuild s o -> f_names l t l') /\
      (o <> FContBegin -> o <> FContEnd -> nesting 0 t = Some 0)).
    { intros l t l' H. split; [apply tidy_follows; exact H|]. destruct H. auto. }
    assert (U : forall s0, fs_items s0 = fs_items s -> reset_and_update A_dec lt s0 = (s', tr, e) ->
      full_rebuild s o ->
      f_follows (fs_items s) tr (fs_items s') /\ (~ full_rebuild s o -> f_names (fs_items s) tr (fs_items s')) /\
      (o <> FContBegin -> o <> FContEnd -> nesting 0 tr = Some 0)).
    { intros s0 Hi. unfold reset_and_update. destruct (update_items _ _ _ s0) as [[s1 t1] e1] eqn:E1. intros [= <- <- <-] Hf.
      apply update_items_trace in E1 as (H1 & H2 & _). rewrite <- Hi. split; [exact H1|]. split; [tauto|auto]. }
    destruct o as [i x|i|x c|f|k|b| |ord|c| | |]; simpl.
    - destruct (fs_cont s) as [l|]; [|intros [= <- <- <-]; apply T, tidy_nil].
      destruct (fs_conn s); [|intros [= <- <- <-]; apply T, tidy_nil]. intros H. apply item_inserted_tidy in H. apply T. exact H.
    - destruct (fs_cont s) as [l|]; [|intros [= <- <- <-]; apply T, tidy_nil].
      destruct (py_get l i) as [x|]; [|intros [= <- <- <-]; apply T, tidy_nil].
      destruct (py_del l i) as [l'|]; [|intros [= <- <- <-]; apply T, tidy_nil].
      destruct (fs_conn s); [|intros [= <- <- <-]; apply T, tidy_nil]. intros H. apply item_removed_tidy in H. apply T. exact H.
    - destruct (inb x (fs_listen s)); [|intros [= <- <- <-]; apply T, tidy_nil].
      destruct (inb x (fs_master s)); [|intros [= <- <- <-]; apply T, tidy_nil].
      destruct (updated_master _ _ _ x) as [s2 t2] eqn:E. intros [= <- <- <-]. apply updated_master_tidy in E. apply T. exact E.
    - intros H. refine (U (with_settings s _ _ _) _ H _); [reflexivity|exact I].
    - intros H. refine (U (with_settings s _ _ _) _ H _); [reflexivity|exact I].
    - intros H. refine (U (with_settings s _ _ _) _ H _); [reflexivity|exact I].
    - intros [= <- <- <-]; apply T, tidy_nil.
    - destruct (fs_level s - 1 =? 0)%Z; [|intros [= <- <- <-]; apply T, tidy_nil].
      intros H. apply update_items_trace in H as (H1 & H2 & H3). simpl in *. split; [exact H1|]. split; [|auto].
      intros Hn. apply H3. destruct (fs_sorted s); congruence.
    - intros H. apply set_container_tidy in H. apply T. exact H.
    - intros [= <- <- <-]. apply T. split; reflexivity.
    - intros [= <- <- <-]. split; [reflexivity|]. split; [reflexivity|congruence].
    - intros [= <- <- <-]. split; [reflexivity|]. split; [reflexivity|congruence].
  Qed.

  Lemma f_run_follows h : forall s : fstate, f_follows (fs_items s) (snd (f_run A_dec lt s h)) (fs_items (fst (f_run A_dec lt s h))).
  Proof.
    induction h as [|o h IH]; intros s; simpl; [reflexivity|].
    destruct (f_step A_dec lt s o) as [[s1 t1] e1] eqn:E. specialize (IH s1).
    destruct (f_run A_dec lt s1 h) as [s2 t2]. simpl in *. eapply f_follows_app; [|exact IH].
    eapply f_step_trace. exact E.
  Qed.

  Lemma f_run_nesting h : forall d d' (s : fstate),
    container_nesting d h = Some d' -> nesting d (snd (f_run A_dec lt s h)) = Some d'.
  Proof.
    induction h as [|o h IH]; intros d d' s Hn; simpl; [exact Hn|].
    destruct (f_step A_dec lt s o) as [[s1 t1] e1] eqn:E.
    assert (G : o <> FContBegin -> o <> FContEnd -> container_nesting d h = Some d' ->
                nesting d (snd (let '(s2, t2) := f_run A_dec lt s1 h in (s2, t1 ++ t2))) = Some d').
    { intros H1 H2 H3. destruct (f_step_trace _ _ _ _ _ E) as (_ & _ & Ht). specialize (Ht H1 H2).
      specialize (IH d d' s1 H3). destruct (f_run A_dec lt s1 h) as [s2 t2]. simpl in *.
      rewrite (nesting_app _ _ _ d); [exact IH|]. apply nesting_at. exact Ht. }
    destruct o; try (apply G; [discriminate|discriminate|exact Hn]).
    - simpl in E, Hn. injection E as <- <- <-. specialize (IH _ _ s Hn). destruct (f_run A_dec lt s h) as [s2 t2]. exact IH.
    - simpl in E, Hn. injection E as <- <- <-. destruct d as [|d0]; [discriminate|].
      specialize (IH _ _ s Hn). destruct (f_run A_dec lt s h) as [s2 t2]. exact IH.
  Qed.
End F.
