(** Property C114: filtered lists in a row, of any number. *)
From Coq Require Import List ZArith Bool Arith Permutation Sorted Lia.
From Verif Require Import PyBase Filtered_Model Filtered_Spec Filtered_Proofs Filtered_Proofs2 Filtered_Proofs3 Chain_Model Chain_Spec Chain_Proofs Chain_Proofs2 Chain_Proofs3
  Cascade_Model Cascade_Spec Cascade_Proofs Cascade_Proofs2 Cascade_Proofs3.
Import ListNotations.

(** the items of list j *)
Definition items_of {A C K} (c : casc A C K) (j : nat) : list A :=
  match nth_error (cs_lists c) j with Some s => fs_items s | None => [] end.

Section Props.
  Context {A C K : Type} (A_dec : forall a b : A, {a = b} + {a <> b}) (lt : K -> K -> bool).
  Notation csop := (csop A C K).
  Notation kview := (kview A C K).

  (** what list j filters: the source, the list before it, or nothing *)
  Definition feed (v : kview) (c : casc A C K) (j : nat) : list A :=
    match j with O => k_src v | S i => if k_att v j then items_of c i else [] end.

  Lemma run_at (U Q : nat -> Prop) (w : A -> C) (n : nat) (h : list csop) j :
    (forall i, Q i -> strict_weak_order lt /\ k_along A_dec (k_keeps_key i) (k_new w) h) -> (forall i, U i -> Forall (k_blockless i) h) ->
    k_along A_dec k_ok (k_new w) h -> j < n ->
    let v := k_run A_dec (k_new w) h in
    let c := fst (cs_run A_dec lt (cs_new n w) h) in
    exists s, nth_error (cs_lists c) j = Some s /\ inv s /\ fs_master s = feed v c j /\ agree s (k_sets v j) (k_content v) /\ (U j -> uns s) /\ (Q j -> sor lt s).
  Proof.
    intros HQ HU Hok Hj v c.
    destruct (cs_run_ok A_dec lt U Q (fun i Hi => proj1 (HQ i Hi)) h (k_new w) (cs_new n w) (new_ok A_dec lt U Q w n) Hok HU (fun i Hi => proj2 (HQ i Hi))) as [(T & _) L].
    fold c in T, L. fold v in T. cbn [cs_new cs_lists] in L. rewrite repeat_length in L.
    destruct (nth_error (cs_lists c) j) as [s|] eqn:Es; [|apply nth_error_None in Es; lia]. exists s. split; [reflexivity|].
    destruct (tower_nth lt U Q v _ _ _ _ _ T Es) as (I & Ec & G & Hu & Hs). split; [exact I|]. split; [|auto].
    rewrite (inv_master _ I). unfold contents. rewrite Ec. unfold base, feed, k_src. destruct j as [|i]; [reflexivity|].
    unfold items_of. destruct (nth_error (cs_lists c) i) as [p|]; unfold below; cbn [plus]; destruct (k_att v (S i)); reflexivity.
  Qed.

  (** every list with no open change block holds exactly the items of its container that pass its filter, whatever was
      done to the source, the items and the other lists, in whatever order the lists listen to the items *)
  Theorem cascade_level (w : A -> C) (n : nat) (h : list csop) j :
    let v := k_run A_dec (k_new w) h in
    let c := fst (cs_run A_dec lt (cs_new n w) h) in
    k_along A_dec k_ok (k_new w) h -> j < n -> no_block (k_sets v j) ->
    NoDup (items_of c j) /\ Permutation (items_of c j) (filter (k_passes v j) (feed v c j)).
  Proof.
    intros v c Hok Hj Hb. destruct (run_at (fun _ => False) (fun _ => False) w n h j) as (s & Es & I & Em & (B1 & B2 & B3 & B4 & B5) & _); [intros i []|intros i []|exact Hok|exact Hj|].
    fold v c in Es, Em, B1, B2, B3, B4, B5. unfold items_of at 1 2. rewrite Es. split; [apply inv_nodup, I|].
    destruct I as [[_ Hp] _]. rewrite Hp by (rewrite B4; exact Hb). rewrite Em. erewrite filter_ext; [reflexivity|].
    intros x. unfold matching, k_passes. rewrite B1, B5. reflexivity.
  Qed.

  Lemma passes_to_S (v : kview) j x : k_passes_to v (S j) x = k_passes_to v j x && k_passes v (S j) x.
  Proof. unfold k_passes_to. rewrite (seq_S (S j)), forallb_app. cbn [forallb plus]. rewrite andb_true_r. reflexivity. Qed.
  Lemma passes_to_O (v : kview) x : k_passes_to v 0 x = k_passes v 0 x.
  Proof. unfold k_passes_to. cbn. apply andb_true_r. Qed.

  (** list j holds exactly the source items that pass the filters of the lists 0 .. j *)
  Theorem cascade_members (w : A -> C) (n : nat) (h : list csop) j :
    let v := k_run A_dec (k_new w) h in
    let c := fst (cs_run A_dec lt (cs_new n w) h) in
    k_along A_dec k_ok (k_new w) h -> j < n -> (forall i, i <= j -> no_block (k_sets v i)) -> (forall i, 1 <= i <= j -> k_att v i = true) ->
    Permutation (items_of c j) (filter (k_passes_to v j) (k_src v)).
  Proof.
    intros v c Hok. induction j as [|j IH]; intros Hj Hb Ha.
    - destruct (cascade_level w n h 0 Hok Hj (Hb 0 ltac:(lia))) as [_ H]. fold v c in H. rewrite H. cbn [feed]. erewrite filter_ext; [reflexivity|].
      intros x. symmetry. apply passes_to_O.
    - destruct (cascade_level w n h (S j) Hok Hj (Hb (S j) ltac:(lia))) as [_ H]. fold v c in H. rewrite H. unfold feed. rewrite (Ha (S j)) by lia.
      rewrite (filter_perm _ _ _ (IH ltac:(lia) ltac:(intros; apply Hb; lia) ltac:(intros; apply Ha; lia))), filter_filter.
      erewrite filter_ext; [reflexivity|]. intros x. symmetry. apply passes_to_S.
  Qed.

  (** and in the order of the source, when none of these lists has a sort key or was given change blocks *)
  Theorem cascade_order (w : A -> C) (n : nat) (h : list csop) j :
    let v := k_run A_dec (k_new w) h in
    let c := fst (cs_run A_dec lt (cs_new n w) h) in
    k_along A_dec k_ok (k_new w) h -> j < n -> (forall i, i <= j -> Forall (k_blockless i) h /\ no_block (k_sets v i) /\ se_key (k_sets v i) = None) ->
    (forall i, 1 <= i <= j -> k_att v i = true) ->
    items_of c j = filter (k_passes_to v j) (k_src v).
  Proof.
    intros v c Hok.
    assert (L : forall i, i < n -> Forall (k_blockless i) h /\ no_block (k_sets v i) /\ se_key (k_sets v i) = None -> items_of c i = filter (k_passes v i) (feed v c i)).
    { intros i Hi (Hbl & Hb & Hk). destruct (run_at (fun k => k = i) (fun _ => False) w n h i) as (s & Es & I & Em & (B1 & B2 & B3 & B4 & B5) & Hu & _); [intros k []|intros k ->; exact Hbl|exact Hok|exact Hi|].
      fold v c in Es, Em, B1, B2, B3, B4, B5. unfold items_of at 1. rewrite Es. rewrite (Hu eq_refl) by (try (rewrite B4; exact Hb); congruence). rewrite Em.
      apply filter_ext. intros x. unfold matching, k_passes. rewrite B1, B5. reflexivity. }
    induction j as [|j IH]; intros Hj Hs Ha.
    - rewrite (L 0 Hj (Hs 0 ltac:(lia))). cbn [feed]. apply filter_ext. intros x. symmetry. apply passes_to_O.
    - rewrite (L (S j) Hj (Hs (S j) ltac:(lia))). unfold feed. rewrite (Ha (S j)) by lia.
      rewrite (IH ltac:(lia) ltac:(intros; apply Hs; lia) ltac:(intros; apply Ha; lia)), filter_filter.
      apply filter_ext. intros x. symmetry. apply passes_to_S.
  Qed.

  (** a list with a sort key that content changes keep is sorted by it, whatever the other lists do *)
  Theorem cascade_sorted (w : A -> C) (n : nat) (h : list csop) j k :
    let v := k_run A_dec (k_new w) h in
    let c := fst (cs_run A_dec lt (cs_new n w) h) in
    k_along A_dec k_ok (k_new w) h -> j < n -> strict_weak_order lt -> k_along A_dec (k_keeps_key j) (k_new w) h ->
    no_block (k_sets v j) -> se_key (k_sets v j) = Some k ->
    ordered_by lt (se_rev (k_sets v j)) (fun x => k (k_content v x)) (items_of c j).
  Proof.
    intros v c Hok Hj Hw Hkk Hb Hk.
    destruct (run_at (fun _ => False) (fun i => i = j) w n h j) as (s & Es & I & Em & (B1 & B2 & B3 & B4 & B5) & _ & Hs); [intros i ->; auto|intros i []|exact Hok|exact Hj|].
    fold v c in Es, Em, B1, B2, B3, B4, B5. unfold items_of. rewrite Es. apply ordered_by_srt. rewrite <- B3, <- B5.
    apply (Hs eq_refl); [congruence|]. left. rewrite B4. exact Hb.
  Qed.

  (** from any state: the notifications of every list turn its old items into its new ones, and every item notification
      is inside a change block *)
  Theorem cascade_observers (c : casc A C K) (h : list csop) j : j < length (cs_lists c) ->
    f_follows (items_of c j) (nth j (snd (cs_run A_dec lt c h)) []) (items_of (fst (cs_run A_dec lt c h)) j) /\
    nesting 0 (nth j (snd (cs_run A_dec lt c h)) []) = Some 0.
  Proof.
    intros Hj.
    assert (H : each (fun (_ : nat) l t l' => f_follows l t l' /\ nesting 0 t = Some 0) 0 (cs_lists c) (snd (cs_run A_dec lt c h)) (cs_lists (fst (cs_run A_dec lt c h)))).
    { clear Hj. revert c. induction h as [|o h IH]; intros c; cbn [cs_run].
      - apply each_nil. intros k l. split; reflexivity.
      - destruct (cs_step A_dec lt c o) as [c1 t1] eqn:E. specialize (IH c1). destruct (cs_run A_dec lt c1 h) as [c2 t2]. cbn [fst snd] in *.
        eapply each_both; [|eapply each_weaken; [|eapply cs_step_tells; exact E]|exact IH].
        + intros k l t l1 t' l2 [F1 N1] [F2 N2]. split; [eapply f_follows_app; eassumption|rewrite (nesting_app _ _ _ 0 N1); exact N2].
        + intros k l t l' _ [N F]. split; [|exact N]. destruct (match acts_on o with Some j => k =? j | None => false end); [exact F|apply f_names_follows; exact F]. }
    destruct (nth_error (cs_lists c) j) as [s|] eqn:Es; [|apply nth_error_None in Es; lia].
    destruct (each_nth _ _ _ _ _ _ _ H Es) as (s' & Es' & F). unfold items_of. rewrite Es, Es'. exact F.
  Qed.

  (** only the list whose filter, sort or change block is used names wrong items in its removals (C16); all lists after it
      name the right ones *)
  Theorem cascade_names (c : casc A C K) (o : csop) j : j < length (cs_lists c) ->
    match o with KSet i _ => i <> j | _ => True end ->
    f_names (items_of c j) (nth j (snd (cs_step A_dec lt c o)) []) (items_of (fst (cs_step A_dec lt c o)) j).
  Proof.
    intros Hj Ho. destruct (cs_step A_dec lt c o) as [c1 t1] eqn:E. cbn [fst snd].
    destruct (nth_error (cs_lists c) j) as [s|] eqn:Es; [|apply nth_error_None in Es; lia].
    assert (Gen : match acts_on o with Some i => i <> j | None => True end -> f_names (items_of c j) (nth j t1 []) (items_of c1 j)).
    { intros Hi. destruct (each_nth _ _ _ _ _ _ _ (cs_step_tells A_dec lt _ _ _ _ E) Es) as (s' & Es' & _ & F). unfold items_of. rewrite Es, Es'.
      cbn [plus] in F. destruct (acts_on o) as [i|]; [destruct (Nat.eqb_spec j i); [congruence|exact F]|exact F]. }
    assert (Lev : forall i fo, ~ full_rebuild s fo -> on_level A_dec lt c i fo = (c1, t1) -> i = j -> f_names (items_of c j) (nth j t1 []) (items_of c1 j)).
    { intros i fo Hf E' ->. unfold on_level in E'. destruct (at_level _ _ _ _ _ _ _ _) as [[ls t] r] eqn:E1. injection E' as <- <-. unfold items_of. cbn [cs_lists]. rewrite Es.
      clear E Gen Hj Ho. revert E1 Es. generalize (cs_lists c) (cs_regs c) 0 ls t r. induction j as [|j IH]; intros l0 r0 n l1 t0 r1 E1 Es.
      - destruct l0 as [|s0 l0]; [discriminate|]. injection Es as ->. cbn [at_level] in E1. unfold do_op in E1. destruct (f_step A_dec lt s fo) as [[s1 u1] e1] eqn:E2. cbn [fst] in E1.
        destruct (flow _ _ _ _ _ _) as [[ls2 ts2] r2]. injection E1 as <- <- <-. cbn. apply f_step_trace in E2 as (_ & F & _). apply F. exact Hf.
      - destruct l0 as [|s0 l0]; [discriminate|]. cbn [at_level] in E1. destruct (at_level _ _ _ _ _ _ _ _) as [[ls2 ts2] r2] eqn:E2. injection E1 as <- <- <-.
        cbn [nth nth_error]. eapply IH; [exact E2|exact Es]. }
    destruct o as [i x|i|l|x y|i o|i|i]; cbn [cs_step] in E.
    - destruct (Nat.eq_dec 0 j); [|apply Gen; assumption]. eapply (Lev 0 (FInsert i x)); [intros []|exact E|assumption].
    - destruct (Nat.eq_dec 0 j); [|apply Gen; assumption]. eapply (Lev 0 (FRemove i)); [intros []|exact E|assumption].
    - destruct (Nat.eq_dec 0 j); [|apply Gen; assumption]. eapply (Lev 0 (FSetContainer l)); [intros []|exact E|assumption].
    - apply Gen. exact I.
    - apply Gen. exact Ho.
    - destruct (Nat.eq_dec (S i) j); [|apply Gen; assumption]. destruct (nth_error (cs_lists c) i).
      + eapply (Lev (S i) (FSetContainer _)); [intros []|exact E|assumption].
      + injection E as <- <-. unfold items_of. rewrite Es. replace (nth j (map _ _) []) with (@nil (fev A)); [reflexivity|].
        symmetry. destruct (nth_in_or_default j (map (fun _ : fstate A C K => @nil (fev A)) (cs_lists c)) []) as [H|H]; [|exact H].
        apply in_map_iff in H as (? & <- & _). reflexivity.
    - destruct (Nat.eq_dec (S i) j); [|apply Gen; assumption]. eapply (Lev (S i) (FSetContainer None)); [intros []|exact E|assumption].
  Qed.
End Props.
Print Assumptions cascade_level.
Print Assumptions cascade_members.
Print Assumptions cascade_order.
Print Assumptions cascade_sorted.
Print Assumptions cascade_observers.
Print Assumptions cascade_names.

(** ** examples: items are numbers, content is a number, initially the item itself; three lists *)
Local Notation krun h := (cs_run Nat.eq_dec Nat.ltb (cs_new 3 (fun x : nat => x)) h).
Definition three_h : list (csop nat nat nat) :=
  [KSource (Some [5; 2; 9; 4; 12]); KAttach 0; KSet 0 (LFilter (fun c => Nat.ltb c 9)); KAttach 1; KSet 2 (LFilter (fun c => Nat.ltb 3 c));
   KSet 1 (LFilter Nat.even); KInsert 1 8; KContent 5 6; KRemove 2; KContent 12 7; KContent 12 0].
Example cascade_level_ex : map (items_of (fst (krun three_h))) [0; 1; 2] = [[5; 8; 4; 12]; [5; 8; 4; 12]; [5; 8; 4]].
Proof. vm_compute. reflexivity. Qed.
Example cascade_members_ex :
  let v := k_run Nat.eq_dec (k_new (fun x : nat => x)) three_h in
  k_along Nat.eq_dec k_ok (k_new (fun x => x)) three_h /\ k_src v = [5; 8; 9; 4; 12] /\ map (k_passes_to v 2) (k_src v) = [true; true; false; true; false] /\
  (k_att v 1, k_att v 2) = (true, true).
Proof. cbn. repeat split; repeat constructor; cbn; intuition discriminate. Qed.
Example cascade_order_ex : forall i, Forall (k_blockless i) three_h.
Proof. intros i. repeat constructor. Qed.
Example cascade_sorted_ex :
  let h := three_h ++ [KSet 1 (LKey (Some (fun c => c))); KSet 1 (LRev true); KInsert 0 0; KInsert 3 6] in
  map (items_of (fst (krun h))) [0; 1; 2] = [[0; 5; 8; 6; 4; 12]; [8; 6; 5; 4; 0; 12]; [8; 6; 5; 4]].
Proof. vm_compute. reflexivity. Qed.
(** the first list is rebuilt: the second passes the removals on with the right items, and so the third *)
Example cascade_names_ex :
  let c := fst (krun three_h) in
  map removals (snd (cs_step Nat.eq_dec Nat.ltb c (KSet 0 (LFilter (fun _ => true))))) =
    [[(5, 3); (8, 2); (4, 1); (12, 0)]; [(5, 0); (8, 0); (4, 0); (12, 0)]; [(5, 0); (8, 0); (4, 0)]].
Proof. vm_compute. reflexivity. Qed.
Example cascade_observers_ex :
  let c := fst (krun three_h) in
  items_of c 2 = [5; 8; 4] /\
  nth 2 (snd (cs_run Nat.eq_dec Nat.ltb c [KContent 8 10; KContent 12 6])) [] =
    [FBegin; FBegin; FBegin; FRem 8 1; FEnd; FSelRem 1; FEnd; FEnd; FBegin; FIns 12 2; FEnd] /\
  items_of (fst (cs_run Nat.eq_dec Nat.ltb c [KContent 8 10; KContent 12 6])) 2 = [5; 4; 12].
Proof. vm_compute. auto. Qed.

(** FINDING: an item that was removed from and put back into a list inside one of its change blocks is listened to by the
    next list first; when its content then changes, the next list announces it although the list before rejects it, and
    takes it back. *)
Theorem cascade_transient_refuted :
  exists (h : list (csop nat nat nat)) (o : csop nat nat nat),
    k_along Nat.eq_dec k_ok (k_new (fun x => x)) (h ++ [o]) /\
    let v := k_run Nat.eq_dec (k_new (fun x => x)) (h ++ [o]) in
    let c := fst (krun h) in
    (forall i, no_block (k_sets v i)) /\ k_att v 1 = true /\ k_passes v 0 1 = false /\
    items_of c 1 = [2] /\ items_of (fst (cs_step Nat.eq_dec Nat.ltb c o)) 1 = [2] /\
    In (FIns 1 0) (nth 1 (snd (cs_step Nat.eq_dec Nat.ltb c o)) []).
Proof.
  exists [KSource (Some [1; 2]); KSet 0 (LFilter (fun c => Nat.ltb c 10)); KAttach 0; KSet 1 (LFilter Nat.even);
    KSet 0 LBegin; KRemove 0; KInsert 0 1; KSet 0 (LEnd (fun l => l))], (KContent 1 12).
  split.
  { cbn. repeat split; try reflexivity; try (repeat constructor; cbn; intuition discriminate); try (cbn; intuition discriminate). }
  split; [intros [|[|i]]; vm_compute; discriminate|]. vm_compute. repeat split. tauto.
Qed.
Print Assumptions cascade_transient_refuted.
(** without the change block the list before is told first, and the next list announces nothing *)
Example cascade_transient_ex :
  let h := [KSource (Some [1; 2]); KSet 0 (LFilter (fun c => Nat.ltb c 10)); KAttach 0; KSet 1 (LFilter Nat.even); KRemove 0; KInsert 0 1] in
  let c := fst (krun h) in
  map (items_of c) [0; 1] = [[1; 2]; [2]] /\ nth 1 (snd (cs_step Nat.eq_dec Nat.ltb c (KContent 1 12))) [] = [FBegin; FSelRem 0; FEnd].
Proof. vm_compute. auto. Qed.
