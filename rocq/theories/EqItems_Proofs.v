(** Lemmas on filtered lists of items that may be equal. *)
From Coq Require Import List Bool Arith Lia Permutation.
From Verif Require Import PyBase EqItems_Model EqItems_Spec.
Import ListNotations.

Section Proofs.
  Context {X K : Type} (X_dec : forall x y : X, {x = y} + {x <> y}) (K_dec : forall x y : K, {x = y} + {x <> y}).
  Variable cls : X -> K.
  Variable accept : K -> bool.
  Notation same := (same K_dec cls).
  Notation step := (step X_dec K_dec cls accept).
  Notation run := (run X_dec K_dec cls accept).
  Notation distinct := (distinct cls).
  Notation shown := (filter (fun x => accept (cls x))).

  Lemma same_spec x y : same x y = true <-> cls x = cls y.
  Proof. unfold EqItems_Model.same. destruct (K_dec (cls x) (cls y)); split; congruence. Qed.
  Lemma exists_same x l : existsb (same x) l = true <-> In (cls x) (map cls l).
  Proof.
    rewrite existsb_exists, in_map_iff. split; intros (y & A & B).
    - exists y. apply same_spec in B. auto.
    - exists y. split; [exact B|]. apply same_spec. congruence.
  Qed.
  Lemma insert_perm k (x : X) l : Permutation (insert k x l) (x :: l).
  Proof. unfold insert. rewrite <- Permutation_middle, firstn_skipn. reflexivity. Qed.
  Lemma distinct_perm l l' : Permutation l l' -> distinct l -> distinct l'.
  Proof. intros P. apply Permutation_NoDup, Permutation_map, P. Qed.
  Lemma distinct_split l1 x l2 : distinct (l1 ++ x :: l2) <-> distinct (l1 ++ l2) /\ ~ In (cls x) (map cls (l1 ++ l2)).
  Proof.
    unfold EqItems_Spec.distinct. rewrite !map_app. cbn [map]. split.
    - intros H. split; [eapply NoDup_remove_1, H|eapply NoDup_remove_2, H].
    - intros [A B]. eapply Permutation_NoDup; [apply Permutation_middle|]. constructor; assumption.
  Qed.
  Lemma index_split l1 x l2 : ~ In (cls x) (map cls l1) -> unsorted_index K_dec cls accept x (l1 ++ x :: l2) = length (shown l1).
  Proof.
    induction l1 as [|y l1 IH]; intros N; cbn [app unsorted_index filter map] in *.
    - replace (same x x) with true by (symmetry; apply same_spec; reflexivity). reflexivity.
    - destruct (same y x) eqn:E; [apply same_spec in E; exfalso; apply N; left; exact E|]. rewrite IH by (intros M; apply N; right; exact M).
      destruct (accept (cls y)); reflexivity.
  Qed.
  Lemma filter_app' (f : X -> bool) l1 l2 : filter f (l1 ++ l2) = filter f l1 ++ filter f l2.
  Proof. induction l1 as [|x l1 IH]; [reflexivity|]. cbn. destruct (f x); rewrite IH; reflexivity. Qed.
  (** inserting an item that none is equal to *)
  Lemma insert_shown k x l : ~ In (cls x) (map cls l) ->
    shown (insert k x l) = if accept (cls x) then insert (unsorted_index K_dec cls accept x (insert k x l)) x (shown l) else shown l.
  Proof.
    intros N. set (l1 := firstn k l). set (l2 := skipn k l). assert (E : l = l1 ++ l2) by (symmetry; apply firstn_skipn).
    change (insert k x l) with (l1 ++ x :: l2). clearbody l1 l2. subst l. rewrite index_split by (intros M; apply N; rewrite map_app; apply in_or_app; auto).
    rewrite !filter_app'. cbn [filter]. destruct (accept (cls x)); [|reflexivity]. unfold insert.
    rewrite firstn_app, Nat.sub_diag, firstn_O, app_nil_r, firstn_all, skipn_app, Nat.sub_diag, skipn_all. reflexivity.
  Qed.
  Lemma remove_same_split l1 x y l2 : cls y = cls x -> ~ In (cls x) (map cls l1) -> remove_same K_dec cls x (l1 ++ y :: l2) = l1 ++ l2.
  Proof.
    intros E. induction l1 as [|z l1 IH]; intros N; cbn [app remove_same map] in *.
    - replace (same y x) with true by (symmetry; apply same_spec; exact E). reflexivity.
    - destruct (same z x) eqn:F; [apply same_spec in F; exfalso; apply N; left; exact F|]. rewrite IH by (intros M; apply N; right; exact M). reflexivity.
  Qed.
  Lemma delete_split k (x : X) l : nth_error l k = Some x -> exists l1 l2, l = l1 ++ x :: l2 /\ length l1 = k /\ delete_at k l = l1 ++ l2.
  Proof.
    intros E. destruct (nth_error_split l k E) as (l1 & l2 & -> & <-). exists l1, l2. repeat split. unfold delete_at.
    rewrite firstn_app, Nat.sub_diag, firstn_O, app_nil_r, firstn_all. f_equal. replace (S (length l1)) with (length (l1 ++ [x])) by (rewrite app_length; cbn; lia).
    rewrite skipn_app. replace (skipn (length (l1 ++ [x])) l1) with (@nil X) by (symmetry; apply skipn_all2; rewrite app_length; lia).
    rewrite app_length. replace (length l1 + length [x] - length l1) with 1 by (cbn; lia). reflexivity.
  Qed.
  Lemma run_snoc h o : run (h ++ [o]) = step (run h) o.
  Proof. unfold EqItems_Model.run. rewrite fold_left_app. reflexivity. Qed.

  (** ** all histories *)
  Lemma master_distinct h : distinct (master (run h)).
  Proof.
    induction h as [|o h IH] using rev_ind; [constructor|]. rewrite run_snoc. set (s := run h) in *. destruct o as [k x|k]; cbn [EqItems_Model.step].
    - destruct (k <=? length (cont s)); [|exact IH]. unfold item_inserted. cbn [master]. destruct (existsb (same x) (master s)) eqn:E; [exact IH|]. cbn [master].
      eapply distinct_perm; [symmetry; apply insert_perm|]. constructor; [|exact IH]. rewrite <- exists_same. congruence.
    - destruct (nth_error (cont s) k) as [x|]; [|exact IH]. unfold item_removed. cbn [master cont watched items raised]. destruct (k <? length (master s)) eqn:L; [|exact IH].
      assert (D : distinct (delete_at k (master s))).
      { apply Nat.ltb_lt in L. destruct (nth_error (master s) k) as [z|] eqn:Z; [|apply nth_error_None in Z; lia]. destruct (delete_split k z _ Z) as (l1 & l2 & E & _ & ->).
        rewrite E in IH. apply distinct_split in IH. tauto. }
      destruct (in_dec X_dec x (watched s)); exact D.
  Qed.

  (** ** containers without equal items *)
  Definition right (s : state) : Prop := master s = cont s /\ items s = shown (cont s) /\ distinct (cont s) /\ (forall x, In x (watched s) <-> In x (cont s)) /\ raised s = [].
  Lemma right_ins s k x : right s -> k <= length (cont s) -> ~ In (cls x) (map cls (cont s)) -> right (step s (Ins k x)).
  Proof.
    intros (M & I & D & W & R) L N. cbn [EqItems_Model.step]. rewrite (proj2 (Nat.leb_le _ _) L). unfold item_inserted. cbn [master cont watched items raised].
    destruct (existsb (same x) (master s)) eqn:E; [apply exists_same in E; rewrite M in E; contradiction|]. unfold right. cbn [master cont watched items raised]. rewrite M, I. repeat split.
    - symmetry. apply insert_shown, N.
    - eapply distinct_perm; [symmetry; apply insert_perm|]. constructor; assumption.
    - intros H. eapply Permutation_in; [symmetry; apply insert_perm|]. destruct (in_dec X_dec x (watched s)); [right; apply W, H|]. destruct H as [->|H]; [left; reflexivity|right; apply W, H].
    - intros H. eapply Permutation_in in H; [|apply insert_perm]. destruct (in_dec X_dec x (watched s)) as [V|V]; destruct H as [->|H]; [exact V|apply W, H|left; reflexivity|right; apply W, H].
    - exact R.
  Qed.
  Lemma right_del s k : right s -> right (step s (Del k)).
  Proof.
    intros (M & I & D & W & R). cbn [EqItems_Model.step]. destruct (nth_error (cont s) k) as [x|] eqn:E; [|repeat split; auto; apply W].
    unfold item_removed. cbn [master cont watched items raised]. rewrite M. assert (L : k < length (cont s)) by (apply nth_error_Some; congruence). rewrite (proj2 (Nat.ltb_lt _ _) L).
    destruct (in_dec X_dec x (watched s)) as [V|V]; [|exfalso; apply V, W; eapply nth_error_In, E]. destruct (delete_split k x _ E) as (l1 & l2 & C & _ & ->).
    unfold right. cbn [master cont watched items raised]. rewrite I, C in *. pose proof D as D0. apply distinct_split in D as [D N]. rewrite map_app in N. repeat split.
    - rewrite !filter_app'. cbn [filter]. destruct (accept (cls x)) eqn:A.
      + assert (Y : existsb (same x) (shown l1 ++ x :: shown l2) = true) by (apply exists_same; rewrite map_app; apply in_or_app; right; left; reflexivity).
        rewrite Y. apply remove_same_split; [reflexivity|]. intros Q. apply in_map_iff in Q as (y & Q1 & Q2). apply filter_In in Q2 as [Q2 _]. apply N. apply in_or_app. left. rewrite <- Q1. apply in_map, Q2.
      + destruct (existsb (same x) (shown l1 ++ shown l2)) eqn:Y; [|reflexivity]. apply exists_same in Y. rewrite <- filter_app' in Y. apply in_map_iff in Y as (y & Q1 & Q2). apply filter_In in Q2 as [_ Q2]. congruence.
    - exact D.
    - intros H. apply filter_In in H as [H1 H2]. apply W in H1. apply in_app_or in H1. apply in_or_app. destruct (X_dec x0 x) as [->|F]; [discriminate|]. destruct H1 as [H1|[H1|H1]]; [auto|congruence|auto].
    - intros H. apply filter_In. split; [apply W; apply in_app_or in H; apply in_or_app; destruct H; [auto|right; right; auto]|].
      destruct (X_dec x0 x) as [->|F]; [|reflexivity]. exfalso. apply N. rewrite <- map_app. apply in_map, H.
    - exact R.
  Qed.

  (** ** insertions only *)
  Definition weak (s : state) : Prop := items s = shown (master s) /\ distinct (master s) /\ forall c, In c (map cls (master s)) <-> In c (map cls (cont s)).
  Lemma in_insert k x l c : In c (map cls (insert k x l)) <-> c = cls x \/ In c (map cls l).
  Proof.
    split; intros H.
    - eapply Permutation_in in H; [|apply Permutation_map, insert_perm]. destruct H as [H|H]; auto.
    - eapply Permutation_in; [apply Permutation_map; symmetry; apply insert_perm|]. destruct H as [->|H]; [left; reflexivity|right; exact H].
  Qed.
  Lemma weak_ins s k x : weak s -> weak (step s (Ins k x)).
  Proof.
    intros (I & D & C). cbn [EqItems_Model.step]. destruct (k <=? length (cont s)); [|repeat split; auto; apply C]. unfold item_inserted. cbn [master cont watched items raised].
    destruct (existsb (same x) (master s)) eqn:E; unfold weak; cbn [master cont items].
    - apply exists_same in E. repeat split; auto; intros H; [apply in_insert; right; apply C, H|]. apply in_insert in H as [->|H]; [exact E|apply C, H].
    - assert (N : ~ In (cls x) (map cls (master s))) by (rewrite <- exists_same; congruence). repeat split.
      + rewrite I. symmetry. apply insert_shown, N.
      + eapply distinct_perm; [symmetry; apply insert_perm|]. constructor; assumption.
      + intros H. apply in_insert. apply in_insert in H as [H|H]; [auto|right; apply C, H].
      + intros H. apply in_insert. apply in_insert in H as [H|H]; [auto|right; apply C, H].
  Qed.
  Lemma weak_run (h : list (@op X)) : (forall o, In o h -> inserts o) -> weak (run h).
  Proof.
    intros H. induction h as [|o h IH] using rev_ind; [repeat split; try (intros Q; exact Q); constructor|]. rewrite run_snoc.
    assert (W : weak (run h)) by (apply IH; intros o' M; apply H; apply in_or_app; auto).
    destruct o as [k x|k]; [apply weak_ins, W|]. exfalso. apply (H (Del k)). apply in_or_app. right. left. reflexivity.
  Qed.

  (** appending *)
  Lemma firsts_snoc l x : forall seen, firsts K_dec cls seen (l ++ [x]) =
    firsts K_dec cls seen l ++ (if in_dec K_dec (cls x) (seen ++ map cls l) then [] else [x]).
  Proof.
    induction l as [|y l IH]; intros seen; cbn [app firsts map].
    - rewrite app_nil_r. destruct (in_dec K_dec (cls x) seen); reflexivity.
    - destruct (in_dec K_dec (cls y) seen) as [A|A]; rewrite IH.
      + f_equal. destruct (in_dec K_dec (cls x) (seen ++ map cls l)) as [B|B], (in_dec K_dec (cls x) (seen ++ cls y :: map cls l)) as [B'|B']; try reflexivity; exfalso.
        * apply B'. apply in_app_or in B. apply in_or_app. destruct B; [auto|right; right; auto].
        * apply B. apply in_app_or in B'. apply in_or_app. destruct B' as [?|[Q|?]]; [auto|left; rewrite <- Q; exact A|auto].
      + cbn [app]. f_equal. f_equal. destruct (in_dec K_dec (cls x) (cls y :: seen ++ map cls l)) as [B|B], (in_dec K_dec (cls x) (seen ++ cls y :: map cls l)) as [B'|B']; try reflexivity; exfalso.
        * apply B'. cbn in B. apply in_or_app. destruct B as [B|B]; [right; left; exact B|]. apply in_app_or in B. destruct B; [auto|right; right; auto].
        * apply B. cbn. apply in_app_or in B'. destruct B' as [B'|[B'|B']]; [right; apply in_or_app; auto|left; exact B'|right; apply in_or_app; auto].
  Qed.
  Lemma insert_end (l : list X) k x : length l <= k -> insert k x l = l ++ [x].
  Proof. intros L. unfold insert. rewrite firstn_all2, skipn_all2 by exact L. reflexivity. Qed.
  Lemma combine_snoc (xs : list X) x n : combine (seq n (length xs) ++ [n + length xs]) (xs ++ [x]) = combine (seq n (length xs)) xs ++ [(n + length xs, x)].
  Proof.
    revert n. induction xs as [|y xs IH]; intros n; [reflexivity|]. cbn [length seq app combine]. rewrite <- Nat.add_succ_comm, IH. reflexivity.
  Qed.
  Lemma append_snoc (xs : list X) x : append (xs ++ [x]) = append xs ++ [Ins (length xs) x].
  Proof.
    unfold append. rewrite app_length, seq_app. cbn [length seq]. rewrite combine_snoc, map_app. reflexivity.
  Qed.
End Proofs.
