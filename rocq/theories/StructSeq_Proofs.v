From Coq Require Import ZArith Bool List Lia Arith.
From Verif Require Import PyBase Struct_Model StructSeq_Model StructSeq_Spec.
Import ListNotations.

Lemma index_denotes n i k : py_index n i = Some k <-> denotes n i k.
Proof.
  unfold py_index, denotes. destruct (Z.ltb_spec i 0) as [N|P].
  - destruct (Z.leb_spec 0 (i + Z.of_nat n)); destruct (Z.ltb_spec (i + Z.of_nat n) (Z.of_nat n)); cbn; split; intros X; try discriminate; try lia.
    + injection X as <-. right. lia.
    + f_equal. lia.
  - destruct (Z.leb_spec 0 i); destruct (Z.ltb_spec i (Z.of_nat n)); cbn; split; intros X; try discriminate; try lia.
    + injection X as <-. left. lia.
    + f_equal. lia.
Qed.
Lemma index_none n i : py_index n i = None <-> forall k, ~ denotes n i k.
Proof.
  split.
  - intros H k D. apply index_denotes in D. congruence.
  - intros H. destruct (py_index n i) as [k|] eqn:E; [|reflexivity]. exfalso. apply (H k), index_denotes, E.
Qed.
Lemma insert_place_pos n i k : insert_place n i k <-> py_insert_pos n i = k.
Proof. unfold insert_place, py_insert_pos. destruct (Z.ltb_spec i 0); lia. Qed.
Lemma split_nth {X} (l : list X) k : k < length l -> exists a x b, l = a ++ x :: b /\ length a = k.
Proof.
  intros H. destruct (nth_error l k) as [x|] eqn:E; [|apply nth_error_None in E; lia].
  apply nth_error_split in E as (a & b & -> & L). exists a, x, b. auto.
Qed.
Lemma py_get_cases (l : list nat) i :
  (exists a x b, l = a ++ x :: b /\ denotes (length l) i (length a) /\ py_get l i = Ok x) \/
  ((forall k, ~ denotes (length l) i k) /\ py_get l i = Err IndexError).
Proof.
  unfold py_get. destruct (py_index (length l) i) as [k|] eqn:E.
  - left. pose proof (py_index_lt _ _ _ E) as L. destruct (split_nth l k L) as (a & x & b & -> & La). exists a, x, b.
    split; [reflexivity|]. split; [apply index_denotes; rewrite La; exact E|]. rewrite nth_error_app2 by lia. replace (k - length a) with 0 by lia. reflexivity.
  - right. split; [apply index_none, E|reflexivity].
Qed.
Lemma find_cases x l k : (exists a b, l = a ++ x :: b /\ ~ In x a /\ seq_find x k l = Ok (k + length a)) \/ (~ In x l /\ seq_find x k l = Err ValueError).
Proof.
  revert k. induction l as [|y l IH]; intros k; [right; split; [intros []|reflexivity]|]. cbn [seq_find].
  destruct (Nat.eqb_spec y x) as [->|N].
  - left. exists [], l. split; [reflexivity|]. split; [intros []|]. f_equal. cbn. lia.
  - destruct (IH (S k)) as [(a & b & -> & H1 & H2)|[H1 H2]].
    + left. exists (y :: a), b. split; [reflexivity|]. split; [intros [?|?]; auto|]. rewrite H2. f_equal. cbn. lia.
    + right. split; [intros [?|?]; auto|exact H2].
Qed.
(** as many trampolines as items *)
Definition synced (t : tramp) : Prop := length (t_listen t) = length (t_items t).
Lemma del_ok t i a x b : synced t -> t_items t = a ++ x :: b -> denotes (length (t_items t)) i (length a) ->
  exists t', seq_del i t = (t', [Removed x i], Ok tt) /\ t_items t' = a ++ b /\ synced t'.
Proof.
  intros S E D. unfold seq_del. destruct (py_get_cases (t_items t) i) as [(a' & x' & b' & E' & D' & G)|[H _]]; [|exfalso; exact (H _ D)].
  apply index_denotes in D. pose proof D as D0. apply index_denotes in D'. rewrite D in D'. injection D' as L.
  assert (a' = a /\ x' = x /\ b' = b) as (-> & -> & ->).
  { rewrite E in E'. apply (f_equal (fun l => (firstn (length a) l, skipn (length a) l))) in E'. injection E' as E1 E2.
    rewrite L in E1 at 2. rewrite L in E2 at 2. rewrite !firstn_app, !Nat.sub_diag, !firstn_all, !firstn_O, !app_nil_r in E1.
    rewrite !skipn_app, !Nat.sub_diag, !skipn_all in E2. cbn in E2. injection E2 as -> ->. auto. }
  rewrite G. cbn [tstep]. unfold py_del. rewrite S, D0. eexists. split; [reflexivity|]. cbn [t_items]. rewrite E, delete_at_app.
  split; [reflexivity|]. unfold synced in *. cbn [t_items t_listen]. rewrite delete_at_length by (apply py_index_lt in D0; lia).
  rewrite S, E, !app_length. cbn. lia.
Qed.
Lemma del_err t i : (forall k, ~ denotes (length (t_items t)) i k) -> seq_del i t = (t, [], Err IndexError).
Proof.
  intros H. unfold seq_del. destruct (py_get_cases (t_items t) i) as [(a & x & b & E & D & G)|[_ G]]; [exfalso; exact (H _ D)|]. rewrite G. reflexivity.
Qed.
Lemma insert_ok t i x : synced t -> exists a b t', seq_insert i x t = (t', [Inserted x i]) /\ t_items t = a ++ b /\
  insert_place (length (t_items t)) i (length a) /\ t_items t' = a ++ x :: b /\ synced t'.
Proof.
  intros S. pose proof (py_insert_pos_le (length (t_items t)) i) as L. destruct (split_at (t_items t) _ L) as (a & b & E & La).
  exists a, b, (fst (tstep t (TInsert i x))). split; [reflexivity|]. split; [exact E|]. split; [apply insert_place_pos; congruence|].
  cbn [tstep fst t_items]. unfold py_insert. rewrite <- La, E, insert_at_app. split; [reflexivity|].
  unfold synced in *. cbn [t_items t_listen]. rewrite app_length, S, E, !app_length. cbn. lia.
Qed.
Lemma append_ok t x : synced t -> exists t', seq_insert (Z.of_nat (length (t_items t))) x t = (t', [Inserted x (Z.of_nat (length (t_items t)))]) /\
  t_items t' = t_items t ++ [x] /\ synced t'.
Proof.
  intros S. destruct (insert_ok t (Z.of_nat (length (t_items t))) x S) as (a & b & t' & E1 & E2 & P & E3 & S').
  exists t'. split; [exact E1|]. split; [|exact S']. unfold insert_place in P. assert (L : length a = length (t_items t)) by lia.
  rewrite E2, app_length in L. destruct b; [|cbn in L; lia]. rewrite app_nil_r in E2. rewrite E3, E2. reflexivity.
Qed.
Lemma follows_app l n1 m n2 r : follows l n1 m -> follows m n2 r -> follows l (n1 ++ n2) r.
Proof. induction 1; intros F; cbn; [exact F|econstructor; eauto|econstructor; eauto]. Qed.
Lemma follows_append l x : follows l [Inserted x (Z.of_nat (length l))] (l ++ [x]).
Proof.
  pose proof (F_insert (Z.of_nat (length l)) x l [] [] (l ++ [x])) as F. rewrite app_nil_r in F. apply F; [|constructor].
  unfold insert_place. lia.
Qed.
Lemma extend_ok xs : forall t, synced t -> exists t' n, seq_extend xs t = (t', n) /\ t_items t' = t_items t ++ xs /\ synced t' /\ follows (t_items t) n (t_items t').
Proof.
  induction xs as [|x xs IH]; intros t S; cbn [seq_extend].
  - exists t, []. rewrite app_nil_r. repeat split; auto. constructor.
  - destruct (append_ok t x S) as (t1 & E1 & I1 & S1). rewrite E1. destruct (IH t1 S1) as (t2 & n2 & E2 & I2 & S2 & F2). rewrite E2.
    exists t2, ([Inserted x (Z.of_nat (length (t_items t)))] ++ n2). split; [reflexivity|]. split; [rewrite I2, I1, <- app_assoc; reflexivity|]. split; [exact S2|].
    apply (follows_app _ _ (t_items t1)); [|exact F2]. rewrite I1. apply follows_append.
Qed.
(** ** clear *)
Lemma last_denotes n k : denotes n (-1) k <-> S k = n.
Proof. unfold denotes. lia. Qed.
Lemma del_last_cases t :
  (t_items t = [] /\ seq_del (-1) t = (t, [], Err IndexError)) \/
  (exists l x m, t_items t = l ++ [x] /\ length (t_listen t) = S m /\
     exists t', seq_del (-1) t = (t', [Removed x (-1)], Ok tt) /\ t_items t' = l /\ length (t_listen t') = m) \/
  (exists l x, t_items t = l ++ [x] /\ t_listen t = [] /\ seq_del (-1) t = (Tramp l [], [Removed x (-1)], Err IndexError)).
Proof.
  destruct (t_items t) as [|y ys] eqn:E0.
  { left. split; [reflexivity|]. apply del_err. rewrite E0. intros k D. apply last_denotes in D. cbn in D. lia. }
  right. destruct (@exists_last _ (y :: ys)) as (l & x & E); [discriminate|]. rewrite E in *.
  assert (P : py_index (length (l ++ [x])) (-1) = Some (length l)) by (apply index_denotes, last_denotes; rewrite app_length; cbn; lia).
  assert (G : py_get (l ++ [x]) (-1) = Ok x) by (unfold py_get; rewrite P, nth_error_app2, Nat.sub_diag by lia; reflexivity).
  assert (D : py_del (l ++ [x]) (-1) = Ok l) by (unfold py_del; rewrite P, delete_at_app, app_nil_r; reflexivity).
  unfold seq_del. rewrite E0, G. cbn [tstep]. rewrite E0, D. destruct (t_listen t) as [|z zs] eqn:L.
  - right. exists l, x. repeat split.
  - left. exists l, x, (length zs). split; [reflexivity|]. split; [reflexivity|].
    assert (Pz : py_index (length (z :: zs)) (-1) = Some (length zs)) by (apply index_denotes, last_denotes; reflexivity).
    unfold py_del. rewrite Pz. eexists. split; [reflexivity|]. split; [reflexivity|]. cbn [t_listen]. rewrite delete_at_length; cbn; lia.
Qed.
Lemma clear_general f : forall t, length (t_items t) < f ->
  exists t' n, seq_clear f t = (t', n) /\ t_items t' = firstn (length (t_items t) - length (t_listen t) - 1) (t_items t) /\
    length (t_listen t') = length (t_listen t) - length (t_items t) /\ follows (t_items t) n (t_items t').
Proof.
  induction f as [|f IH]; intros t Hf; [lia|]. cbn [seq_clear].
  destruct (del_last_cases t) as [(E & D)|[(l & x & m & E & L & t1 & D & I1 & L1)|(l & x & E & L & D)]]; rewrite D.
  - exists t, []. rewrite E. cbn. repeat split; try (rewrite Nat.sub_0_r; reflexivity). constructor.
  - destruct (IH t1) as (t2 & n2 & E2 & I2 & L2 & F2); [rewrite I1; rewrite E, app_length in Hf; cbn in Hf; lia|]. rewrite E2.
    exists t2, ([Removed x (-1)] ++ n2). split; [reflexivity|]. rewrite E, L, app_length. cbn [length].
    split; [rewrite I2, I1, L1; rewrite firstn_app; replace (length l + 1 - S m - 1 - length l) with 0 by lia; rewrite firstn_O, app_nil_r; f_equal; lia|].
    split; [rewrite L2, I1, L1; lia|]. apply (follows_app _ _ l); [|rewrite <- I1; exact F2].
    pose proof (F_remove (-1) x l [] [] l) as F. rewrite app_nil_r in F. apply F; [|constructor]. apply last_denotes. rewrite app_length. cbn. lia.
  - exists (Tramp l []), [Removed x (-1)]. split; [reflexivity|]. rewrite E, L, app_length. cbn [length t_items t_listen].
    split; [rewrite firstn_app; replace (length l + 1 - 0 - 1) with (length l) by lia; rewrite firstn_all, Nat.sub_diag, firstn_O, app_nil_r; reflexivity|].
    split; [lia|]. pose proof (F_remove (-1) x l [] [] l) as F. rewrite app_nil_r in F. apply F; [|constructor]. apply last_denotes. rewrite app_length. cbn. lia.
Qed.
Lemma count_filter x l : length (filter (fun y => Nat.eqb y x) l) = count_occ Nat.eq_dec l x.
Proof.
  induction l as [|y l IH]; [reflexivity|]. cbn. destruct (Nat.eqb_spec y x); destruct (Nat.eq_dec y x); cbn; congruence.
Qed.
Lemma step_list t o : synced t -> ~ unlike_list o -> forall t' n r, seq_step t o = (t', n, r) ->
  list_op o (t_items t) r (t_items t') /\ synced t' /\ follows (t_items t) n (t_items t').
Proof.
  intros S U t' n r H. destruct o as [|i| |x|x|x|i x|i|i x|x|xs|i|x| |]; cbn [unlike_list] in U; try (exfalso; apply U; exact I); cbn [seq_step] in H.
  - injection H as <- <- <-. repeat split; try exact S; constructor.
  - injection H as <- <- <-. split; [|split; [exact S|constructor]].
    destruct (py_get_cases (t_items t) i) as [(a & x & b & E & D & G)|[D G]]; rewrite G.
    + rewrite E in *. constructor. exact D.
    + constructor. exact D.
  - injection H as <- <- <-. repeat split; try exact S; constructor.
  - injection H as <- <- <-. split; [|split; [exact S|constructor]].
    destruct (find_cases x (t_items t) 0) as [(a & b & E & D & G)|[D G]]; rewrite G; [rewrite E; constructor; exact D|constructor; exact D].
  - injection H as <- <- <-. split; [|split; [exact S|constructor]]. rewrite count_filter. constructor.
  - destruct (py_get_cases (t_items t) i) as [(a & x & b & E & D & G)|[D G]].
    + destruct (del_ok t i a x b S E D) as (t1 & E1 & I1 & S1). rewrite E1 in H. injection H as <- <- <-. rewrite I1. rewrite E in *.
      split; [constructor; exact D|]. split; [exact S1|]. constructor; [exact D|constructor].
    + rewrite (del_err t i D) in H. injection H as <- <- <-. split; [constructor; exact D|]. split; [exact S|constructor].
  - destruct (insert_ok t i x S) as (a & b & t1 & E1 & E2 & P & E3 & S1). rewrite E1 in H. injection H as <- <- <-. rewrite E3, E2 in *.
    split; [constructor; exact P|]. split; [exact S1|]. constructor; [exact P|constructor].
  - destruct (append_ok t x S) as (t1 & E1 & I1 & S1). rewrite E1 in H. injection H as <- <- <-. rewrite I1.
    split; [constructor|]. split; [exact S1|apply follows_append].
  - destruct (extend_ok xs t S) as (t1 & n1 & E1 & I1 & S1 & F1). rewrite E1 in H. injection H as <- <- <-. split; [rewrite I1; constructor|]. auto.
  - destruct (py_get_cases (t_items t) i) as [(a & x & b & E & D & G)|[D G]]; rewrite G in H.
    + destruct (del_ok t i a x b S E D) as (t1 & E1 & I1 & S1). rewrite E1 in H. injection H as <- <- <-. rewrite I1. rewrite E in *.
      split; [constructor; exact D|]. split; [exact S1|]. constructor; [exact D|constructor].
    + injection H as <- <- <-. split; [constructor; exact D|]. split; [exact S|constructor].
  - destruct (find_cases x (t_items t) 0) as [(a & b & E & D & G)|[D G]]; rewrite G in H.
    + assert (Dn : denotes (length (t_items t)) (Z.of_nat (0 + length a)) (length a)) by (unfold denotes; rewrite E, app_length; cbn; lia).
      destruct (del_ok t _ a x b S E Dn) as (t1 & E1 & I1 & S1). rewrite E1 in H. injection H as <- <- <-. rewrite I1. rewrite E in *.
      split; [constructor; exact D|]. split; [exact S1|]. constructor; [exact Dn|constructor].
    + injection H as <- <- <-. split; [constructor; exact D|]. split; [exact S|constructor].
  - destruct (clear_general (Datatypes.S (length (t_items t))) t ltac:(lia)) as (t1 & n1 & E1 & I1 & L1 & F1). rewrite E1 in H. injection H as <- <- <-.
    unfold synced in *. rewrite S in I1, L1. rewrite Nat.sub_diag in I1, L1. cbn in I1. rewrite I1 in *. split; [constructor|]. split; [exact L1|exact F1].
Qed.
