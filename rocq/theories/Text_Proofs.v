From Coq Require Import String Ascii List ZArith Bool Lia.
From Verif Require Import PyBase Text_Model.
Import ListNotations.
Local Open Scope Z_scope.

Ltac each_ascii c := destruct c as [[] [] [] [] [] [] [] []].

Lemma code_range c : 0 <= code c < 256.
Proof. each_ascii c; vm_compute; split; congruence. Qed.
Lemma chr_code c : chr (code c) = c.
Proof. unfold chr, code. rewrite Nat2Z.id. apply ascii_nat_embedding. Qed.
Lemma code_chr n : 0 <= n < 256 -> code (chr n) = n.
Proof. intros H. unfold chr, code. rewrite nat_ascii_embedding by lia. lia. Qed.
Lemma code_inj a b : code a = code b -> a = b.
Proof. intros H. rewrite <- (chr_code a), <- (chr_code b), H. reflexivity. Qed.

Lemma is_digit_char d : 0 <= d < 10 -> is_digit (digit_char d) = true.
Proof. intros H. unfold is_digit, digit_char. rewrite code_chr by lia. apply andb_true_intro. split; apply Z.leb_le; lia. Qed.
Lemma digit_val_char d : 0 <= d < 10 -> digit_val (digit_char d) = d.
Proof. intros H. unfold digit_val, digit_char. rewrite code_chr; lia. Qed.
Lemma is_digit_range c : is_digit c = true -> 0 <= digit_val c < 10.
Proof. unfold is_digit, digit_val. intros H. apply andb_prop in H as [H1 H2]. apply Z.leb_le in H1, H2. lia. Qed.
Lemma digit_char_val c : digit_char (digit_val c) = c.
Proof. unfold digit_char, digit_val. replace (48 + (code c - 48)) with (code c) by lia. apply chr_code. Qed.
Lemma digit_not_space c : is_digit c = true -> is_space c = false.
Proof. each_ascii c; vm_compute; congruence. Qed.
Lemma digit_not_cspace c : is_digit c = true -> is_cspace c = false.
Proof. each_ascii c; vm_compute; congruence. Qed.

Lemma horner_app base val acc s t : horner base val acc (s ++ t) = horner base val (horner base val acc s) t.
Proof. revert acc. induction s as [|c s IH]; intros acc; simpl; [reflexivity|apply IH]. Qed.

Lemma horner_shift base val acc s : horner base val acc s = acc * base ^ Z.of_nat (length s) + horner base val 0 s.
Proof.
  revert acc. induction s as [|c s IH]; intros acc; [simpl; lia|].
  cbn [horner length]. rewrite IH, (IH (0 * base + val c)). rewrite Nat2Z.inj_succ, Z.pow_succ_r by lia. ring.
Qed.

Lemma horner_nonneg base val s acc : 0 <= base -> 0 <= acc -> (forall c, In c s -> 0 <= val c) -> 0 <= horner base val acc s.
Proof.
  intros Hb. revert acc. induction s as [|c s IH]; intros acc Ha Hv; simpl; [exact Ha|].
  apply IH; [|intros; apply Hv; right; assumption]. specialize (Hv c (or_introl eq_refl)). nia.
Qed.

Lemma horner_lt base val s : 0 < base -> (forall c, In c s -> 0 <= val c < base) -> 0 <= horner base val 0 s < base ^ Z.of_nat (length s).
Proof.
  intros Hb. induction s as [|c s IH] using rev_ind; intros Hv; [simpl; lia|].
  rewrite horner_app, app_length, Nat2Z.inj_add, Z.pow_add_r by lia. cbn [horner length]. change (Z.of_nat 1) with 1. rewrite Z.pow_1_r.
  assert (H1 : 0 <= val c < base) by (apply Hv, in_app_iff; right; left; reflexivity).
  assert (H2 : 0 <= horner base val 0 s < base ^ Z.of_nat (length s)) by (apply IH; intros; apply Hv, in_app_iff; auto).
  nia.
Qed.

Lemma dec_aux_app fuel n acc : dec_aux fuel n acc = dec_aux fuel n [] ++ acc.
Proof.
  revert n acc. induction fuel as [|f IH]; intros n acc; [reflexivity|]. cbn [dec_aux]. cbv zeta.
  destruct (n / 10 =? 0); [reflexivity|]. rewrite IH, (IH _ [_]), <- app_assoc. reflexivity.
Qed.

Lemma dec_aux_spec fuel : forall n, 0 <= n < 2 ^ Z.of_nat fuel -> (0 < fuel)%nat ->
  dec_value (dec_aux fuel n []) = n /\ forallb is_digit (dec_aux fuel n []) = true /\
  dec_aux fuel n [] <> [] /\
  (n <> 0 -> hd_error (dec_aux fuel n []) <> Some "0"%char).
Proof.
  induction fuel as [|f IH]; intros n Hn Hf; [lia|]. cbn [dec_aux]. cbv zeta.
  pose proof (Z.mod_pos_bound n 10 ltac:(lia)) as Hm. pose proof (Z.div_mod n 10 ltac:(lia)) as Hdm.
  destruct (Z.eqb_spec (n / 10) 0) as [E|E].
  - split; [unfold dec_value; simpl; rewrite digit_val_char by lia; lia|].
    split; [simpl; rewrite is_digit_char by lia; reflexivity|]. split; [discriminate|].
    intros Hnz. simpl. intros [= H]. apply (f_equal digit_val) in H. rewrite digit_val_char in H by lia. change (digit_val "0"%char) with 0 in H. lia.
  - rewrite dec_aux_app. rewrite Nat2Z.inj_succ, Z.pow_succ_r in Hn by lia.
    assert (Hd : 0 <= n / 10) by (apply Z.div_pos; lia).
    assert (Hlt : n / 10 < 2 ^ Z.of_nat f) by (apply Z.div_lt_upper_bound; lia).
    assert (f <> 0)%nat by (intros ->; simpl in Hlt; lia).
    destruct (IH (n / 10) ltac:(lia) ltac:(lia)) as (I1 & I2 & I3 & I4).
    split; [unfold dec_value in *; rewrite horner_app, I1; simpl; rewrite digit_val_char by lia; lia|].
    split; [rewrite forallb_app, I2; simpl; rewrite is_digit_char by lia; reflexivity|].
    split; [intros Hnil; apply app_eq_nil in Hnil; tauto|].
    intros _. specialize (I4 E). destruct (dec_aux f (n / 10) []); [congruence|]. exact I4.
Qed.

Lemma dec_spec n : 0 <= n ->
  dec_value (dec n) = n /\ forallb is_digit (dec n) = true /\ dec n <> [] /\ (n <> 0 -> hd_error (dec n) <> Some "0"%char).
Proof.
  intros Hn. unfold dec. apply dec_aux_spec; [|lia]. split; [exact Hn|].
  destruct (Z.eq_dec n 0) as [->|Hnz]; [vm_compute; reflexivity|].
  rewrite Nat2Z.inj_succ, Z2Nat.id by apply Z.log2_nonneg. apply Z.log2_spec. lia.
Qed.

Lemma pad_length k n : length (pad k n) = k.
Proof. revert n. induction k as [|k IH]; intros n; simpl; [reflexivity|]. rewrite app_length, IH. simpl. lia. Qed.
Lemma pad_digits k n : forallb is_digit (pad k n) = true.
Proof.
  revert n. induction k as [|k IH]; intros n; [reflexivity|]. cbn [pad]. rewrite forallb_app, IH. simpl.
  rewrite is_digit_char; [reflexivity|]. apply Z.mod_pos_bound. lia.
Qed.
Lemma pad_value k : forall n, 0 <= n < 10 ^ Z.of_nat k -> dec_value (pad k n) = n.
Proof.
  induction k as [|k IH]; intros n Hn; [simpl in *; unfold dec_value; simpl; lia|]. cbn [pad].
  rewrite Nat2Z.inj_succ, Z.pow_succ_r in Hn by lia.
  pose proof (Z.mod_pos_bound n 10 ltac:(lia)) as Hm. pose proof (Z.div_mod n 10 ltac:(lia)) as Hdm.
  unfold dec_value in *. rewrite horner_app, IH.
  - cbn [horner]. rewrite digit_val_char by lia. lia.
  - split; [apply Z.div_pos; lia|apply Z.div_lt_upper_bound; lia].
Qed.
Lemma pad_of_value s : forallb is_digit s = true -> pad (length s) (dec_value s) = s.
Proof.
  induction s as [|c s IH] using rev_ind; intros H; [reflexivity|].
  rewrite forallb_app in H. apply andb_prop in H as [H1 H2]. simpl in H2. rewrite andb_true_r in H2.
  rewrite app_length. simpl. rewrite Nat.add_1_r. cbn [pad]. unfold dec_value in *. rewrite horner_app. cbn [horner].
  apply is_digit_range in H2. rewrite Z.div_add_l, Z.div_small, Z.add_0_r, IH by (assumption || lia).
  rewrite Z.add_comm, Z.mod_add, Z.mod_small, digit_char_val by lia. reflexivity.
Qed.
Lemma dec_value_bound s : forallb is_digit s = true -> 0 <= dec_value s < 10 ^ Z.of_nat (length s).
Proof.
  intros H. apply horner_lt; [lia|]. intros c Hc. apply is_digit_range. rewrite forallb_forall in H. auto.
Qed.

(** strip *)
Lemma drop_while_app p s t : forallb p s = true -> drop_while p (s ++ t) = drop_while p t.
Proof. induction s as [|c s IH]; simpl; intros H; [reflexivity|]. apply andb_prop in H as [-> H]. auto. Qed.
Lemma drop_while_split p s : exists pre, s = pre ++ drop_while p s /\ forallb p pre = true.
Proof.
  induction s as [|c s (pre & E & H)]; simpl; [exists []; auto|]. destruct (p c) eqn:Ec; [|exists []; auto].
  exists (c :: pre). simpl. rewrite Ec, H, <- E. auto.
Qed.
Lemma drop_while_head p s c t : drop_while p s = c :: t -> p c = false.
Proof. induction s as [|a s IH]; simpl; [discriminate|]. destruct (p a) eqn:E; [auto|]. intros [= -> _]. exact E. Qed.

(** [core] has no character of [p] at either end *)
Definition trimmed (p : ascii -> bool) (s : str) : Prop :=
  (forall c t, s = c :: t -> p c = false) /\ (forall c t, s = t ++ [c] -> p c = false).

Lemma forallb_rev {A} (p : A -> bool) l : forallb p (rev l) = forallb p l.
Proof.
  induction l as [|a l IH]; [reflexivity|]. simpl. rewrite forallb_app, IH. simpl. rewrite andb_true_r. apply andb_comm.
Qed.

Lemma strip_sandwich p pre core post : forallb p pre = true -> forallb p post = true -> trimmed p core ->
  strip_by p (pre ++ core ++ post) = core.
Proof.
  intros H1 H2 [T1 T2]. unfold strip_by. rewrite drop_while_app by exact H1.
  destruct core as [|c core].
  - simpl. assert (E : drop_while p post = []).
    { clear -H2. induction post as [|c post IH]; simpl in *; [reflexivity|]. apply andb_prop in H2 as [-> H2]. auto. }
    rewrite E. reflexivity.
  - cbn [app drop_while]. rewrite (T1 c core eq_refl). change (c :: core ++ post) with ((c :: core) ++ post).
    rewrite rev_app_distr, drop_while_app by (rewrite forallb_rev; exact H2).
    destruct (rev (c :: core)) as [|d r] eqn:Er.
    + apply (f_equal (@length ascii)) in Er. rewrite rev_length in Er. discriminate.
    + assert (Ed : c :: core = rev r ++ [d]) by (rewrite <- (rev_involutive (c :: core)), Er; reflexivity).
      cbn [drop_while]. rewrite (T2 d (rev r) Ed), <- Er, rev_involutive. reflexivity.
Qed.

Lemma strip_decompose p s : exists pre post,
  s = pre ++ strip_by p s ++ post /\ forallb p pre = true /\ forallb p post = true /\ trimmed p (strip_by p s).
Proof.
  unfold strip_by. destruct (drop_while_split p s) as (pre & E & H).
  destruct (drop_while_split p (rev (drop_while p s))) as (q & E2 & H2).
  exists pre, (rev q). split; [|split; [exact H|split; [rewrite forallb_rev; exact H2|]]].
  - rewrite <- rev_app_distr, <- E2, rev_involutive. exact E.
  - set (d := drop_while p s) in *. set (e := drop_while p (rev d)) in *. split.
    + intros c t Hc. assert (Ed : d = c :: t ++ rev q).
      { rewrite <- (rev_involutive d), E2, rev_app_distr, Hc. reflexivity. }
      apply (drop_while_head p s c (t ++ rev q)). exact Ed.
    + intros c t Hc. apply (f_equal (@rev ascii)) in Hc. rewrite rev_involutive, rev_app_distr in Hc. simpl in Hc.
      apply (drop_while_head p (rev d) c (rev t)). exact Hc.
Qed.

Lemma span_spec p s a b : span p s = (a, b) -> s = a ++ b /\ forallb p a = true /\ (forall c t, b = c :: t -> p c = false).
Proof.
  revert a b. induction s as [|c s IH]; intros a b; simpl.
  - intros [= <- <-]. repeat split. discriminate.
  - destruct (p c) eqn:Ec.
    + destruct (span p s) as [a' b'] eqn:E. intros [= <- <-]. destruct (IH _ _ eq_refl) as (-> & H & H2).
      simpl. rewrite Ec, H. auto.
    + intros [= <- <-]. repeat split. intros ? ? [= <- _]. exact Ec.
Qed.
Lemma span_app p a b : forallb p a = true -> (forall c t, b = c :: t -> p c = false) -> span p (a ++ b) = (a, b).
Proof.
  intros Ha Hb. induction a as [|c a IH]; simpl in *.
  - destruct b as [|c b]; [reflexivity|]. simpl. rewrite (Hb c b eq_refl). reflexivity.
  - apply andb_prop in Ha as [-> Ha]. rewrite (IH Ha). reflexivity.
Qed.
