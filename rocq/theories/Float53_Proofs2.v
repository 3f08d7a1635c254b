(** Rounding to 53 bits is monotone, and exact on binary fractions. *)
From Coq Require Import ZArith QArith Qabs Bool Lia Lqa.
From Verif Require Import ConvNum_Model Float53_Model Float53_Proofs.
Local Open Scope Z_scope.

Lemma fl_frac_p2 n d : 0 < d -> n <> 0 -> let s := 52 - exponent (Z.abs n) d in
  (fl_frac n d == (half_even (n * p2 s) (d * p2 (- s)) * p2 (- s)) # Z.to_pos (p2 s))%Q.
Proof.
  intros Hd Hn s. unfold fl_frac. cbv zeta. fold s. replace (n =? 0) with false by (symmetry; apply Z.eqb_neq; exact Hn).
  destruct (0 <=? s) eqn:Es; unfold p2.
  - apply Z.leb_le in Es. rewrite (Z.max_r 0 s), (Z.max_l 0 (- s)) by lia. change (2 ^ 0) with 1. rewrite !Z.mul_1_r. reflexivity.
  - apply Z.leb_gt in Es. rewrite (Z.max_l 0 s), (Z.max_r 0 (- s)) by lia. change (2 ^ 0) with 1. rewrite Z.mul_1_r. reflexivity.
Qed.
Lemma scaled_bounds n d : 0 < n -> 0 < d -> let s := 52 - exponent n d in
  d * p2 (- s) * 2 ^ 52 <= n * p2 s < d * p2 (- s) * 2 ^ 53.
Proof.
  intros Hn Hd s. destruct (exponent_spec n d Hn Hd) as [Lo Hi]. set (e := exponent n d) in *. subst s.
  pose proof (p2_pos e) as P1. pose proof (p2_pos (- e)) as P2. pose proof (p2_pos (e + 1)) as P3. pose proof (p2_pos (- (e + 1))) as P4.
  pose proof (p2_pos (52 - e)) as P5. pose proof (p2_pos (- (52 - e))) as P6.
  assert (X : p2 (- (52 - e)) * 2 ^ 52 * p2 (- e) = p2 (52 - e) * p2 e).
  { unfold p2. rewrite <- !Z.pow_add_r by lia. f_equal. lia. }
  assert (Y : p2 (- (52 - e)) * 2 ^ 53 * p2 (- (e + 1)) = p2 (52 - e) * p2 (e + 1)).
  { unfold p2. rewrite <- !Z.pow_add_r by lia. f_equal. lia. }
  set (T := 2 ^ 52) in *. set (U := 2 ^ 53) in *. clearbody T U. split.
  - apply (Z.mul_le_mono_pos_r _ _ (p2 (- e)) P2).
    replace (d * p2 (- (52 - e)) * T * p2 (- e)) with (d * (p2 (- (52 - e)) * T * p2 (- e))) by ring. rewrite X. nia.
  - apply (Z.mul_lt_mono_pos_r (p2 (- (e + 1))) _ _ P4).
    replace (d * p2 (- (52 - e)) * U * p2 (- (e + 1))) with (d * (p2 (- (52 - e)) * U * p2 (- (e + 1)))) by ring. rewrite Y. nia.
Qed.
Lemma half_even_pos n d : 0 <= n -> 0 < d -> 0 <= half_even n d.
Proof. intros Hn Hd. rewrite <- (half_even_exact 0 d 0 Hd eq_refl). apply half_even_mono; lia. Qed.
Lemma fl_frac_sign n d : 0 <= n -> 0 < d -> (0 <= fl_frac n d)%Q.
Proof.
  intros Hn Hd. destruct (Z.eq_dec n 0) as [->|Hz]; [apply Qle_refl|]. rewrite (fl_frac_p2 n d Hd Hz).
  set (s := 52 - exponent (Z.abs n) d). pose proof (p2_pos s). pose proof (p2_pos (- s)).
  assert (0 <= half_even (n * p2 s) (d * p2 (- s))) by (apply half_even_pos; nia). unfold Qle. cbn [Qnum Qden]. nia.
Qed.
Lemma exponent_mono n m d : 0 < n -> n <= m -> 0 < d -> exponent n d <= exponent m d.
Proof.
  intros Hn H Hd. destruct (Z_le_gt_dec (exponent n d) (exponent m d)) as [L|G]; [exact L|]. exfalso.
  destruct (exponent_spec n d Hn Hd) as [Lo _]. destruct (exponent_spec m d ltac:(lia) Hd) as [_ Hi].
  set (e := exponent n d) in *. set (f := exponent m d) in *.
  pose proof (p2_mono (f + 1) e ltac:(lia)). pose proof (p2_mono (- e) (- (f + 1)) ltac:(lia)).
  pose proof (p2_pos (- e)). pose proof (p2_pos (f + 1)). nia.
Qed.
Lemma fl_frac_mono_pos n m d : 0 < n -> n <= m -> 0 < d -> (fl_frac n d <= fl_frac m d)%Q.
Proof.
  intros Hn H Hd. rewrite (fl_frac_p2 n d Hd), (fl_frac_p2 m d Hd) by lia. rewrite !Z.abs_eq by lia.
  pose proof (exponent_mono n m d Hn H Hd) as He.
  pose proof (scaled_bounds n d Hn Hd) as [_ B1]. pose proof (scaled_bounds m d ltac:(lia) Hd) as [B2 _].
  set (s := 52 - exponent n d) in *. set (t := 52 - exponent m d) in *.
  assert (Hst : t <= s) by lia. clearbody s t.
  pose proof (p2_pos s) as Ps. pose proof (p2_pos (- s)) as Ps'. pose proof (p2_pos t) as Pt. pose proof (p2_pos (- t)) as Pt'.
  unfold Qle. cbn [Qnum Qden]. rewrite !Z2Pos.id by assumption.
  destruct (Z.eq_dec s t) as [->|Hne].
  - apply Z.mul_le_mono_nonneg_r; [lia|]. apply Z.mul_le_mono_nonneg_r; [lia|]. apply half_even_mono; nia.
  - assert (A : half_even (n * p2 s) (d * p2 (- s)) <= 2 ^ 53).
    { rewrite <- (half_even_exact (2 ^ 53 * (d * p2 (- s))) (d * p2 (- s)) (2 ^ 53)); [apply half_even_mono; nia|nia|reflexivity]. }
    assert (B : 2 ^ 52 <= half_even (m * p2 t) (d * p2 (- t))).
    { rewrite <- (half_even_exact (2 ^ 52 * (d * p2 (- t))) (d * p2 (- t)) (2 ^ 52)); [apply half_even_mono; nia|nia|reflexivity]. }
    assert (C : 2 * (p2 (- s) * p2 t) <= p2 (- t) * p2 s).
    { change 2 with (2 ^ 1) at 1. unfold p2. rewrite <- !Z.pow_add_r by lia. apply Z.pow_le_mono_r; lia. }
    set (a := half_even _ _) in *. set (b := half_even _ _) in *. change (2 ^ 53) with (2 * 2 ^ 52) in A.
    assert (T0 : 0 < 2 ^ 52) by reflexivity. set (T := 2 ^ 52) in *. clearbody a b T.
    apply (Z.le_trans _ (2 * T * (p2 (- s) * p2 t))).
    + rewrite <- Z.mul_assoc. apply Z.mul_le_mono_nonneg_r; [nia|exact A].
    + apply (Z.le_trans _ (T * (p2 (- t) * p2 s))); [nia|]. rewrite <- Z.mul_assoc. apply Z.mul_le_mono_nonneg_r; [nia|exact B].
Qed.
Lemma fl_frac_mono n m d : n <= m -> 0 < d -> (fl_frac n d <= fl_frac m d)%Q.
Proof.
  intros H Hd. destruct (Z_lt_le_dec 0 n) as [Hn|Hn]; [apply fl_frac_mono_pos; assumption|].
  destruct (Z_le_gt_dec 0 m) as [Hm|Hm].
  - apply (Qle_trans _ 0); [|apply fl_frac_sign; assumption].
    pose proof (fl_frac_sign (- n) d ltac:(lia) Hd) as S. rewrite (fl_frac_opp n d Hd) in S. lra.
  - pose proof (fl_frac_mono_pos (- m) (- n) d ltac:(lia) ltac:(lia) Hd) as S. rewrite !fl_frac_opp in S by exact Hd. lra.
Qed.
Lemma fl_mono q r : (q <= r)%Q -> (fl q <= fl r)%Q.
Proof.
  destruct q as [n p], r as [m u]. unfold Qle at 1, fl. cbn [Qnum Qden]. intros H.
  rewrite <- (fl_frac_scale n (Zpos p) (Zpos u)), <- (fl_frac_scale m (Zpos u) (Zpos p)) by lia.
  rewrite (Z.mul_comm (Zpos u) (Zpos p)). apply fl_frac_mono; lia.
Qed.
(** integers over powers of two *)
Lemma fl_frac_exact n d c : 0 < d -> n <> 0 -> let s := 52 - exponent (Z.abs n) d in
  n * p2 s = c * (d * p2 (- s)) -> (fl_frac n d == n # Z.to_pos d)%Q.
Proof.
  intros Hd Hn s E. rewrite (fl_frac_p2 n d Hd Hn). fold s. pose proof (p2_pos s). pose proof (p2_pos (- s)).
  rewrite (half_even_exact _ _ c (Z.mul_pos_pos _ _ Hd H0) E). unfold Qeq. cbn [Qnum Qden]. rewrite !Z2Pos.id by lia. rewrite E. ring.
Qed.
Lemma fl_binary n j : 0 <= j -> Z.abs n <= 2 ^ 53 -> (fl (n # Z.to_pos (2 ^ j)) == n # Z.to_pos (2 ^ j))%Q.
Proof.
  intros Hj Hn. assert (P : 0 < 2 ^ j) by (apply Z.pow_pos_nonneg; lia).
  unfold fl. cbn [Qnum Qden]. rewrite Z2Pos.id by exact P.
  destruct (Z.eq_dec n 0) as [->|Hz]; [unfold Qeq; reflexivity|].
  pose proof (scaled_bounds (Z.abs n) (2 ^ j) ltac:(lia) P) as [B _]. cbv zeta in B.
  set (s := 52 - exponent (Z.abs n) (2 ^ j)) in *.
  pose proof (p2_pos s) as Ps. pose proof (p2_pos (- s)) as Ps'.
  destruct (Z_le_gt_dec j s) as [L|G].
  - apply (fl_frac_exact n (2 ^ j) (n * 2 ^ (s - j)) P Hz). fold s. unfold p2. rewrite (Z.max_r 0 s), (Z.max_l 0 (- s)) by lia.
    change (2 ^ 0) with 1. rewrite Z.mul_1_r, <- Z.mul_assoc, <- Z.pow_add_r by lia. f_equal. f_equal. lia.
  - (* only |n| = 2^53 *)
    assert (Hs : s = j - 1 /\ Z.abs n = 2 ^ 53).
    { assert (Q : 2 ^ j * p2 (- s) = 2 ^ (j - s) * p2 s) by (unfold p2; rewrite <- !Z.pow_add_r by lia; f_equal; lia).
      rewrite Q in B. assert (B' : 2 ^ (j - s) * 2 ^ 52 <= Z.abs n) by nia. rewrite <- Z.pow_add_r in B' by lia.
      assert (2 ^ (j - s + 52) <= 2 ^ 53) by lia. apply Z.pow_le_mono_r_iff in H; [|lia|lia].
      assert (E : s = j - 1) by lia. split; [exact E|]. replace (j - s + 52) with 53 in B' by lia. lia. }
    destruct Hs as [Es En]. apply (fl_frac_exact n (2 ^ j) (Z.sgn n * 2 ^ 52) P Hz). fold s.
    assert (Q : 2 ^ j * p2 (- s) = 2 * p2 s) by (rewrite Es; unfold p2; change 2 with (2 ^ 1) at 3; rewrite <- !Z.pow_add_r by lia; f_equal; lia).
    rewrite Q. pose proof (Z.sgn_abs n) as Sg. rewrite En in Sg. rewrite <- (Z.abs_sgn n) at 1. rewrite En. change (2 ^ 53) with (2 ^ 52 * 2). ring.
Qed.
