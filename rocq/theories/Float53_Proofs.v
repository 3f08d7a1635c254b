From Coq Require Import ZArith QArith Qabs Bool Lia Lqa.
From Verif Require Import ConvNum_Model Float53_Model.
Local Open Scope Z_scope.

Lemma half_even_error n d : 0 < d -> Z.abs (2 * (half_even n d * d - n)) <= d.
Proof.
  intros Hd. unfold half_even. cbv zeta. pose proof (Z.div_mod n d ltac:(lia)) as E. pose proof (Z.mod_pos_bound n d Hd) as B.
  set (q := n / d) in *. set (r := n mod d) in *. clearbody q r.
  destruct (2 * r ?= d) eqn:C.
  - apply Z.compare_eq in C. destruct (Z.even q); lia.
  - rewrite Z.compare_lt_iff in C. lia.
  - rewrite Z.compare_gt_iff in C. lia.
Qed.
Lemma half_even_exact n d k : 0 < d -> n = k * d -> half_even n d = k.
Proof.
  intros Hd ->. unfold half_even. cbv zeta. rewrite Z.div_mul, Z.mod_mul by lia.
  assert (E : (2 * 0 ?= d) = Lt) by (apply Z.compare_lt_iff; lia). rewrite E. reflexivity.
Qed.
Lemma half_even_mono n n' d : 0 < d -> n <= n' -> half_even n d <= half_even n' d.
Proof.
  intros Hd Hn. destruct (Z.eq_dec (n / d) (n' / d)) as [Eq|Nq].
  - unfold half_even. cbv zeta. rewrite <- Eq.
    pose proof (Z.div_mod n d ltac:(lia)) as E. pose proof (Z.div_mod n' d ltac:(lia)) as E'. rewrite <- Eq in E'.
    assert (Hr : n mod d <= n' mod d) by lia.
    destruct (2 * (n mod d) ?= d) eqn:C, (2 * (n' mod d) ?= d) eqn:C';
      try (apply Z.compare_eq in C); try (apply Z.compare_eq in C'); try (rewrite Z.compare_lt_iff in C); try (rewrite Z.compare_lt_iff in C');
      try (rewrite Z.compare_gt_iff in C); try (rewrite Z.compare_gt_iff in C'); try destruct (Z.even (n / d)); lia.
  - assert (H : n / d <= n' / d) by (apply Z.div_le_mono; lia).
    assert (half_even n d <= n / d + 1) by (unfold half_even; cbv zeta; destruct (_ ?= _); try destruct (Z.even _); lia).
    assert (n' / d <= half_even n' d) by (unfold half_even; cbv zeta; destruct (_ ?= _); try destruct (Z.even _); lia).
    lia.
Qed.
Lemma half_even_opp n d : 0 < d -> half_even (- n) d = - half_even n d.
Proof.
  intros Hd. destruct (Z.eq_dec (n mod d) 0) as [Z0|NZ].
  - apply Z.mod_divide in Z0; [|lia]. destruct Z0 as [k ->]. rewrite (half_even_exact (k * d) d k Hd eq_refl).
    apply half_even_exact; lia.
  - unfold half_even. cbv zeta. rewrite (Z.div_opp_l_nz n d ltac:(lia) NZ), (Z.mod_opp_l_nz n d ltac:(lia) NZ).
    pose proof (Z.mod_pos_bound n d Hd) as B. set (r := n mod d) in *. set (q := n / d).
    assert (Ev : Z.even (- q - 1) = negb (Z.even q)).
    { replace (- q - 1) with (- (q + 1)) by lia. rewrite Z.even_opp, Z.even_add. destruct (Z.even q); reflexivity. }
    destruct (2 * r ?= d) eqn:C.
    + apply Z.compare_eq in C. replace (2 * (d - r) ?= d) with Eq by (symmetry; apply Z.compare_eq_iff; lia).
      rewrite Ev. destruct (Z.even q); simpl; lia.
    + rewrite Z.compare_lt_iff in C. replace (2 * (d - r) ?= d) with Gt by (symmetry; apply Z.compare_gt_iff; lia). lia.
    + rewrite Z.compare_gt_iff in C. replace (2 * (d - r) ?= d) with Lt by (symmetry; apply Z.compare_lt_iff; lia). lia.
Qed.

(** 2^e <= n/d < 2^(e+1), with the powers on whichever side they are integers *)
Definition p2 (k : Z) : Z := 2 ^ Z.max 0 k.
Lemma p2_pos k : 0 < p2 k. Proof. apply Z.pow_pos_nonneg; lia. Qed.
Lemma pow2_le_iff k n d : pow2_le k n d = true <-> d * p2 k <= n * p2 (- k).
Proof.
  unfold pow2_le, p2. destruct (0 <=? k) eqn:E; rewrite Z.leb_le; (apply Z.leb_le in E || apply Z.leb_gt in E).
  - rewrite (Z.max_r 0 k), (Z.max_l 0 (- k)) by lia. change (2 ^ 0) with 1. rewrite Z.mul_1_r. reflexivity.
  - rewrite (Z.max_l 0 k), (Z.max_r 0 (- k)) by lia. change (2 ^ 0) with 1. rewrite Z.mul_1_r. reflexivity.
Qed.
Lemma p2_split a b : 0 <= a + b -> p2 a * p2 b = 2 ^ (a + b) * p2 (- a) * p2 (- b).
Proof.
  intros H. unfold p2. rewrite <- !Z.pow_add_r by lia. f_equal. lia.
Qed.
Lemma p2_succ k : p2 (k + 1) * p2 (- k) = 2 * p2 k * p2 (- (k + 1)).
Proof. unfold p2. change 2 with (2 ^ 1) at 3. rewrite <- !Z.pow_add_r by lia. f_equal. lia. Qed.

Lemma exponent_spec n d : 0 < n -> 0 < d ->
  d * p2 (exponent n d) <= n * p2 (- exponent n d) /\ n * p2 (- (exponent n d + 1)) < d * p2 (exponent n d + 1).
Proof.
  intros Hn Hd. unfold exponent. cbv zeta. set (a := Z.log2 n). set (b := Z.log2 d). set (k := a - b).
  pose proof (Z.log2_spec n Hn) as [N1 N2]. pose proof (Z.log2_spec d Hd) as [D1 D2]. fold a in N1, N2. fold b in D1, D2.
  assert (Ha : 0 <= a) by apply Z.log2_nonneg. assert (Hb : 0 <= b) by apply Z.log2_nonneg.
  assert (Up : n * p2 (- (k + 1)) < d * p2 (k + 1)).
  { unfold p2. destruct (Z.le_gt_cases 0 (k + 1)) as [L|L].
    - rewrite (Z.max_l 0 (- (k + 1))), (Z.max_r 0 (k + 1)) by lia. change (2 ^ 0) with 1.
      assert (2 ^ (a + 1) = 2 ^ b * 2 ^ (k + 1)) by (rewrite <- Z.pow_add_r by lia; f_equal; lia). change (Z.succ a) with (a + 1) in N2.
      assert (0 < 2 ^ (k + 1)) by (apply Z.pow_pos_nonneg; lia). nia.
    - rewrite (Z.max_r 0 (- (k + 1))), (Z.max_l 0 (k + 1)) by lia. change (2 ^ 0) with 1.
      assert (E : 2 ^ b = 2 ^ (a + 1) * 2 ^ (- (k + 1))) by (rewrite <- Z.pow_add_r by lia; f_equal; lia). change (Z.succ a) with (a + 1) in N2.
      assert (0 < 2 ^ (- (k + 1))) by (apply Z.pow_pos_nonneg; lia). nia. }
  assert (Lo : d * p2 (k - 1) <= n * p2 (- (k - 1))).
  { unfold p2. destruct (Z.le_gt_cases 0 (k - 1)) as [L|L].
    - rewrite (Z.max_l 0 (- (k - 1))), (Z.max_r 0 (k - 1)) by lia. change (2 ^ 0) with 1.
      assert (2 ^ a = 2 ^ (b + 1) * 2 ^ (k - 1)) by (rewrite <- Z.pow_add_r by lia; f_equal; lia). change (Z.succ b) with (b + 1) in D2.
      assert (0 < 2 ^ (k - 1)) by (apply Z.pow_pos_nonneg; lia). nia.
    - rewrite (Z.max_r 0 (- (k - 1))), (Z.max_l 0 (k - 1)) by lia. change (2 ^ 0) with 1.
      assert (E : 2 ^ (b + 1) = 2 ^ a * 2 ^ (- (k - 1))) by (rewrite <- Z.pow_add_r by lia; f_equal; lia). change (Z.succ b) with (b + 1) in D2.
      assert (0 < 2 ^ (- (k - 1))) by (apply Z.pow_pos_nonneg; lia). nia. }
  destruct (pow2_le k n d) eqn:E.
  - apply pow2_le_iff in E. auto.
  - assert (E' : ~ d * p2 k <= n * p2 (- k)) by (rewrite <- pow2_le_iff; congruence).
    split; [exact Lo|]. replace (k - 1 + 1) with k by lia. lia.
Qed.

(** ** truncation of a quotient of integers up to 2^53 *)
Lemma quot_floor_nonneg n d : 0 <= n -> 0 < d -> Z.quot n d = n / d.
Proof. intros. apply Z.quot_div_nonneg; lia. Qed.

Lemma fl_frac_opp n d : 0 < d -> (fl_frac (- n) d == - fl_frac n d)%Q.
Proof.
  intros Hd. unfold fl_frac. cbv zeta. rewrite Z.abs_opp. set (s := 52 - exponent (Z.abs n) d).
  destruct (n =? 0) eqn:E.
  - apply Z.eqb_eq in E. subst n. reflexivity.
  - assert (E2 : (- n =? 0) = false) by (apply Z.eqb_neq; apply Z.eqb_neq in E; lia). rewrite E2. destruct (0 <=? s) eqn:Es.
    + replace (- n * 2 ^ s) with (- (n * 2 ^ s)) by lia. rewrite half_even_opp by exact Hd. reflexivity.
    + rewrite half_even_opp by (apply Z.leb_gt in Es; apply Z.mul_pos_pos; [exact Hd|apply Z.pow_pos_nonneg; lia]).
      unfold Qeq. simpl. lia.
Qed.

Lemma q_trunc_make m p : q_trunc (m # p) = Z.quot m (Zpos p).
Proof. reflexivity. Qed.

Lemma fl_trunc_nonneg n d : 0 < n <= 2 ^ 53 -> 0 < d -> q_trunc (fl_frac n d) = n / d.
Proof.
  intros Hn Hd. unfold fl_frac. cbv zeta. rewrite Z.abs_eq by lia. destruct (exponent_spec n d ltac:(lia) Hd) as [Lo Up].
  set (e := exponent n d) in *. set (s := 52 - e).
  assert (E0 : (n =? 0) = false) by (apply Z.eqb_neq; lia). rewrite E0.
  pose proof (Z.div_mod n d ltac:(lia)) as Dm. pose proof (Z.mod_pos_bound n d Hd) as Br.
  destruct (0 <=? s) eqn:Es.
  - apply Z.leb_le in Es. assert (P : 0 < 2 ^ s) by (apply Z.pow_pos_nonneg; lia).
    rewrite q_trunc_make, Z2Pos.id by exact P.
    set (m := half_even (n * 2 ^ s) d). pose proof (half_even_error (n * 2 ^ s) d Hd) as Er. fold m in Er.
    assert (M1 : (n / d) * 2 ^ s <= m).
    { rewrite <- (half_even_exact ((n / d * 2 ^ s) * d) d (n / d * 2 ^ s) Hd eq_refl). apply half_even_mono; [exact Hd|]. nia. }
    assert (Q0 : 0 <= n / d) by (apply Z.div_pos; lia).
    (* d <= 2^(s+1), strictly unless n/d is a power of two *)
    assert (Ds : d * p2 e <= n * p2 (- e)) by exact Lo.
    assert (X : 2 ^ 53 * p2 (- e) = 2 ^ (s + 1) * p2 e).
    { unfold s, p2. rewrite <- !Z.pow_add_r by lia. f_equal. lia. }
    assert (Pe : 0 < p2 e) by apply p2_pos. assert (Pe' : 0 < p2 (- e)) by apply p2_pos.
    assert (Dle : d <= 2 ^ (s + 1)) by nia.
    assert (S1 : 2 ^ (s + 1) = 2 * 2 ^ s) by (rewrite Z.pow_add_r by lia; change (2 ^ 1) with 2; lia).
    assert (M2 : m < (n / d + 1) * 2 ^ s).
    { destruct (Z.lt_ge_cases m ((n / d + 1) * 2 ^ s)) as [L|G]; [exact L|exfalso].
      set (q := n / d) in *. set (r := n mod d) in *. set (w := 2 ^ s) in *.
      assert (A : 2 * w * (d - r) <= d) by nia.
      assert (B : 2 * w <= d) by nia. assert (Deq : d = 2 * w) by lia. assert (R1 : d - r = 1) by nia.
      (* then n = 2^53 and d p2 e = n p2 (-e) *)
      assert (U : n * p2 (- e) <= 2 ^ 53 * p2 (- e)) by (apply Z.mul_le_mono_nonneg_r; lia).
      rewrite X, S1, <- Deq in U. assert (C : d * p2 e = n * p2 (- e)) by lia.
      assert (N53 : n = 2 ^ 53).
      { apply (Z.mul_reg_r _ _ (p2 (- e))); [lia|]. rewrite X, S1, <- Deq. lia. }
      clear U X S1 Up Er Lo Ds Dle M1.
      (* d divides n when e >= 0; when e < 0, n < d *)
      destruct (Z.le_gt_cases 0 e) as [Le|Le].
      + assert (p2 (- e) = 1) by (unfold p2; rewrite Z.max_l by lia; reflexivity).
        assert (r = 0) by (unfold r; apply Z.mod_divide; [lia|]; exists (p2 e); nia). nia.
      + assert (Pe1 : p2 e = 1) by (unfold p2; rewrite Z.max_l by lia; reflexivity).
        assert (H2 : 2 <= p2 (- e)) by (unfold p2; rewrite Z.max_r by lia; change 2 with (2 ^ 1) at 1; apply Z.pow_le_mono_r; lia).
        assert (q = 0) by (unfold q; apply Z.div_small; nia). nia. }
    rewrite Z.quot_div_nonneg by nia. symmetry. apply (Z.div_unique m (2 ^ s) (n / d) (m - n / d * 2 ^ s)); [left; nia|lia].
  - apply Z.leb_gt in Es. unfold q_trunc. cbn [inject_Z Qnum Qden]. rewrite Z.quot_1_r.
    (* e >= 53: only 2^53 / 1 *)
    assert (He : 53 <= e) by lia. assert (P1 : p2 (- e) = 1) by (unfold p2; rewrite Z.max_l by lia; reflexivity).
    assert (P2 : p2 e = 2 ^ e) by (unfold p2; rewrite Z.max_r by lia; reflexivity). rewrite P1, P2 in Lo.
    assert (Ge : 2 ^ 53 <= 2 ^ e) by (apply Z.pow_le_mono_r; lia).
    assert (d = 1) by nia. subst d. assert (n = 2 ^ 53) by nia. assert (E53 : 2 ^ e = 2 ^ 53) by nia.
    assert (e = 53) by (apply (Z.pow_inj_r 2); lia). subst n. replace (- s) with 1 by lia.
    rewrite (half_even_exact (2 ^ 53) (1 * 2 ^ 1) (2 ^ 52)) by reflexivity. reflexivity.
Qed.

Lemma q_trunc_opp q : q_trunc (- q) = - q_trunc q.
Proof. unfold q_trunc. simpl. apply Z.quot_opp_l. discriminate. Qed.
Lemma q_trunc_eq p q : (p == q)%Q -> q_trunc p = q_trunc q.
Proof.
  unfold Qeq, q_trunc. intros H.
  assert (E : Qnum p * Zpos (Qden q) = Qnum q * Zpos (Qden p)) by exact H.
  rewrite <- (Z.quot_mul_cancel_r (Qnum p) (Zpos (Qden p)) (Zpos (Qden q))) by discriminate.
  rewrite E, (Z.mul_comm (Zpos (Qden p))). apply Z.quot_mul_cancel_r; discriminate.
Qed.

(** int(h / k) for integers: truncated division, exactly, for |h| <= 2^53 *)
Lemma fl_trunc_quot n d : Z.abs n <= 2 ^ 53 -> 0 < d -> q_trunc (fl_frac n d) = Z.quot n d.
Proof.
  intros Hn Hd. destruct (Z.lt_trichotomy n 0) as [L|[->|G]].
  - assert (Eo : q_trunc (fl_frac n d) = - q_trunc (fl_frac (- n) d)).
    { rewrite <- q_trunc_opp. apply q_trunc_eq. rewrite <- fl_frac_opp by exact Hd. rewrite Z.opp_involutive. reflexivity. }
    rewrite Eo, fl_trunc_nonneg by lia. rewrite <- quot_floor_nonneg by lia. rewrite Z.quot_opp_l by lia. lia.
  - reflexivity.
  - rewrite fl_trunc_nonneg by lia. symmetry. apply quot_floor_nonneg; lia.
Qed.
(** integers up to 2^53 are exact *)
Lemma fl_frac_int n : Z.abs n <= 2 ^ 53 -> (fl_frac n 1 == inject_Z n)%Q.
Proof.
  intros H. unfold fl_frac. cbv zeta. destruct (n =? 0) eqn:E0; [apply Z.eqb_eq in E0; subst; reflexivity|]. apply Z.eqb_neq in E0.
  destruct (exponent_spec (Z.abs n) 1 ltac:(lia) ltac:(lia)) as [Lo Up]. set (e := exponent (Z.abs n) 1) in *. set (s := 52 - e).
  destruct (0 <=? s) eqn:Es.
  - apply Z.leb_le in Es. assert (P : 0 < 2 ^ s) by (apply Z.pow_pos_nonneg; lia).
    rewrite (half_even_exact (n * 2 ^ s) 1 (n * 2 ^ s)) by lia. unfold Qeq, inject_Z. cbn [Qnum Qden]. rewrite Z2Pos.id by exact P. lia.
  - apply Z.leb_gt in Es. assert (P1 : p2 (- e) = 1) by (unfold p2; rewrite Z.max_l by lia; reflexivity).
    assert (P2 : p2 e = 2 ^ e) by (unfold p2; rewrite Z.max_r by lia; reflexivity). rewrite P1, P2 in Lo.
    assert (Ge : 2 ^ 53 <= 2 ^ e) by (apply Z.pow_le_mono_r; lia). assert (E53 : 2 ^ e = 2 ^ 53) by nia.
    assert (e = 53) by (apply (Z.pow_inj_r 2); lia). replace (- s) with 1 by lia. change (1 * 2 ^ 1) with 2. change (2 ^ 1) with 2.
    assert (A : Z.abs n = 2 ^ 53) by lia. assert (N : n = 2 ^ 53 \/ n = - 2 ^ 53) by lia.
    destruct N as [->| ->]; [rewrite (half_even_exact _ 2 (2 ^ 52)) by reflexivity|rewrite (half_even_exact _ 2 (- 2 ^ 52)) by reflexivity]; reflexivity.
Qed.

(** ** relative error at most 2^-53 *)
Lemma fl_frac_error n d : 0 < d ->
  (Qabs (fl_frac n d - (n # Z.to_pos d)) <= Qabs (n # Z.to_pos d) * (1 # Z.to_pos (2 ^ 53)))%Q.
Proof.
  intros Hd. unfold fl_frac. cbv zeta. destruct (n =? 0) eqn:E0; [apply Z.eqb_eq in E0; subst; unfold Qle; simpl; lia|]. apply Z.eqb_neq in E0.
  destruct (exponent_spec (Z.abs n) d ltac:(lia) Hd) as [Lo _]. set (e := exponent (Z.abs n) d) in *. set (s := 52 - e).
  assert (Pe : 0 < p2 e) by apply p2_pos. assert (Pe' : 0 < p2 (- e)) by apply p2_pos.
  destruct (0 <=? s) eqn:Es.
  - apply Z.leb_le in Es. assert (P : 0 < 2 ^ s) by (apply Z.pow_pos_nonneg; lia).
    pose proof (half_even_error (n * 2 ^ s) d Hd) as Er. set (m := half_even (n * 2 ^ s) d) in *.
    assert (X : 2 ^ 52 * p2 (- e) = 2 ^ s * p2 e) by (unfold s, p2; rewrite <- !Z.pow_add_r by lia; f_equal; lia).
    assert (K : d * 2 ^ 52 <= Z.abs n * 2 ^ s).
    { apply (Z.mul_le_mono_pos_r _ _ (p2 (- e)) Pe'). rewrite <- Z.mul_assoc, X.
      replace (Z.abs n * 2 ^ s * p2 (- e)) with (2 ^ s * (Z.abs n * p2 (- e))) by ring.
      replace (d * (2 ^ s * p2 e)) with (2 ^ s * (d * p2 e)) by ring. apply Z.mul_le_mono_nonneg_l; lia. }
    unfold Qle, Qabs, Qminus, Qplus, Qopp, Qmult. cbn [Qnum Qden]. rewrite !Pos2Z.inj_mul, !Z2Pos.id by (try apply Z.mul_pos_pos; lia).
    change (2 ^ 53) with (2 * 2 ^ 52). set (T := 2 ^ 52) in *. set (w := 2 ^ s) in *.
    replace (m * d + - n * w) with (m * d - n * w) by ring. set (y := m * d - n * w) in *.
    assert (Ey : 2 * Z.abs y <= d) by (rewrite Z.abs_mul in Er; lia). clearbody T w y. clear Lo X.
    replace (Z.abs y * (d * (2 * T))) with ((2 * Z.abs y) * T * d) by ring. replace (Z.abs n * 1 * (w * d)) with (Z.abs n * w * d) by ring.
    apply Z.mul_le_mono_nonneg_r; [lia|]. assert (0 < T \/ T <= 0) by lia. nia.
  - apply Z.leb_gt in Es. assert (P : 0 < 2 ^ (- s)) by (apply Z.pow_pos_nonneg; lia).
    assert (Pd : 0 < d * 2 ^ (- s)) by (apply Z.mul_pos_pos; lia).
    pose proof (half_even_error n (d * 2 ^ (- s)) Pd) as Er. set (m := half_even n (d * 2 ^ (- s))) in *.
    assert (P1 : p2 (- e) = 1) by (unfold p2; rewrite Z.max_l by lia; reflexivity).
    assert (P2 : p2 e = 2 ^ e) by (unfold p2; rewrite Z.max_r by lia; reflexivity). rewrite P1, P2 in Lo.
    assert (X : 2 ^ e = 2 ^ 52 * 2 ^ (- s)) by (rewrite <- Z.pow_add_r by lia; f_equal; lia). rewrite X in Lo.
    unfold Qle, Qabs, Qminus, Qplus, Qopp, Qmult, inject_Z. cbn [Qnum Qden]. rewrite !Pos2Z.inj_mul, !Z2Pos.id by lia.
    change (2 ^ 53) with (2 * 2 ^ 52). set (T := 2 ^ 52) in *. set (w := 2 ^ (- s)) in *.
    assert (T0 : 0 < T) by reflexivity. clearbody T w.
    replace (m * w * d + - n * 1) with (m * (d * w) - n) by ring. set (y := m * (d * w) - n) in *.
    assert (Ey : 2 * Z.abs y <= d * w) by (rewrite Z.abs_mul in Er; lia). clearbody y. nia.
Qed.
Lemma fl_error q : (Qabs (fl q - q) <= Qabs q * (1 # Z.to_pos (2 ^ 53)))%Q.
Proof. destruct q as [n p]. exact (fl_frac_error n (Zpos p) (Pos2Z.is_pos p)). Qed.

(** ** the rounding depends on the value only *)
Lemma p2_mono a b : a <= b -> p2 a <= p2 b.
Proof. intros H. apply Z.pow_le_mono_r; lia. Qed.
Lemma exponent_unique n d e : 0 < n -> 0 < d ->
  d * p2 e <= n * p2 (- e) -> n * p2 (- (e + 1)) < d * p2 (e + 1) -> exponent n d = e.
Proof.
  intros Hn Hd L U. destruct (exponent_spec n d Hn Hd) as [L' U']. set (f := exponent n d) in *. clearbody f.
  destruct (Z.lt_trichotomy e f) as [H|[H|H]]; [|congruence|]; exfalso.
  - pose proof (p2_mono (e + 1) f ltac:(lia)). pose proof (p2_mono (- f) (- (e + 1)) ltac:(lia)). nia.
  - pose proof (p2_mono (f + 1) e ltac:(lia)). pose proof (p2_mono (- e) (- (f + 1)) ltac:(lia)). nia.
Qed.
Lemma exponent_scale n d c : 0 < n -> 0 < d -> 0 < c -> exponent (n * c) (d * c) = exponent n d.
Proof.
  intros Hn Hd Hc. destruct (exponent_spec n d Hn Hd) as [L U]. apply exponent_unique; try (apply Z.mul_pos_pos; assumption).
  - replace (d * c * p2 (exponent n d)) with (c * (d * p2 (exponent n d))) by ring.
    replace (n * c * p2 (- exponent n d)) with (c * (n * p2 (- exponent n d))) by ring. apply Z.mul_le_mono_nonneg_l; lia.
  - replace (d * c * p2 (exponent n d + 1)) with (c * (d * p2 (exponent n d + 1))) by ring.
    replace (n * c * p2 (- (exponent n d + 1))) with (c * (n * p2 (- (exponent n d + 1)))) by ring. apply Z.mul_lt_mono_pos_l; lia.
Qed.
Lemma half_even_scale n d c : 0 < d -> 0 < c -> half_even (n * c) (d * c) = half_even n d.
Proof.
  intros Hd Hc. unfold half_even. cbv zeta. rewrite Z.div_mul_cancel_r, Z.mul_mod_distr_r by lia.
  assert (E : (2 * (n mod d * c) ?= d * c) = (2 * (n mod d) ?= d)).
  { rewrite Z.mul_assoc, (Z.mul_comm (2 * (n mod d)) c), (Z.mul_comm d c). symmetry. apply Zmult_compare_compat_l. lia. }
  rewrite E. reflexivity.
Qed.
Lemma fl_frac_scale n d c : 0 < d -> 0 < c -> fl_frac (n * c) (d * c) = fl_frac n d.
Proof.
  intros Hd Hc. unfold fl_frac. cbv zeta. destruct (Z.eq_dec n 0) as [->|Hn]; [reflexivity|].
  assert (E1 : (n =? 0) = false) by (apply Z.eqb_neq; lia). assert (E2 : (n * c =? 0) = false) by (apply Z.eqb_neq; nia). rewrite E1, E2.
  rewrite Z.abs_mul, (Z.abs_eq c) by lia. rewrite exponent_scale by lia. set (s := 52 - exponent (Z.abs n) d).
  destruct (0 <=? s) eqn:Es.
  - replace (n * c * 2 ^ s) with (n * 2 ^ s * c) by ring. rewrite half_even_scale by assumption. reflexivity.
  - apply Z.leb_gt in Es. replace (d * c * 2 ^ (- s)) with (d * 2 ^ (- s) * c) by ring.
    rewrite half_even_scale; [reflexivity|apply Z.mul_pos_pos; [exact Hd|apply Z.pow_pos_nonneg; lia]|exact Hc].
Qed.
Lemma fl_comp q r : (q == r)%Q -> fl q = fl r.
Proof.
  destruct q as [n p], r as [m u]. unfold Qeq, fl. cbn [Qnum Qden]. intros H.
  rewrite <- (fl_frac_scale n (Zpos p) (Zpos u)) by lia. rewrite H, (Z.mul_comm (Zpos p)). apply fl_frac_scale; lia.
Qed.
Lemma fl_int q z : (q == inject_Z z)%Q -> Z.abs z <= 2 ^ 53 -> (fl q == inject_Z z)%Q.
Proof. intros E H. rewrite (fl_comp q _ E). apply fl_frac_int, H. Qed.
(** int() of a rounded integer quotient *)
Lemma fl_quot q n d : Z.abs n <= 2 ^ 53 -> d <> 0 -> (q == inject_Z n / inject_Z d)%Q -> q_trunc (fl q) = Z.quot n d.
Proof.
  intros Hn Hd E.
  assert (G : forall n d q, Z.abs n <= 2 ^ 53 -> 0 < d -> (q == inject_Z n / inject_Z d)%Q -> q_trunc (fl q) = Z.quot n d).
  { clear. intros n d q Hn Hd E. rewrite (fl_comp q (n # Z.to_pos d)).
    - unfold fl. cbn [Qnum Qden]. rewrite Z2Pos.id by exact Hd. apply fl_trunc_quot; assumption.
    - rewrite E. destruct d as [|p|p]; try lia. unfold Qeq, Qdiv, Qmult, Qinv, inject_Z. cbn. lia. }
  destruct (Z.lt_trichotomy d 0) as [L|[->|P]]; [|congruence|apply (G n d q); [exact Hn|lia|exact E]].
  rewrite <- (Z.quot_opp_opp n d Hd). apply G; [rewrite Z.abs_opp; exact Hn|lia|]. rewrite E. rewrite !inject_Z_opp. field.
  intros X. apply Hd. unfold Qeq, inject_Z in X. cbn in X. lia.
Qed.
