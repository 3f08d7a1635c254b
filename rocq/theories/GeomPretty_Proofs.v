From Coq Require Import ZArith QArith Qround Qabs Qminmax Qpower Bool List Lia Lqa.
From Verif Require Import PyBase GeomPretty_Model GeomPretty_Spec.
Import ListNotations.
Local Open Scope Q_scope.

Lemma q_lt_iff x y : q_lt x y = true <-> x < y.
Proof.
  unfold q_lt. rewrite negb_true_iff. split.
  - intros H. apply Qnot_le_lt. intros C. apply Qle_bool_iff in C. congruence.
  - intros H. destruct (Qle_bool y x) eqn:E; [|reflexivity]. apply Qle_bool_iff in E. lra.
Qed.
Lemma q_lt_false x y : q_lt x y = false <-> y <= x.
Proof. unfold q_lt. rewrite negb_false_iff. apply Qle_bool_iff. Qed.
Lemma q_le_false x y : q_le x y = false <-> y < x.
Proof.
  unfold q_le. split.
  - intros H. apply Qnot_le_lt. intros C. apply Qle_bool_iff in C. congruence.
  - intros H. destruct (Qle_bool x y) eqn:E; [|reflexivity]. apply Qle_bool_iff in E. lra.
Qed.
Lemma q_lt_comp x x' y y' : x == x' -> y == y' -> q_lt x y = q_lt x' y'.
Proof.
  intros Hx Hy. destruct (q_lt x' y') eqn:E.
  - apply q_lt_iff in E. apply q_lt_iff. lra.
  - apply q_lt_false in E. apply q_lt_false. lra.
Qed.
Lemma q_le_comp x x' y y' : x == x' -> y == y' -> q_le x y = q_le x' y'.
Proof.
  intros Hx Hy. destruct (q_le x' y') eqn:E.
  - apply Qle_bool_iff in E. apply Qle_bool_iff. lra.
  - apply q_le_false in E. apply q_le_false. lra.
Qed.

Lemma inj_pos z : (0 < z)%Z -> 0 < inject_Z z.
Proof. intros H. change 0 with (inject_Z 0). rewrite <- Zlt_Qlt. exact H. Qed.

(** ** powers of ten *)
Lemma ten_pos k : 0 < ten k.
Proof. apply Qpower_0_lt. reflexivity. Qed.
Lemma ten_succ k : ten (k + 1) == 10 * ten k.
Proof. unfold ten. rewrite Qpower_plus by discriminate. change (inject_Z 10 ^ 1) with (inject_Z 10). unfold inject_Z. ring. Qed.
Lemma ten_pred k : ten k == 10 * ten (k - 1).
Proof. rewrite <- ten_succ. replace (k - 1 + 1)%Z with k by lia. reflexivity. Qed.
Lemma ten_lt j k : (j < k)%Z -> ten j < ten k.
Proof.
  intros H. replace k with (j + 1 + Z.of_nat (Z.to_nat (k - j - 1)))%Z by lia.
  generalize (Z.to_nat (k - j - 1)). clear. induction n as [|n IH].
  - rewrite Z.add_0_r, ten_succ. pose proof (ten_pos j). lra.
  - rewrite Nat2Z.inj_succ. replace (j + 1 + Z.succ (Z.of_nat n))%Z with (j + 1 + Z.of_nat n + 1)%Z by lia. rewrite ten_succ.
    pose proof (ten_pos (j + 1 + Z.of_nat n)). lra.
Qed.
Lemma ten_le j k : (j <= k)%Z -> ten j <= ten k.
Proof. intros H. destruct (Z.eq_dec j k) as [->|N]; [apply Qle_refl|]. apply Qlt_le_weak, ten_lt. lia. Qed.
Lemma decade_unique v w j k : v == w -> decade v j -> decade w k -> j = k.
Proof.
  intros E [A B] [C D]. destruct (Z.lt_trichotomy j k) as [L|[L|L]]; [|exact L|].
  - pose proof (ten_le (j + 1) k ltac:(lia)). lra.
  - pose proof (ten_le (k + 1) j ltac:(lia)). lra.
Qed.
Lemma decade_mono v w j k : v <= w -> decade v j -> decade w k -> (j <= k)%Z.
Proof.
  intros E [A B] [C D]. destruct (Z.le_gt_cases j k) as [L|L]; [exact L|]. pose proof (ten_le (k + 1) j ltac:(lia)). lra.
Qed.

(** ** the exact logarithm exists: search downwards from an upper bound *)
Fixpoint log10_from (fuel : nat) (k : Z) (v : Q) : Z :=
  match fuel with
  | O => k
  | S f => if Qle_bool (ten k) v then k else log10_from f (k - 1) v
  end.
Definition log10_floor (v : Q) : Z :=
  let n := Qnum v in let d := Zpos (Qden v) in
  log10_from (Z.to_nat (Z.log2 n + Z.log2 d + 4)) (Z.log2 n + 1)%Z v.
Lemma ten_ge_two n : (0 <= n)%Z -> inject_Z (2 ^ n) <= ten n.
Proof.
  intros H. rewrite <- (Z2Nat.id n) by exact H. generalize (Z.to_nat n). clear. induction n as [|n IH]; [discriminate|].
  rewrite Nat2Z.inj_succ. rewrite Z.pow_succ_r by lia. rewrite inject_Z_mult.
  replace (Z.succ (Z.of_nat n)) with (Z.of_nat n + 1)%Z by lia. rewrite ten_succ. pose proof (ten_pos (Z.of_nat n)). unfold inject_Z at 1. lra.
Qed.
Lemma log10_from_spec f : forall k v, v < ten (k + 1) -> ten (k - Z.of_nat f) <= v -> decade v (log10_from f k v).
Proof.
  induction f as [|f IH]; intros k v H1 H2; cbn [log10_from].
  - rewrite Z.sub_0_r in H2. split; assumption.
  - destruct (Qle_bool (ten k) v) eqn:E.
    + apply Qle_bool_iff in E. split; assumption.
    + apply IH.
      * replace (k - 1 + 1)%Z with k by lia. apply Qnot_le_lt. intros C. apply Qle_bool_iff in C. congruence.
      * replace (k - 1 - Z.of_nat f)%Z with (k - Z.of_nat (S f))%Z by lia. exact H2.
Qed.
Lemma log10_floor_exact : exact_log log10_floor.
Proof.
  intros v Hv. destruct v as [n d]. unfold log10_floor. cbn [Qnum Qden].
  assert (Hn : (0 < n)%Z) by (unfold Qlt in Hv; cbn in Hv; lia).
  pose proof (Z.log2_nonneg n). pose proof (Z.log2_nonneg (Zpos d)).
  destruct (Z.log2_spec n Hn) as [A B]. destruct (Z.log2_spec (Zpos d) ltac:(lia)) as [C D].
  apply log10_from_spec.
  - apply Qlt_le_trans with (inject_Z (2 ^ (Z.log2 n + 1 + 1))); [|apply ten_ge_two; lia].
    apply Qlt_le_trans with (inject_Z (2 ^ (Z.log2 n + 1))).
    + unfold Qlt, inject_Z. cbn [Qnum Qden]. replace (Z.succ (Z.log2 n)) with (Z.log2 n + 1)%Z in B by lia. nia.
    + rewrite <- Zle_Qle. apply Z.pow_le_mono_r; lia.
  - rewrite Z2Nat.id by lia. replace (Z.log2 n + 1 - (Z.log2 n + Z.log2 (Zpos d) + 4))%Z with (- (Z.log2 (Zpos d) + 1) - 2)%Z by lia.
    apply Qle_trans with (ten (- (Z.log2 (Zpos d) + 1))); [apply ten_le; lia|].
    unfold ten. rewrite Qpower_opp. fold (ten (Z.log2 (Zpos d) + 1)).
    apply Qle_trans with (/ inject_Z (2 ^ (Z.log2 (Zpos d) + 1))).
    + apply Qle_shift_inv_l; [apply inj_pos; apply Z.pow_pos_nonneg; lia|].
      pose proof (ten_ge_two (Z.log2 (Zpos d) + 1) ltac:(lia)) as G. pose proof (ten_pos (Z.log2 (Zpos d) + 1)) as P.
      setoid_replace (/ ten (Z.log2 (Zpos d) + 1) * inject_Z (2 ^ (Z.log2 (Zpos d) + 1))) with (inject_Z (2 ^ (Z.log2 (Zpos d) + 1)) / ten (Z.log2 (Zpos d) + 1)) by (unfold Qdiv; ring).
      apply Qle_shift_div_r; [exact P|]. rewrite Qmult_1_l. exact G.
    + apply Qle_trans with (1 # d).
      * setoid_replace (1 # d) with (/ inject_Z (Zpos d)) by reflexivity.
        apply Qle_shift_inv_l; [apply inj_pos; lia|].
        setoid_replace (/ inject_Z (2 ^ (Z.log2 (Zpos d) + 1)) * inject_Z (Zpos d)) with (inject_Z (Zpos d) / inject_Z (2 ^ (Z.log2 (Zpos d) + 1))) by (unfold Qdiv; ring).
        apply Qle_shift_div_r; [apply inj_pos; apply Z.pow_pos_nonneg; lia|]. rewrite Qmult_1_l, <- Zle_Qle. lia.
      * unfold Qle. cbn [Qnum Qden]. nia.
Qed.

(** ** the digit *)
Lemma norm_digit rounding n : pretty_digit (pretty_norm rounding n).
Proof.
  unfold pretty_norm, pretty_digit. destruct rounding; repeat match goal with |- context [if ?b then _ else _] => destruct b end; auto.
Qed.
Lemma norm_pos rounding n : 0 < pretty_norm rounding n.
Proof. destruct (norm_digit rounding n) as [-> | [-> | [-> | ->]]]; reflexivity. Qed.
Lemma norm_up n : 1 <= n -> n < 10 -> n <= pretty_norm false n /\ pretty_norm false n < (5 # 2) * n.
Proof.
  intros H1 H2. unfold pretty_norm.
  destruct (q_le n 1) eqn:E1; [apply Qle_bool_iff in E1; lra|apply q_le_false in E1].
  destruct (q_le n 2) eqn:E2; [apply Qle_bool_iff in E2; lra|apply q_le_false in E2].
  destruct (q_le n 5) eqn:E3; [apply Qle_bool_iff in E3; lra|apply q_le_false in E3]. lra.
Qed.
Lemma norm_round n : 1 <= n -> n < 10 -> (2 # 3) * n < pretty_norm true n /\ pretty_norm true n <= (5 # 3) * n.
Proof.
  intros H1 H2. unfold pretty_norm.
  destruct (q_lt n (3 # 2)) eqn:E1; [apply q_lt_iff in E1; lra|apply q_lt_false in E1].
  destruct (q_lt n 3) eqn:E2; [apply q_lt_iff in E2; lra|apply q_lt_false in E2].
  destruct (q_lt n 7) eqn:E3; [apply q_lt_iff in E3; lra|apply q_lt_false in E3]. lra.
Qed.
Lemma norm_comp rounding n m : n == m -> pretty_norm rounding n = pretty_norm rounding m.
Proof.
  intros E. unfold pretty_norm.
  rewrite (q_lt_comp n m (3 # 2) (3 # 2)), (q_lt_comp n m 3 3), (q_lt_comp n m 7 7), (q_le_comp n m 1 1), (q_le_comp n m 2 2), (q_le_comp n m 5 5) by (exact E || reflexivity).
  reflexivity.
Qed.
Lemma norm_mono rounding n m : n <= m -> pretty_norm rounding n <= pretty_norm rounding m.
Proof.
  intros H. unfold pretty_norm. destruct rounding.
  - destruct (q_lt n (3 # 2)) eqn:E1, (q_lt m (3 # 2)) eqn:F1, (q_lt n 3) eqn:E2, (q_lt m 3) eqn:F2, (q_lt n 7) eqn:E3, (q_lt m 7) eqn:F3;
      rewrite ?q_lt_iff, ?q_lt_false in *; lra.
  - destruct (q_le n 1) eqn:E1, (q_le m 1) eqn:F1, (q_le n 2) eqn:E2, (q_le m 2) eqn:F2, (q_le n 5) eqn:E3, (q_le m 5) eqn:F3;
      unfold q_le in E1, F1, E2, F2, E3, F3; repeat match goal with
      | H : Qle_bool _ _ = true |- _ => apply Qle_bool_iff in H
      | H : Qle_bool _ _ = false |- _ => apply q_le_false in H
      end; lra.
Qed.

(** ** make_pretty in exact arithmetic *)
Lemma norm_range v k : decade v k -> 1 <= v / ten k /\ v / ten k < 10.
Proof.
  intros [A B]. pose proof (ten_pos k) as P. rewrite ten_succ in B. split.
  - apply Qle_shift_div_l; [exact P|]. lra.
  - apply Qlt_shift_div_r; [exact P|]. lra.
Qed.
Lemma pretty_exact lg v rounding k : lg (Qabs v) = k -> decade (Qabs v) k ->
  make_pretty exact lg v rounding =
  (let r := pretty_norm rounding (Qabs v / ten k) * ten k in if q_lt v 0 then - r else r, ten k).
Proof.
  intros Hk D. unfold make_pretty, exact. rewrite Hk. change (pow10 k) with (ten k).
  destruct (Qeq_bool v 0) eqn:E.
  { apply Qeq_bool_iff in E. exfalso. destruct D as [A _]. rewrite E in A. pose proof (ten_pos k). cbn in A. lra. }
  destruct (q_lt (Qabs v / ten k) 1) eqn:F; [|reflexivity]. apply q_lt_iff in F. destruct (norm_range _ _ D). lra.
Qed.
Lemma abs_signed v r : 0 < r -> Qabs (if q_lt v 0 then - r else r) == r.
Proof. intros H. destruct (q_lt v 0); [rewrite Qabs_opp|]; apply Qabs_pos; lra. Qed.
Lemma signed_same v r : 0 < r -> same_sign (if q_lt v 0 then - r else r) v.
Proof.
  intros H. split; intros Hv.
  - rewrite (proj2 (q_lt_false v 0)) by lra. exact H.
  - rewrite (proj2 (q_lt_iff v 0)) by exact Hv. lra.
Qed.
Lemma scaled_pos rounding n k : 0 < pretty_norm rounding n * ten k.
Proof. pose proof (norm_pos rounding n). pose proof (ten_pos k). apply Qmult_lt_0_compat; assumption. Qed.
Lemma pretty_abs lg v rounding k : lg (Qabs v) = k -> decade (Qabs v) k ->
  Qabs (fst (make_pretty exact lg v rounding)) == pretty_norm rounding (Qabs v / ten k) * ten k.
Proof. intros H D. rewrite (pretty_exact _ _ _ k H D). cbn [fst]. apply abs_signed, scaled_pos. Qed.
Lemma div_mul v k : v / ten k * ten k == v.
Proof. pose proof (ten_pos k). field. lra. Qed.

(** ** ranges *)
Lemma pretty_positive lg v rounding : exact_log lg -> 0 < v -> 0 < make_pretty2 exact lg v rounding.
Proof.
  intros L H. pose proof (L (Qabs v)) as D. assert (Ha : 0 < Qabs v) by (rewrite Qabs_pos by lra; exact H).
  unfold make_pretty2. rewrite (pretty_exact _ _ _ _ eq_refl (D Ha)). cbn [fst]. apply (signed_same v); [apply scaled_pos|exact H].
Qed.
Lemma floor_multiple v d : 0 < d ->
  inject_Z (Qfloor (v / d)) * d <= v /\ v - inject_Z (Qfloor (v / d)) * d < d.
Proof.
  intros H. pose proof (Qfloor_le (v / d)) as A. pose proof (Qlt_floor (v / d)) as B. rewrite inject_Z_plus in B.
  assert (E : v / d * d == v) by (field; lra). change (inject_Z 1) with 1 in B. split.
  - rewrite <- E at 2. apply Qmult_le_compat_r; lra.
  - apply (proj2 (Qmult_lt_r _ _ _ H)) in B. rewrite E in B. lra.
Qed.
Lemma ceiling_multiple v d : 0 < d ->
  v <= inject_Z (Qceiling (v / d)) * d /\ inject_Z (Qceiling (v / d)) * d - v < d.
Proof.
  intros H. pose proof (Qle_ceiling (v / d)) as A. pose proof (Qceiling_lt (v / d)) as B.
  unfold Z.sub in B. rewrite inject_Z_plus in B. change (inject_Z (- (1))) with (-1 # 1) in B.
  assert (E : v / d * d == v) by (field; lra). split.
  - rewrite <- E at 1. apply Qmult_le_compat_r; lra.
  - apply (proj2 (Qmult_lt_r _ _ _ H)) in B. rewrite E in B. lra.
Qed.
Lemma arange_exact (n m : Z) step : 0 < step -> (n <= m)%Z ->
  arange exact (inject_Z n * step) (inject_Z m * step + (1 # 2) * step) step =
  map (fun x => inject_Z n * step + inject_Z (Z.of_nat x) * step) (seq 0 (Z.to_nat (m - n + 1))).
Proof.
  intros H L. unfold arange, exact.
  assert (E : (inject_Z m * step + (1 # 2) * step - inject_Z n * step) / step == inject_Z (m - n) + (1 # 2)).
  { unfold Z.sub. rewrite inject_Z_plus, inject_Z_opp. field. lra. }
  rewrite (Qceiling_comp _ _ E).
  assert (C : Qceiling (inject_Z (m - n) + (1 # 2)) = (m - n + 1)%Z).
  { pose proof (Qle_ceiling (inject_Z (m - n) + (1 # 2))) as A. pose proof (Qceiling_lt (inject_Z (m - n) + (1 # 2))) as B.
    set (c := Qceiling _) in *. clearbody c.
    assert (inject_Z (m - n) < inject_Z c) by lra. assert (inject_Z (c - 1) < inject_Z (m - n + 1)) by (rewrite inject_Z_plus; change (inject_Z 1) with 1; lra).
    rewrite <- Zlt_Qlt in *. lia. }
  rewrite C. reflexivity.
Qed.
Lemma ticks_spaced (n m : Z) step : (n <= m)%Z ->
  evenly_spaced (inject_Z n * step) (inject_Z m * step) step
    (map (fun x => inject_Z n * step + inject_Z (Z.of_nat x) * step) (seq 0 (Z.to_nat (m - n + 1)))).
Proof.
  intros L. set (N := Z.to_nat (m - n + 1)). split; [|split].
  - intros i x H. rewrite nth_error_map in H. destruct (nth_error (seq 0 N) i) as [j|] eqn:E; [|discriminate]. cbn in H. injection H as <-.
    assert (Hi : (i < N)%nat) by (rewrite <- (seq_length N 0); apply nth_error_Some; congruence).
    apply (nth_error_nth _ _ 0%nat) in E. rewrite seq_nth in E by exact Hi. subst j. reflexivity.
  - intros C. apply (f_equal (@length Q)) in C. rewrite map_length, seq_length in C. cbn in C. subst N. lia.
  - rewrite map_length, seq_length. replace (Z.of_nat (N - 1)) with (m - n)%Z by (subst N; lia).
    unfold Z.sub. rewrite inject_Z_plus, inject_Z_opp. ring.
Qed.
Lemma range_exact lg a b t : exact_log lg -> ~ a == b -> (2 <= t)%Z ->
  let low := if q_lt b a then b else a in let high := if q_lt a b then b else a in
  let vr := make_pretty2 exact lg (high - low) false in
  let '(d, f) := make_pretty exact lg (vr / inject_Z (t - 1)) true in
  low < high /\ 0 < vr /\ 0 < d /\ (Qfloor (low / d) <= Qceiling (high / d))%Z /\
  make_pretty_range2 exact lg a b t =
  Ok (Range (inject_Z (Qfloor (low / d)) * d) (inject_Z (Qceiling (high / d)) * d)
            (map (fun x => inject_Z (Qfloor (low / d)) * d + inject_Z (Z.of_nat x) * d)
                 (seq 0 (Z.to_nat (Qceiling (high / d) - Qfloor (low / d) + 1))))
            d (Z.max (- lg d) 0) f).
Proof.
  intros L N T low high vr. destruct (make_pretty exact lg (vr / inject_Z (t - 1)) true) as [d f] eqn:Ep.
  assert (LH : low < high).
  { subst low high. destruct (q_lt b a) eqn:E1, (q_lt a b) eqn:E2; rewrite ?q_lt_iff, ?q_lt_false in *; lra. }
  assert (Hvr : 0 < vr) by (apply pretty_positive; [exact L|lra]).
  assert (HT : 0 < inject_Z (t - 1)) by (apply inj_pos; lia).
  assert (Hd : 0 < d).
  { replace d with (make_pretty2 exact lg (vr / inject_Z (t - 1)) true) by (unfold make_pretty2; rewrite Ep; reflexivity).
    apply pretty_positive; [exact L|]. apply Qlt_shift_div_l; lra. }
  assert (FC : (Qfloor (low / d) <= Qceiling (high / d))%Z).
  { destruct (floor_multiple low d Hd) as [A _]. destruct (ceiling_multiple high d Hd) as [B _].
    assert (C : inject_Z (Qfloor (low / d)) * d < inject_Z (Qceiling (high / d)) * d) by lra.
    apply Qmult_lt_r in C; [|exact Hd]. rewrite <- Zlt_Qlt in C. lia. }
  repeat split; try assumption.
  unfold make_pretty_range2. change (exact (high - low)) with (high - low). fold low high.
  destruct (Qeq_bool high low) eqn:E; [apply Qeq_bool_iff in E; lra|].
  destruct (t - 1 =? 0)%Z eqn:ET; [apply Z.eqb_eq in ET; lia|].
  change (make_pretty2 exact lg (exact (high - low)) false) with vr. change (exact (vr / inject_Z (t - 1))) with (vr / inject_Z (t - 1)). rewrite Ep.
  destruct (Qeq_bool d 0) eqn:E0; [apply Qeq_bool_iff in E0; lra|].
  destruct (q_le d 0) eqn:E1; [apply Qle_bool_iff in E1; lra|].
  change (exact (inject_Z (Qfloor (exact (low / d))) * d)) with (inject_Z (Qfloor (low / d)) * d).
  change (exact (inject_Z (Qceiling (exact (high / d))) * d)) with (inject_Z (Qceiling (high / d)) * d).
  change (exact (inject_Z (Qceiling (high / d)) * d + exact ((1 # 2) * d))) with (inject_Z (Qceiling (high / d)) * d + (1 # 2) * d).
  rewrite (arange_exact _ _ d Hd FC). reflexivity.
Qed.
