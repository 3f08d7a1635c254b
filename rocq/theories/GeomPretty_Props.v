(** Properties C48, C49 and C81: pretty numbers and pretty ranges. *)
From Coq Require Import ZArith QArith Qround Qabs Bool List Lia Lqa.
From Verif Require Import PyBase Float53_Model GeomPretty_Model GeomPretty_Spec GeomPretty_Proofs.
Import ListNotations.
Local Open Scope Q_scope.

Lemma Ok_inj A (a b : A) : Ok a = Ok b -> a = b.
Proof. congruence. Qed.

(** ** C48 *)
Theorem pretty_shape lg v rounding : decade (Qabs v) (lg (Qabs v)) ->
  let p := fst (make_pretty exact lg v rounding) in
  (exists d, pretty_digit d /\ Qabs p == d * ten (lg (Qabs v))) /\ same_sign p v /\
  snd (make_pretty exact lg v rounding) = ten (lg (Qabs v)).
Proof.
  intros D p. split; [|split].
  - exists (pretty_norm rounding (Qabs v / ten (lg (Qabs v)))). split; [apply norm_digit|]. apply pretty_abs; [reflexivity|exact D].
  - subst p. rewrite (pretty_exact _ _ _ _ eq_refl D). apply signed_same, scaled_pos.
  - rewrite (pretty_exact _ _ _ _ eq_refl D). reflexivity.
Qed.
Theorem pretty_without_rounding lg v : decade (Qabs v) (lg (Qabs v)) ->
  let p := fst (make_pretty exact lg v false) in Qabs v <= Qabs p /\ Qabs p < (5 # 2) * Qabs v.
Proof.
  intros D p. subst p. rewrite (pretty_abs _ _ _ _ eq_refl D). set (k := lg (Qabs v)) in *.
  destruct (norm_range _ _ D) as [A B]. destruct (norm_up _ A B) as [U V]. pose proof (ten_pos k) as P.
  apply (Qmult_le_compat_r _ _ (ten k)) in U; [|lra]. apply (proj2 (Qmult_lt_r _ _ _ P)) in V.
  rewrite div_mul in U. rewrite <- Qmult_assoc, div_mul in V. split; assumption.
Qed.
Theorem pretty_with_rounding lg v : decade (Qabs v) (lg (Qabs v)) ->
  let p := fst (make_pretty exact lg v true) in (2 # 3) * Qabs v < Qabs p /\ Qabs p <= (5 # 3) * Qabs v.
Proof.
  intros D p. subst p. rewrite (pretty_abs _ _ _ _ eq_refl D). set (k := lg (Qabs v)) in *.
  destruct (norm_range _ _ D) as [A B]. destruct (norm_round _ A B) as [U V]. pose proof (ten_pos k) as P.
  apply (Qmult_le_compat_r _ _ (ten k)) in V; [|lra]. apply (proj2 (Qmult_lt_r _ _ _ P)) in U.
  rewrite <- Qmult_assoc, div_mul in U. rewrite <- Qmult_assoc, div_mul in V. split; assumption.
Qed.
(** the exact logarithm exists, so the above is about every non-zero value *)
Theorem pretty_log_exists : exact_log log10_floor.
Proof. exact log10_floor_exact. Qed.
(** log10 rounded up across a power of ten: corrected for values of at least 1 ... *)
Theorem pretty_log_rounded_up lg v rounding k : lg (Qabs v) = (k + 1)%Z -> decade (Qabs v) k ->
  ((0 <= k)%Z -> let p := fst (make_pretty exact lg v rounding) in Qabs p == pretty_norm rounding (Qabs v / ten k) * ten k /\ same_sign p v) /\
  ((k < 0)%Z -> fst (make_pretty exact lg v rounding) == 0 /\ snd (make_pretty exact lg v rounding) = 0).
Proof.
  intros H D. pose proof (ten_pos k) as P. pose proof D as [A B].
  assert (Hn : q_lt (Qabs v / ten (k + 1)) 1 = true).
  { apply q_lt_iff. apply Qlt_shift_div_r; [apply ten_pos|]. lra. }
  assert (Hv : Qeq_bool v 0 = false).
  { destruct (Qeq_bool v 0) eqn:E; [|reflexivity]. apply Qeq_bool_iff in E. rewrite E in A. cbn in A. lra. }
  assert (Hf : ten (k + 1) / 10 == ten k) by (rewrite ten_succ; field).
  unfold make_pretty, exact. rewrite H, Hv. change (pow10 (k + 1)) with (ten (k + 1)). rewrite Hn. cbn [fst snd].
  rewrite (Qfloor_comp _ _ Hf). split; intros Hk.
  - assert (F : inject_Z (Qfloor (ten k)) == ten k).
    { unfold ten. pose proof (Qpower.Zpower_Qpower 10 k Hk) as ZP. rewrite (Qfloor_comp _ _ (Qeq_sym _ _ ZP)), Qfloor_Z. exact ZP. }
    assert (N : pretty_norm rounding (Qabs v / ten (k + 1) * 10) = pretty_norm rounding (Qabs v / ten k)).
    { apply norm_comp. rewrite ten_succ. field. lra. }
    rewrite N. set (r := pretty_norm rounding (Qabs v / ten k)).
    assert (R : r * inject_Z (Qfloor (ten k)) == r * ten k) by (rewrite F; reflexivity).
    pose proof (scaled_pos rounding (Qabs v / ten k) k) as SP. fold r in SP. rewrite <- R in SP.
    split; [rewrite abs_signed by exact SP; exact R|apply signed_same; exact SP].
  - assert (F : Qfloor (ten k) = 0%Z).
    { pose proof (Qfloor_le (ten k)) as L1. pose proof (Qlt_floor (ten k)) as L2.
      pose proof (ten_lt k 0 Hk) as L3. change (ten 0) with 1 in L3. set (z := Qfloor (ten k)) in *. clearbody z.
      assert (X1 : inject_Z z < inject_Z 1) by (change (inject_Z 1) with 1; lra). assert (X2 : inject_Z 0 < inject_Z (z + 1)) by (change (inject_Z 0) with 0; lra).
      rewrite <- Zlt_Qlt in *. lia. }
    rewrite F. split; [|reflexivity]. destruct (q_lt v 0); change (inject_Z 0) with 0; ring.
Qed.
(** ... finding: below 1 the result collapses to 0; the double just below 0.01, 3/100 - 2/100 in doubles, has a log10
    that rounds to -2 *)
Theorem pretty_collapse_refuted lg :
  let v := fl (fl (3 # 100) - fl (2 # 100)) in lg (Qabs v) = (-2)%Z ->
  decade v (-3) /\ fst (make_pretty fl lg v false) == 0.
Proof.
  intros v H. unfold decade. split; [split; vm_compute; congruence|].
  unfold make_pretty. rewrite H. vm_compute. reflexivity.
Qed.

(** ** C49 *)
Theorem pretty_range_covers lg a b t : exact_log lg -> ~ a == b -> (2 <= t)%Z ->
  let low := if q_lt b a then b else a in let high := if q_lt a b then b else a in
  exists g, make_pretty_range2 exact lg a b t = Ok g /\
    0 < g_division g /\
    g_min g <= low /\ low - g_min g < g_division g /\ multiple (g_min g) (g_division g) /\
    high <= g_max g /\ g_max g - high < g_division g /\ multiple (g_max g) (g_division g) /\
    evenly_spaced (g_min g) (g_max g) (g_division g) (g_ticks g).
Proof.
  intros L N T low high. pose proof (range_exact lg a b t L N T) as R. cbv zeta in R. fold low high in R.
  destruct (make_pretty exact lg _ true) as [d f]. destruct R as (LH & Hvr & Hd & FC & E). eexists. split; [exact E|].
  cbn [g_division g_min g_max g_ticks]. destruct (floor_multiple low d Hd) as [A B]. destruct (ceiling_multiple high d Hd) as [C D].
  repeat split; try assumption; try (eexists; reflexivity); apply (ticks_spaced _ _ d FC).
Qed.
(** the number of ticks is about the number asked for *)
Theorem pretty_tick_count lg a b t g : exact_log lg -> ~ a == b -> (2 <= t)%Z -> make_pretty_range2 exact lg a b t = Ok g ->
  let n := inject_Z (Z.of_nat (length (g_ticks g))) in
  (6 # 25) * inject_Z (t - 1) + 1 < n /\ n < (3 # 2) * inject_Z (t - 1) + 3.
Proof.
  intros L N T E0. pose proof (range_exact lg a b t L N T) as R. cbv zeta in R.
  set (low := if q_lt b a then b else a) in *. set (high := if q_lt a b then b else a) in *.
  clearbody low high. set (vr := make_pretty2 exact lg (high - low) false) in *.
  destruct (make_pretty exact lg (vr / inject_Z (t - 1)) true) as [d f] eqn:Ep. destruct R as (LH & Hvr & Hd & FC & E).
  rewrite E in E0. apply Ok_inj in E0. subst g. cbn [g_ticks]. rewrite map_length, seq_length. rewrite Z2Nat.id by lia.
  destruct (floor_multiple low d Hd) as [A B]. destruct (ceiling_multiple high d Hd) as [C D].
  assert (HT : 0 < inject_Z (t - 1)) by (apply inj_pos; lia).
  assert (Hr : 0 < Qabs (high - low)) by (rewrite Qabs_pos; lra).
  destruct (pretty_without_rounding lg (high - low) (L _ Hr)) as [V1 V2].
  change (fst (make_pretty exact lg (high - low) false)) with vr in V1, V2.
  rewrite (Qabs_pos vr) in V1, V2 by lra. rewrite (Qabs_pos (high - low)) in V1, V2 by lra.
  set (q := vr / inject_Z (t - 1)) in *.
  assert (Q : q * inject_Z (t - 1) == vr) by (subst q; field; lra).
  assert (Hq : 0 < q) by (apply Qlt_shift_div_l; lra).
  assert (Hq' : 0 < Qabs q) by (rewrite Qabs_pos; lra).
  destruct (pretty_with_rounding lg q (L _ Hq')) as [W1 W2]. rewrite Ep in W1, W2. cbn [fst] in W1, W2.
  rewrite (Qabs_pos d) in W1, W2 by lra. rewrite (Qabs_pos q) in W1, W2 by lra.
  set (n := Qfloor (low / d)) in *. set (m := Qceiling (high / d)) in *.
  replace (m - n + 1)%Z with (m + - n + 1)%Z by lia. rewrite !inject_Z_plus, inject_Z_opp. change (inject_Z 1) with 1.
  set (T1 := inject_Z (t - 1)) in *. clearbody T1 q vr. set (M := inject_Z m) in *. set (K := inject_Z n) in *. clearbody M K.
  assert (S1 : (5 # 3) * q * T1 == (5 # 3) * vr) by (rewrite <- Q; ring).
  assert (S2 : (2 # 3) * q * T1 == (2 # 3) * vr) by (rewrite <- Q; ring).
  assert (U1 : d * T1 <= (5 # 3) * vr) by (rewrite <- S1; apply Qmult_le_compat_r; lra).
  assert (U2 : (2 # 3) * vr < d * T1) by (rewrite <- S2; apply Qmult_lt_r; assumption).
  split.
  - assert (X : (6 # 25) * T1 < M - K); [|lra]. apply (Qmult_lt_r _ _ d Hd). lra.
  - assert (X : M - K - 2 < (3 # 2) * T1); [|lra]. apply (Qmult_lt_r _ _ d Hd). lra.
Qed.
Theorem pretty_range_equal rd lg a b t : a == b -> make_pretty_range2 rd lg a b t = Ok (Range a a [a] 0 0 0).
Proof.
  intros H. unfold make_pretty_range2. rewrite (proj2 (q_lt_false b a)), (proj2 (q_lt_false a b)) by lra.
  rewrite (proj2 (Qeq_bool_iff a a)) by reflexivity. reflexivity.
Qed.
Theorem pretty_range_order rd lg a b t : ~ a == b -> make_pretty_range2 rd lg a b t = make_pretty_range2 rd lg b a t.
Proof.
  intros H. unfold make_pretty_range2.
  destruct (q_lt b a) eqn:E1, (q_lt a b) eqn:E2; rewrite ?q_lt_iff, ?q_lt_false in *; try reflexivity; exfalso; apply H; lra.
Qed.
(** fewer than two ticks *)
Theorem pretty_range_few_ticks lg a b t : exact_log lg -> ~ a == b ->
  (t = 1%Z -> make_pretty_range2 exact lg a b t = Err ZeroDivisionError) /\
  ((t <= 0)%Z -> make_pretty_range2 exact lg a b t = Err ValueError).
Proof.
  intros L N. unfold make_pretty_range2.
  set (low := if q_lt b a then b else a). set (high := if q_lt a b then b else a).
  assert (LH : low < high).
  { subst low high. destruct (q_lt b a) eqn:E1, (q_lt a b) eqn:E2; rewrite ?q_lt_iff, ?q_lt_false in *; lra. }
  destruct (Qeq_bool high low) eqn:E; [apply Qeq_bool_iff in E; lra|]. split; [intros ->; reflexivity|]. intros T.
  destruct (t - 1 =? 0)%Z eqn:ET; [apply Z.eqb_eq in ET; lia|].
  change (exact (high - low)) with (high - low). set (vr := make_pretty2 exact lg (high - low) false).
  assert (Hvr : 0 < vr) by (apply pretty_positive; [exact L|lra]).
  assert (HT : 0 < inject_Z (- (t - 1))) by (apply inj_pos; lia). rewrite inject_Z_opp in HT.
  unfold exact at 2. set (q := vr / inject_Z (t - 1)).
  assert (Hq : q < 0).
  { assert (Qe : q * inject_Z (t - 1) == vr) by (subst q; field; lra). destruct (Qlt_le_dec q 0) as [X|X]; [exact X|].
    exfalso. assert (0 <= q * - inject_Z (t - 1)) by (apply Qmult_le_0_compat; lra). lra. }
  assert (Hq' : 0 < Qabs q) by (rewrite Qabs_neg; lra).
  pose proof (pretty_shape lg q true (L _ Hq')) as (_ & [_ S] & _). specialize (S Hq).
  destruct (make_pretty exact lg q true) as [d f]. cbn [fst] in S.
  destruct (Qeq_bool d 0) eqn:E0; [apply Qeq_bool_iff in E0; lra|].
  unfold q_le. rewrite (proj2 (Qle_bool_iff d 0)) by lra. reflexivity.
Qed.
(** findings in doubles: the range 0.02 .. 0.03 gives the single tick 0; the minimum of 3.9 .. 4.2 lies above 3.9 *)
Theorem pretty_range_collapse_refuted lg :
  lg (Qabs (fl (fl (3 # 100) - fl (2 # 100)))) = (-2)%Z ->
  make_pretty_range2 fl lg (fl (2 # 100)) (fl (3 # 100)) 5 = Ok (Range 0 0 [0] 0 0 0).
Proof.
  intros H. unfold make_pretty_range2. 
  replace (q_lt (fl (3 # 100)) (fl (2 # 100))) with false by reflexivity.
  replace (q_lt (fl (2 # 100)) (fl (3 # 100))) with true by reflexivity. cbv iota.
  replace (Qeq_bool (fl (3 # 100)) (fl (2 # 100))) with false by reflexivity. cbv iota zeta. unfold make_pretty2.
  assert (E : fst (make_pretty fl lg (fl (fl (3 # 100) - fl (2 # 100))) false) == 0).
  { unfold make_pretty. rewrite H. vm_compute. reflexivity. }
  assert (Z : Qeq_bool (fl (fst (make_pretty fl lg (fl (fl (3 # 100) - fl (2 # 100))) false) / inject_Z (5 - 1))) 0 = true).
  { unfold make_pretty. rewrite H. vm_compute. reflexivity. }
  change (5 - 1 =? 0)%Z with false. cbv iota. unfold make_pretty at 1. rewrite Z. reflexivity.
Qed.
Theorem pretty_range_double_refuted :
  match make_pretty_range2 fl log10_floor (fl (39 # 10)) (fl (42 # 10)) 5 with
  | Ok g => ~ g_min g <= fl (39 # 10)
  | Err _ => False
  end.
Proof. vm_compute. congruence. Qed.

(** ** C81 *)
Lemma pretty_at lg v rounding k : exact_log lg -> decade (Qabs v) k ->
  make_pretty2 exact lg v rounding = (let r := pretty_norm rounding (Qabs v / ten k) * ten k in if q_lt v 0 then - r else r).
Proof.
  intros L D. assert (Hk : lg (Qabs v) = k).
  { apply (decade_unique (Qabs v) (Qabs v)); [reflexivity|apply L|exact D]. destruct D as [A _]. pose proof (ten_pos k). lra. }
  unfold make_pretty2. rewrite (pretty_exact _ _ _ _ Hk D). reflexivity.
Qed.
Lemma pretty_at_pos lg v rounding k : exact_log lg -> decade v k -> make_pretty2 exact lg v rounding == pretty_norm rounding (v / ten k) * ten k.
Proof.
  intros L D. assert (P : 0 < v) by (destruct D as [A _]; pose proof (ten_pos k); lra).
  assert (Ea : Qabs v == v) by (apply Qabs_pos; lra).
  assert (D' : decade (Qabs v) k) by (unfold decade in *; rewrite Ea; exact D).
  rewrite (pretty_at _ _ _ _ L D'). rewrite (proj2 (q_lt_false v 0)) by lra. cbv zeta.
  rewrite (norm_comp rounding (Qabs v / ten k) (v / ten k)) by (rewrite Ea; reflexivity). reflexivity.
Qed.
Theorem pretty_odd lg v rounding : exact_log lg -> make_pretty2 exact lg (- v) rounding == - make_pretty2 exact lg v rounding.
Proof.
  intros L. destruct (Qeq_dec v 0) as [Z|Z].
  { unfold make_pretty2, make_pretty. rewrite (proj2 (Qeq_bool_iff v 0) Z). rewrite (proj2 (Qeq_bool_iff (- v) 0)) by lra. reflexivity. }
  assert (P : 0 < Qabs v) by (apply Qabs_case; intros; lra).
  pose proof (L _ P) as D. set (k := lg (Qabs v)) in *.
  assert (D' : decade (Qabs (- v)) k) by (unfold decade in *; rewrite Qabs_opp; exact D).
  rewrite (pretty_at _ _ _ _ L D), (pretty_at _ _ _ _ L D'). cbv zeta.
  rewrite (norm_comp rounding (Qabs (- v) / ten k) (Qabs v / ten k)) by (rewrite Qabs_opp; reflexivity).
  destruct (q_lt v 0) eqn:E1, (q_lt (- v) 0) eqn:E2; rewrite ?q_lt_iff, ?q_lt_false in *; try lra; try ring.
Qed.
Theorem pretty_monotone lg v w rounding : exact_log lg -> v <= w -> make_pretty2 exact lg v rounding <= make_pretty2 exact lg w rounding.
Proof.
  intros L.
  assert (Pos : forall v w, 0 < v -> v <= w -> make_pretty2 exact lg v rounding <= make_pretty2 exact lg w rounding).
  { clear v w. intros v w Hv H. pose proof (L v Hv) as Dv. pose proof (L w ltac:(lra)) as Dw.
    rewrite (pretty_at_pos _ _ _ _ L Dv), (pretty_at_pos _ _ _ _ L Dw). set (j := lg v) in *. set (k := lg w) in *.
    pose proof (decade_mono _ _ _ _ H Dv Dw) as JK. pose proof (ten_pos j) as Pj. pose proof (ten_pos k) as Pk.
    destruct (Z.eq_dec j k) as [<-|NE].
    - apply Qmult_le_compat_r; [|lra]. apply norm_mono. unfold Qdiv. apply Qmult_le_compat_r; [exact H|].
      apply Qlt_le_weak, Qinv_lt_0_compat, Pj.
    - apply Qle_trans with (ten (j + 1)).
      + rewrite ten_succ. apply Qmult_le_compat_r; [|lra]. destruct (norm_digit rounding (v / ten j)) as [-> | [-> | [-> | ->]]]; lra.
      + apply Qle_trans with (ten k); [apply ten_le; lia|].
        assert (X : 1 * ten k <= pretty_norm rounding (w / ten k) * ten k); [|lra]. apply Qmult_le_compat_r; [|lra].
        destruct (norm_digit rounding (w / ten k)) as [-> | [-> | [-> | ->]]]; lra. }
  assert (Zero : forall v, v == 0 -> make_pretty2 exact lg v rounding = 0).
  { intros z Z. unfold make_pretty2, make_pretty. rewrite (proj2 (Qeq_bool_iff z 0) Z). reflexivity. }
  assert (Neg : forall v, v < 0 -> make_pretty2 exact lg v rounding < 0).
  { intros z Z. pose proof (pretty_positive lg (- z) rounding L ltac:(lra)) as P. rewrite pretty_odd in P by exact L. lra. }
  intros H. destruct (Qlt_le_dec 0 v) as [V|V]; [apply Pos; assumption|].
  destruct (Qlt_le_dec w 0) as [W|W].
  - pose proof (Pos (- w) (- v) ltac:(lra) ltac:(lra)) as X. rewrite !pretty_odd in X by exact L. lra.
  - assert (A : make_pretty2 exact lg v rounding <= 0).
    { destruct (Qlt_le_dec v 0) as [V'|V']; [apply Qlt_le_weak, Neg, V'|]. rewrite (Zero v) by lra. apply Qle_refl. }
    assert (B : 0 <= make_pretty2 exact lg w rounding).
    { destruct (Qlt_le_dec 0 w) as [W'|W']; [apply Qlt_le_weak, pretty_positive; assumption|]. rewrite (Zero w) by lra. apply Qle_refl. }
    lra.
Qed.
Theorem pretty_scales lg v j rounding : exact_log lg -> make_pretty2 exact lg (v * ten j) rounding == make_pretty2 exact lg v rounding * ten j.
Proof.
  intros L. pose proof (ten_pos j) as Pj.
  assert (Pos : forall v, 0 < v -> make_pretty2 exact lg (v * ten j) rounding == make_pretty2 exact lg v rounding * ten j).
  { clear v. intros v Hv. pose proof (L v Hv) as D. set (k := lg v) in *.
    assert (Tj : forall i, ten (i + j) == ten i * ten j) by (intros i; unfold ten; apply Qpower.Qpower_plus; discriminate).
    assert (D' : decade (v * ten j) (k + j)).
    { destruct D as [A B]. split; [rewrite Tj; apply Qmult_le_compat_r; lra|].
      replace (k + j + 1)%Z with (k + 1 + j)%Z by lia. rewrite Tj. apply Qmult_lt_r; assumption. }
    rewrite (pretty_at_pos _ _ _ _ L D), (pretty_at_pos _ _ _ _ L D').
    rewrite (norm_comp rounding (v * ten j / ten (k + j)) (v / ten k)); [rewrite Tj; ring|]. rewrite Tj. pose proof (ten_pos k). field. lra. }
  destruct (Qlt_le_dec 0 v) as [V|V]; [apply Pos, V|]. destruct (Qlt_le_dec v 0) as [W|W].
  - pose proof (Pos (- v) ltac:(lra)) as X. rewrite pretty_odd in X by exact L.
    assert (Y : make_pretty2 exact lg (- v * ten j) rounding == - make_pretty2 exact lg (v * ten j) rounding).
    { rewrite <- pretty_odd by exact L. apply Qle_antisym; apply pretty_monotone; (exact L || (apply Qle_lteq; right; ring)). }
    rewrite Y in X. lra.
  - assert (Z : v == 0) by lra. assert (Z' : v * ten j == 0) by (rewrite Z; ring). unfold make_pretty2, make_pretty.
    rewrite (proj2 (Qeq_bool_iff _ _) Z), (proj2 (Qeq_bool_iff _ _) Z'). cbn [fst]. ring.
Qed.
Theorem pretty_idempotent lg v rounding rounding' : exact_log lg ->
  make_pretty2 exact lg (make_pretty2 exact lg v rounding) rounding' == make_pretty2 exact lg v rounding.
Proof.
  intros L.
  assert (Comp : forall v w, v == w -> make_pretty2 exact lg v rounding' == make_pretty2 exact lg w rounding').
  { intros x y E. apply Qle_antisym; apply pretty_monotone; (exact L || lra). }
  assert (Pos : forall v, 0 < v -> make_pretty2 exact lg (make_pretty2 exact lg v rounding) rounding' == make_pretty2 exact lg v rounding).
  { clear v. intros v Hv. pose proof (L v Hv) as D. set (k := lg v) in *. pose proof (ten_pos k) as Pk.
    rewrite (Comp _ _ (pretty_at_pos _ _ rounding _ L D)). rewrite (pretty_at_pos _ _ rounding _ L D).
    pose proof (ten_succ k) as Tk. pose proof (ten_succ (k + 1)) as Tk1.
    destruct (norm_digit rounding (v / ten k)) as [-> | [-> | [-> | ->]]].
    - rewrite (pretty_at_pos _ _ _ k L) by (split; lra). rewrite (norm_comp rounding' _ 1) by (field; lra). destruct rounding'; reflexivity.
    - rewrite (pretty_at_pos _ _ _ k L) by (split; lra). rewrite (norm_comp rounding' _ 2) by (field; lra). destruct rounding'; reflexivity.
    - rewrite (pretty_at_pos _ _ _ k L) by (split; lra). rewrite (norm_comp rounding' _ 5) by (field; lra). destruct rounding'; reflexivity.
    - rewrite (pretty_at_pos _ _ _ (k + 1) L) by (split; lra). rewrite (norm_comp rounding' _ 1) by (rewrite Tk; field; lra).
      rewrite Tk. destruct rounding'; cbn; ring. }
  destruct (Qlt_le_dec 0 v) as [V|V]; [apply Pos, V|]. destruct (Qlt_le_dec v 0) as [W|W].
  - pose proof (Pos (- v) ltac:(lra)) as X. rewrite (Comp _ _ (pretty_odd lg v rounding L)) in X.
    rewrite !pretty_odd in X by exact L. lra.
  - assert (Z : v == 0) by lra.
    assert (E : make_pretty2 exact lg v rounding = 0) by (unfold make_pretty2, make_pretty; rewrite (proj2 (Qeq_bool_iff _ _) Z); reflexivity).
    rewrite E. reflexivity.
Qed.

Print Assumptions pretty_shape.
Print Assumptions pretty_without_rounding.
Print Assumptions pretty_with_rounding.
Print Assumptions pretty_log_exists.
Print Assumptions pretty_log_rounded_up.
Print Assumptions pretty_collapse_refuted.
Print Assumptions pretty_range_covers.
Print Assumptions pretty_tick_count.
Print Assumptions pretty_range_equal.
Print Assumptions pretty_range_order.
Print Assumptions pretty_range_few_ticks.
Print Assumptions pretty_range_collapse_refuted.
Print Assumptions pretty_range_double_refuted.
Print Assumptions pretty_odd.
Print Assumptions pretty_monotone.
Print Assumptions pretty_scales.
Print Assumptions pretty_idempotent.

Example pretty_c48_case :
  make_pretty2 exact log10_floor (-37 # 100) false == -5 # 10 /\ make_pretty2 exact log10_floor 1234 true == 1000 /\
  make_pretty2 exact log10_floor (7 # 1000) true == 1 # 100.
Proof. vm_compute. auto. Qed.
Example pretty_c49_case :
  match make_pretty_range2 exact log10_floor (17 # 10) (-4 # 10) 5 with
  | Ok g => g_min g == -1 /\ g_max g == 2 /\ map Qred (g_ticks g) = [-1; 0; 1; 2] /\ g_precision g = 0%Z
  | Err _ => False
  end.
Proof. vm_compute. auto. Qed.
