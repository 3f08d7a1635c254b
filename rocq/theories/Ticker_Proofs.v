From Coq Require Import String Ascii List ZArith Bool QArith Qabs Qround Qpower Lia Lqa.
From Verif Require Import PyBase Text_Model Float53_Model ConvFloat_Model ConvFloat_Spec ConvFloat_Proofs GeomPretty_Model GeomPretty_Spec GeomPretty_Proofs.
From Verif Require Import Fmt_Model Fmt_Spec Fmt_Proofs Ticker_Model Ticker_Spec.
Import ListNotations.
Local Open Scope Z_scope.

Lemma numeral_eq mark t q q' : (q == q')%Q -> numeral mark t q -> numeral mark t q'.
Proof. intros E (sg & k & i & fr & f & ex & e & H1 & H2 & H3 & H4 & H5 & H6 & H7). exists sg, k, i, fr, f, ex, e. rewrite <- E. auto 10. Qed.
Lemma numeral_value t q q' : numeral "." t q -> numeral "." t q' -> (q == q')%Q.
Proof.
  intros A B. apply py_float_complete in A as (a & Ea & Ha). apply py_float_complete in B as (b & Eb & Hb). congruence || (rewrite Ea in Eb; injection Eb as ->; rewrite <- Ha, Hb; reflexivity).
Qed.

(** the range and its division, factor and precision *)
Lemma range_parts lg a b t g : exact_log lg -> ~ (a == b)%Q -> 2 <= t -> make_pretty_range2 exact lg a b t = Ok g ->
  exists k d, g_factor10 g = ten k /\ (g_division g == d * ten k)%Q /\ pretty_digit d /\ g_precision g = Z.max (- lg (g_division g)) 0 /\
    decade (g_division g) (lg (g_division g)) /\
    (forall x, In x (g_ticks g) -> exists n, (x == inject_Z n * g_division g)%Q) /\
    (forall i x, nth_error (g_ticks g) i = Some x -> (x == g_min g + inject_Z (Z.of_nat i) * g_division g)%Q) /\ (0 < g_division g)%Q.
Proof.
  intros L N T E. pose proof (range_exact lg a b t L N T) as R. cbv zeta in R.
  set (low := if q_lt b a then b else a) in *. set (high := if q_lt a b then b else a) in *. clearbody low high.
  set (vr := make_pretty2 exact lg (high - low) false) in *.
  destruct (make_pretty exact lg (vr / inject_Z (t - 1)) true) as [d f] eqn:Ep. destruct R as (LH & Vr & Hd & FC & R).
  set (z1 := Qfloor (low / d)) in *. set (z2 := Qceiling (high / d)) in *. clearbody z1 z2.
  rewrite R in E. injection E as <-. cbn [g_factor10 g_division g_precision g_ticks g_min].
  assert (HT : (0 < inject_Z (t - 1))%Q) by (apply inj_pos; lia).
  assert (Hx : (0 < vr / inject_Z (t - 1))%Q) by (apply Qlt_shift_div_l; lra).
  assert (Ha : (0 < Qabs (vr / inject_Z (t - 1)))%Q) by (rewrite Qabs_pos by lra; exact Hx).
  pose proof (pretty_exact lg (vr / inject_Z (t - 1)) true _ eq_refl (L _ Ha)) as X. rewrite Ep in X.
  set (k := lg (Qabs (vr / inject_Z (t - 1)))) in *. set (dg := pretty_norm true (Qabs (vr / inject_Z (t - 1)) / ten k)) in *.
  injection X as Hdd ->. exists k, dg. split; [reflexivity|]. split.
  { rewrite Hdd. destruct (q_lt (vr / inject_Z (t - 1)) 0) eqn:S; [apply q_lt_iff in S; lra|reflexivity]. }
  split; [apply norm_digit|]. split; [reflexivity|]. split; [apply L, Hd|]. split; [|split; [|exact Hd]].
  - intros x Hx2. apply in_map_iff in Hx2 as (i & <- & _). exists (z1 + Z.of_nat i). rewrite inject_Z_plus. ring.
  - intros i x Hi. apply (proj1 (ticks_spaced _ _ d FC) i x Hi).
Qed.

Lemma decade_ten_self k : decade (ten k) k.
Proof. split; [apply Qle_refl|apply ten_lt; lia]. Qed.
Lemma int_log_ten lg k : exact_log lg -> int_log lg (ten k) = k.
Proof.
  intros L. assert (E : lg (ten k) = k) by (apply (decade_unique (ten k) (ten k)); [reflexivity|apply L, ten_pos|apply decade_ten_self]).
  unfold int_log. rewrite E. change (pow10 k) with (ten k). rewrite (proj2 (Qeq_bool_iff _ _)) by reflexivity. rewrite orb_true_r. reflexivity.
Qed.
Lemma int_log_ge lg x : lg x <= int_log lg x.
Proof. unfold int_log. destruct ((0 <=? lg x) || _); lia. Qed.

Lemma digit_int d : pretty_digit d -> exists n, 0 < n /\ (d == inject_Z n)%Q.
Proof. intros [->|[->|[->| ->]]]; [exists 1|exists 2|exists 5|exists 10]; split; reflexivity || lia. Qed.

(** a tick is a multiple of 10^-precision and of the factor *)
Lemma division_fine lg (g : range) k d : exact_log lg -> (g_division g == d * ten k)%Q -> pretty_digit d -> g_precision g = Z.max (- lg (g_division g)) 0 ->
  (0 < g_division g)%Q -> exists n, (g_division g == inject_Z n * ten (- g_precision g))%Q.
Proof.
  intros L E D P Hd. pose proof (L _ Hd) as [A B]. destruct (digit_int d D) as (n & Hn & En).
  set (j := lg (g_division g)) in *.
  (* j = k or (d = 10 and j = k + 1) *)
  assert (C : j = k \/ (d = 10%Q /\ j = k + 1)).
  { pose proof (ten_pos k) as Pk. assert (U : forall i, decade (g_division g) i -> j = i) by (intros i Di; apply (decade_unique (g_division g) (g_division g)); [reflexivity|split; [exact A|exact B]|exact Di]).
    destruct D as [->|[->|[->| ->]]].
    4:{ right. split; [reflexivity|]. apply U. split; rewrite E, ?ten_succ; lra. }
    all: left; apply U; split; rewrite E, ?ten_succ; lra. }
  assert (X : exists n, (g_division g == inject_Z n * ten j)%Q).
  { destruct C as [->|[-> ->]]; [exists n; rewrite E, En; reflexivity|exists 1; rewrite E, ten_succ; ring]. }
  destruct X as (m & X). rewrite P. destruct (Z.le_gt_cases j 0) as [J|J].
  - rewrite Z.max_l by lia. rewrite Z.opp_involutive. eauto.
  - rewrite Z.max_r by lia. exists (m * 10 ^ j). rewrite X, inject_Z_mult, <- ten_int by lia. change (ten (- 0)) with 1%Q. ring.
Qed.

Lemma f_exact p v : (exists n, v == inject_Z n * ten (- Z.of_nat p))%Q -> numeral "." (fmt_f p v) v.
Proof.
  intros H. destruct (f_reads p v) as (q & N & R). apply (numeral_eq _ _ q); [|exact N]. apply (rounded_exact _ _ _ (ten_pos _) H R).
Qed.
Lemma e_exact p v : (v == 0)%Q \/ (exists n e, v == inject_Z n * ten (e - Z.of_nat p) /\ leading v e)%Q -> numeral "." (fmt_e p v) v.
Proof.
  intros H. destruct (e_reads p v) as (q & N & R). apply (numeral_eq _ _ q); [|exact N]. destruct R as [[V Q0]|(e & Le & R)]; [rewrite V, Q0; reflexivity|].
  destruct H as [H|(n & e' & H & L')].
  - destruct Le as [Le _]. rewrite H in Le. change (Qabs 0) with 0%Q in Le. pose proof (ten_pos e). change (Qpower (10 # 1)) with ten in Le. lra.
  - rewrite (leading_unique _ _ _ Le L') in R. refine (rounded_exact _ _ _ (ten_pos _) _ R). exists n. rewrite H. replace (e' - (Z.of_nat p + 1) + 1) with (e' - Z.of_nat p) by lia. reflexivity.
Qed.
Lemma leading_decade v e : (0 < v)%Q -> decade v e -> leading v e.
Proof. intros Hv D. unfold leading. rewrite (Qabs_pos v) by lra. exact D. Qed.

Section Label.
  Variable lg : Q -> Z.
  Hypothesis L : exact_log lg.
  Variables (g : range) (k : Z) (d : Q).
  Hypothesis F : g_factor10 g = ten k.
  Hypothesis E : (g_division g == d * ten k)%Q.
  Hypothesis D : pretty_digit d.
  Hypothesis P : g_precision g = Z.max (- lg (g_division g)) 0.
  Hypothesis Hd : (0 < g_division g)%Q.

  Lemma f10_is : (if q_lt 0 (g_factor10 g) then int_log lg (g_factor10 g) else 0) = k.
  Proof. rewrite F. rewrite (proj2 (q_lt_iff _ _) (ten_pos k)). apply int_log_ten, L. Qed.
  Lemma notation_iff : exponent_notation (g_factor10 g) <-> 5 < Z.abs k.
  Proof.
    rewrite F. unfold exponent_notation. change (Qpower (10 # 1)) with ten. split.
    - intros [_ [H|H]].
      + assert (~ -6 < k) by (intros X; apply ten_lt in X; lra). lia.
      + assert (~ k < 6) by (intros X; apply ten_lt in X; lra). lia.
    - intros H. split; [apply ten_pos|]. destruct (Z.le_gt_cases k 0) as [K|K]; [left|right]; apply ten_le; lia.
  Qed.
  Lemma fixed_label x n : ~ exponent_notation (g_factor10 g) -> (x == inject_Z n * g_division g)%Q -> says (value_label lg g x) x.
  Proof.
    intros H X. unfold value_label, nice_label. rewrite f10_is. rewrite notation_iff in H. destruct (Z.ltb_spec 5 (Z.abs k)) as [C|C]; [contradiction|].
    apply f_exact. destruct (division_fine lg g k d L E D P Hd) as (m & M). rewrite Z2Nat.id by (rewrite P; lia).
    exists (n * m). rewrite X, M, inject_Z_mult. ring.
  Qed.
  Lemma exponent_label x n : exponent_notation (g_factor10 g) -> (x == inject_Z n * g_division g)%Q -> (0 <= x)%Q -> says (value_label lg g x) x.
  Proof.
    intros H X Px. unfold value_label, nice_label. rewrite f10_is. rewrite notation_iff in H. destruct (Z.ltb_spec 5 (Z.abs k)) as [C|C]; [|lia].
    apply e_exact. destruct (q_lt 0 x) eqn:S; [|left; apply q_lt_false in S; lra]. right. apply q_lt_iff in S.
    destruct (digit_int d D) as (dd & Dp & Ed).
    assert (Y : (x == inject_Z (n * dd) * ten k)%Q) by (rewrite X, E, Ed, inject_Z_mult; ring).
    pose proof (L x S) as [La Lb]. pose proof (int_log_ge lg x) as G.
    set (p := Z.max 0 (int_log lg x - k)). exists (n * dd * 10 ^ (k - (lg x - p))), (lg x). split; [|apply leading_decade; [exact S|split; assumption]].
    rewrite Z2Nat.id by (unfold p; lia).
    apply (Qeq_trans _ _ _ Y). rewrite (inject_Z_mult (n * dd)), <- ten_int by (unfold p; lia). rewrite <- Qmult_assoc, <- ten_plus. replace (k - (lg x - p) + (lg x - p)) with k by lia. reflexivity.
  Qed.
  (** below zero: one digit *)
  Lemma negative_label x : exponent_notation (g_factor10 g) -> (x < 0)%Q -> exists q, says (value_label lg g x) q /\ rounded_digits 1 x q.
  Proof.
    intros H Px. unfold value_label, nice_label. rewrite f10_is. rewrite notation_iff in H. destruct (Z.ltb_spec 5 (Z.abs k)) as [C|C]; [|lia].
    rewrite (proj2 (q_lt_false 0 x)) by lra. rewrite Z.sub_diag. change (Z.to_nat (Z.max 0 0)) with 0%nat. apply (e_reads 0 x).
  Qed.
End Label.
