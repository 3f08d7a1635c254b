From Coq Require Import String Ascii List ZArith Bool QArith Qabs Qpower Lia Lqa.
From Verif Require Import PyBase Text_Model Text_Proofs Float53_Model Float53_Proofs ConvNum_Spec ConvNum_Proofs ConvFloat_Spec.
From Verif Require Import GeomPretty_Spec GeomPretty_Proofs Fmt_Model Fmt_Spec.
Import ListNotations.
Local Open Scope Z_scope.

(** ** powers of ten *)
Lemma tens_ten k : tens k = ten k. Proof. reflexivity. Qed.
Lemma ten_plus a b : (ten (a + b) == ten a * ten b)%Q.
Proof. unfold ten. apply Qpower_plus. discriminate. Qed.
Lemma ten_int k : 0 <= k -> (ten k == inject_Z (10 ^ k))%Q.
Proof.
  intros H. pattern k. apply Zlt_0_ind; [|exact H]. clear k H. intros k IH H.
  destruct (Z.eq_dec k 0) as [->|N]; [reflexivity|]. rewrite ten_pred, (IH (k - 1)) by lia.
  replace (10 ^ k) with (10 * 10 ^ (k - 1)) by (rewrite <- Z.pow_succ_r by lia; f_equal; lia).
  rewrite inject_Z_mult. reflexivity.
Qed.
Lemma ten_lt_inv a b : (ten a < ten b)%Q -> a < b.
Proof. intros H. apply Z.lt_nge. intros L. apply ten_le in L. lra. Qed.
Lemma ten_neg k : (ten (- k) * ten k == 1)%Q.
Proof. rewrite <- ten_plus. replace (- k + k) with 0 by lia. reflexivity. Qed.

(** ** digits *)
Lemma dec_zero_digits : digits_of 0 = 1. Proof. reflexivity. Qed.
Lemma digits_bound n : 0 < n -> 10 ^ (digits_of n - 1) <= n < 10 ^ digits_of n /\ 1 <= digits_of n.
Proof.
  intros Hn. destruct (dec_spec n ltac:(lia)) as (V & D & N & H). specialize (H ltac:(lia)). unfold digits_of.
  pose proof (dec_value_bound _ D) as [_ B]. rewrite V in B.
  destruct (dec n) as [|c s] eqn:E; [congruence|]. cbn [hd_error] in H.
  cbn [length] in *. rewrite Nat2Z.inj_succ in *. split; [|lia]. split; [|exact B].
  replace (Z.succ (Z.of_nat (length s)) - 1) with (Z.of_nat (length s)) by lia.
  rewrite <- V. unfold dec_value. cbn [horner]. rewrite horner_shift.
  cbn [forallb] in D. apply andb_prop in D as [D1 D2].
  assert (S : 0 <= horner 10 digit_val 0 s) by (apply (dec_value_bound s D2)).
  assert (C : 1 <= digit_val c).
  { pose proof (is_digit_range c D1) as R. destruct (Z.eq_dec (digit_val c) 0) as [Z0|NZ]; [|lia].
    exfalso. apply H. f_equal. rewrite <- (digit_char_val c), Z0. reflexivity. }
  nia.
Qed.

Lemma exponent_leading v : (0 < v)%Q -> (ten (dec_exponent v) <= v /\ v < ten (dec_exponent v + 1))%Q.
Proof.
  intros Hv. destruct v as [n d]. unfold dec_exponent. cbn [Qnum Qden].
  assert (Hn : 0 < n) by (unfold Qlt in Hv; cbn in Hv; lia).
  assert (E : (n # d == inject_Z n / inject_Z (Zpos d))%Q) by (rewrite Qmake_Qdiv; reflexivity).
  assert (Dp : (0 < inject_Z (Zpos d))%Q) by reflexivity.
  destruct (Z.leb_spec (Zpos d) n) as [L|L].
  - assert (Q0 : 0 < n / Zpos d) by (apply Z.div_str_pos; lia).
    destruct (digits_bound _ Q0) as [[A B] C]. set (k := digits_of (n / Zpos d)) in *.
    replace (k - 1 + 1) with k by lia. rewrite !ten_int by lia. rewrite E. split.
    + apply Qle_shift_div_l; [exact Dp|]. rewrite <- inject_Z_mult, <- Zle_Qle. pose proof (Z.mul_div_le n (Zpos d) ltac:(lia)). nia.
    + apply Qlt_shift_div_r; [exact Dp|]. rewrite <- inject_Z_mult, <- Zlt_Qlt. pose proof (Z.mul_succ_div_gt n (Zpos d) ltac:(lia)). nia.
  - assert (J : 0 <= (Zpos d - 1) / n) by (apply Z.div_pos; lia).
    assert (B : exists k, digits_of ((Zpos d - 1) / n) = k /\ 1 <= k /\ n * 10 ^ (k - 1) < Zpos d <= n * 10 ^ k).
    { exists (digits_of ((Zpos d - 1) / n)). split; [reflexivity|]. 
      pose proof (Z.mul_div_le (Zpos d - 1) n ltac:(lia)) as X. pose proof (Z.mul_succ_div_gt (Zpos d - 1) n ltac:(lia)) as Y.
      destruct (Z.eq_dec ((Zpos d - 1) / n) 0) as [Z0|NZ].
      - rewrite Z0 in *. rewrite dec_zero_digits. split; [lia|]. change (10 ^ (1 - 1)) with 1. change (10 ^ 1) with 10. lia.
      - destruct (digits_bound ((Zpos d - 1) / n) ltac:(lia)) as [[B1 B2] B3]. split; [exact B3|]. nia. }
    destruct B as (k & -> & K1 & K2 & K3). rewrite E. split.
    + apply Qle_shift_div_l; [exact Dp|].
      apply (Qmult_lt_0_le_reg_r _ _ (ten k)); [apply ten_pos|].
      setoid_replace (ten (- k) * inject_Z (Z.pos d) * ten k)%Q with (ten (- k) * ten k * inject_Z (Z.pos d))%Q by ring.
      rewrite ten_neg, Qmult_1_l, (ten_int k) by lia. rewrite <- inject_Z_mult, <- Zle_Qle. exact K3.
    + apply Qlt_shift_div_r; [exact Dp|].
      apply (Qmult_lt_r _ _ (ten (k - 1))); [apply ten_pos|].
      replace (- k + 1) with (- (k - 1)) by lia.
      setoid_replace (ten (- (k - 1)) * inject_Z (Z.pos d) * ten (k - 1))%Q with (ten (- (k - 1)) * ten (k - 1) * inject_Z (Z.pos d))%Q by ring.
      rewrite ten_neg, Qmult_1_l, (ten_int (k - 1)) by lia. rewrite <- inject_Z_mult, <- Zlt_Qlt. exact K2.
Qed.

(** ** rounding *)
Lemma nearest_rounded q : rounded_to 1 q (inject_Z (nearest q)).
Proof.
  destruct q as [n d]. unfold nearest. cbn [Qnum Qden]. set (h := half_even n (Zpos d)).
  pose proof (half_even_error n (Zpos d) ltac:(lia)) as E. fold h in E.
  assert (X : (inject_Z h - (n # d) == (h * Zpos d - n) # d)%Q) by (unfold Qeq, Qminus, Qplus, Qopp, inject_Z; cbn; lia).
  exists h. split; [ring|]. rewrite X. split.
  - unfold Qle, Qmult, Qabs. cbn. lia.
  - intros Y. apply Z.even_spec. unfold Qeq, Qmult, Qabs in Y. cbn in Y.
    unfold h, half_even in *. pose proof (Z.div_mod n (Zpos d) ltac:(lia)) as M. pose proof (Z.mod_pos_bound n (Zpos d) ltac:(lia)) as B.
    destruct (Z.compare_spec (2 * (n mod Zpos d)) (Zpos d)) as [C|C|C]; [|exfalso; nia|exfalso; nia].
    destruct (Z.even (n / Zpos d)) eqn:V; [exact V|]. rewrite Z.add_1_r, Z.even_succ, <- Z.negb_even, V. reflexivity.
Qed.
Lemma rounded_eq u u' v v' q q' : (u == u' -> v == v' -> q == q' -> rounded_to u v q -> rounded_to u' v' q')%Q.
Proof. intros Hu Hv Hq (n & A & B & C). exists n. rewrite <- Hu, <- Hv, <- Hq. auto. Qed.
Lemma rounded_scale u v q s : (0 < s -> rounded_to u v q -> rounded_to (u * s) (v * s) (q * s))%Q.
Proof.
  intros Hs (n & A & B & C). exists n. split; [rewrite A; ring|].
  assert (E : (Qabs (q * s - v * s) == Qabs (q - v) * s)%Q).
  { setoid_replace (q * s - v * s)%Q with ((q - v) * s)%Q by ring. rewrite Qabs_Qmult, (Qabs_pos s) by (apply Qlt_le_weak; exact Hs). reflexivity. }
  rewrite E. split.
  - rewrite Qmult_assoc. apply Qmult_le_compat_r; [exact B|apply Qlt_le_weak; exact Hs].
  - intros Y. apply C. apply (Qmult_inj_r _ _ s); [intros Z0; rewrite Z0 in Hs; apply (Qlt_irrefl 0); exact Hs|]. rewrite Y. ring.
Qed.
Lemma rounded_neg u v q : (rounded_to u v q -> rounded_to u (- v) (- q))%Q.
Proof.
  intros (n & A & B & C). exists (- n). split; [rewrite inject_Z_opp, A; ring|].
  assert (E : (Qabs (- q - - v) == Qabs (q - v))%Q).
  { setoid_replace (- q - - v)%Q with (- (q - v))%Q by ring. apply Qabs_opp. }
  rewrite E. split; [exact B|]. intros Y. rewrite <- Z.even_spec, Z.even_opp, Z.even_spec. auto.
Qed.
Lemma nearest_nonneg q : (0 <= q)%Q -> 0 <= nearest q.
Proof.
  intros H. destruct (nearest_rounded q) as (n & A & B & _). apply Qabs_Qle_condition in B as [B _].
  apply Z.le_ngt. intros L. assert (X : (inject_Z (nearest q) <= -1)%Q) by (change (-1)%Q with (inject_Z (-1)); rewrite <- Zle_Qle; lia).
  lra.
Qed.

(** a value that is a multiple of the unit is not changed *)
Lemma rounded_exact u v q : (0 < u -> (exists m, v == inject_Z m * u) -> rounded_to u v q -> q == v)%Q.
Proof.
  intros Hu (m & E) (n & A & B & _). assert (n = m); [|subst n; rewrite A, E; reflexivity].
  rewrite A, E in B. setoid_replace (inject_Z n * u - inject_Z m * u)%Q with (inject_Z (n - m) * u)%Q in B.
  2:{ unfold Zminus. rewrite inject_Z_plus, inject_Z_opp. ring. }
  rewrite Qabs_Qmult, (Qabs_pos u) in B by (apply Qlt_le_weak; exact Hu).
  apply Qmult_lt_0_le_reg_r in B; [|exact Hu]. unfold Qabs, inject_Z, Qle in B. cbn in B. lia.
Qed.

Lemma leading_unique v e e' : leading v e -> leading v e' -> e = e'.
Proof.
  intros [A B] [C D]. change (Qpower (10 # 1)) with ten in *.
  assert (e < e' + 1) by (apply ten_lt_inv; lra). assert (e' < e + 1) by (apply ten_lt_inv; lra). lia.
Qed.
Lemma exact_digits n v q : has_digits n v -> rounded_digits n v q -> (q == v)%Q.
Proof.
  intros (m & k & E & M) [[A B]|(e & L & R)]; [rewrite A, B; reflexivity|].
  change (Qpower (10 # 1)) with ten in *.
  assert (Hn : 0 <= n).
  { destruct (Z.le_gt_cases 0 n) as [P|P]; [exact P|]. rewrite Z.pow_neg_r in M by lia. lia. }
  refine (rounded_exact (ten (e - n + 1)) v q _ _ R); [apply ten_pos|].
  assert (K : e < k + n).
  { apply ten_lt_inv. destruct L as [L _]. change (Qpower (10 # 1)) with ten in L. eapply Qle_lt_trans; [exact L|]. rewrite E, Qabs_Qmult.
    rewrite (Qabs_pos (ten k)) by (apply Qlt_le_weak, ten_pos). rewrite ten_plus, (Qmult_comm (ten k)).
    apply Qmult_lt_r; [apply ten_pos|]. rewrite ten_int by exact Hn. change (Qabs (inject_Z m)) with (inject_Z (Z.abs m)). rewrite <- Zlt_Qlt. exact M. }
  exists (m * 10 ^ (k + n - e - 1)). rewrite inject_Z_mult, <- ten_int by lia. rewrite <- Qmult_assoc, <- ten_plus.
  replace (k + n - e - 1 + (e - n + 1)) with k by lia. exact E.
Qed.

(** ** the digits of a number *)
Lemma significant_spec p v m e' : (0 < v)%Q -> significant p v = (m, e') ->
  exists e, leading v e /\ rounded_to (ten (e - Z.of_nat p)) v (inject_Z m * ten (e' - Z.of_nat p)) /\ 10 ^ Z.of_nat p <= m < 10 ^ (Z.of_nat p + 1).
Proof.
  intros Hv E. exists (dec_exponent v). destruct (exponent_leading v Hv) as [L1 L2]. set (e := dec_exponent v) in *. set (P := Z.of_nat p) in *.
  assert (HP : 0 <= P) by (unfold P; lia).
  split; [unfold leading; rewrite (Qabs_pos v) by (apply Qlt_le_weak; exact Hv); split; [exact L1|exact L2]|].
  unfold significant in E. fold e P in E. set (n := nearest (v * tens (P - e))) in *.
  assert (R : rounded_to (ten (e - P)) v (inject_Z n * ten (e - P))).
  { refine (rounded_eq (1 * ten (e - P)) _ (v * tens (P - e) * ten (e - P)) _ (inject_Z n * ten (e - P)) _ _ _ _ (rounded_scale _ _ _ (ten (e - P)) (ten_pos _) (nearest_rounded _))).
    - ring.
    - change (tens (P - e)) with (ten (P - e)). rewrite <- Qmult_assoc, <- ten_plus. replace (P - e + (e - P)) with 0 by lia. change (ten 0) with 1%Q. ring.
    - reflexivity. }
  assert (B : 10 ^ P <= n <= 10 ^ (P + 1)).
  { destruct (nearest_rounded (v * tens (P - e))) as (h & _ & A & _). fold n in A. apply Qabs_Qle_condition in A as [A1 A2].
    assert (B1 : (inject_Z (10 ^ P) <= v * tens (P - e))%Q).
    { rewrite <- ten_int by lia. replace P with (e + (P - e)) at 1 by lia. rewrite ten_plus. apply Qmult_le_compat_r; [exact L1|apply Qlt_le_weak, ten_pos]. }
    assert (B2 : (v * tens (P - e) <= inject_Z (10 ^ (P + 1)))%Q).
    { rewrite <- ten_int by lia. replace (P + 1) with (e + 1 + (P - e)) by lia. rewrite ten_plus. apply Qmult_le_compat_r; [apply Qlt_le_weak; exact L2|apply Qlt_le_weak, ten_pos]. }
    split; apply Z.le_ngt; intros X.
    - assert (Y : (inject_Z n + 1 <= inject_Z (10 ^ P))%Q) by (change 1%Q with (inject_Z 1); rewrite <- inject_Z_plus, <- Zle_Qle; lia). lra.
    - assert (Y : (inject_Z (10 ^ (P + 1)) + 1 <= inject_Z n)%Q) by (change 1%Q with (inject_Z 1); rewrite <- inject_Z_plus, <- Zle_Qle; lia). lra. }
  destruct (Z.eqb_spec n (10 ^ (P + 1))) as [N|N]; injection E as <- <-.
  - split.
    + refine (rounded_eq _ _ _ _ (inject_Z n * ten (e - P)) _ _ _ _ R); [reflexivity|reflexivity|].
      rewrite N, <- !ten_int, <- !ten_plus by lia. replace (P + 1 + (e - P)) with (P + (e + 1 - P)) by lia. reflexivity.
    + split; [lia|]. apply Z.pow_lt_mono_r; lia.
  - split; [exact R|lia].
Qed.

(** ** reading the text *)
Lemma digits_a ds : forallb is_digit ds = true -> Forall a_digit ds.
Proof. rewrite forallb_forall, Forall_forall. intros H c Hc. apply a_digit_iff, H, Hc. Qed.
Lemma horner_pad_app a k b : 0 <= b < 10 ^ Z.of_nat k -> dec_value (a ++ pad k b) = dec_value a * 10 ^ Z.of_nat k + b.
Proof.
  intros Hb. unfold dec_value. rewrite horner_app, horner_shift, pad_length. f_equal. apply (pad_value k b Hb).
Qed.
Lemma decimal_numeral sg s k m ex e : sign_text sg s -> 0 <= m -> exp_part ex e ->
  forall q, (q == inject_Z (s * m) * ten (e - Z.of_nat k))%Q -> numeral "." (sg ++ decimal k m ++ ex) q.
Proof.
  intros Hs Hm He q Hq. unfold decimal.
  assert (Hb : 0 < 10 ^ Z.of_nat k) by (apply Z.pow_pos_nonneg; lia).
  pose proof (Z.mod_pos_bound m (10 ^ Z.of_nat k) Hb) as Hr. assert (Hd : 0 <= m / 10 ^ Z.of_nat k) by (apply Z.div_pos; lia).
  destruct (dec_spec _ Hd) as (V & D & N & _).
  set (i := dec (m / 10 ^ Z.of_nat k)) in *. set (f := pad k (m mod 10 ^ Z.of_nat k)) in *.
  exists sg, s, i, (match k with O => [] | S _ => "."%char :: f end), f, ex, e.
  split; [destruct k; rewrite <- ?app_assoc; reflexivity|]. split; [exact Hs|]. split; [apply digits_a, D|].
  split; [destruct k; [subst f; simpl; constructor|constructor; apply digits_a, pad_digits]|].
  split; [intros X; apply app_eq_nil in X; tauto|]. split; [exact He|].
  rewrite <- positional_value. unfold f at 1. rewrite horner_pad_app, V by exact Hr. unfold f. rewrite pad_length.
  replace (m / 10 ^ Z.of_nat k * 10 ^ Z.of_nat k + m mod 10 ^ Z.of_nat k) with m by (pose proof (Z.div_mod m (10 ^ Z.of_nat k) ltac:(lia)); lia).
  exact Hq.
Qed.
Lemma exp_text_part e : exp_part (exp_text e) e.
Proof.
  assert (X : exists ds : list ascii, (if Z.abs e <? 10 then pad 2 (Z.abs e) else dec (Z.abs e)) = ds /\ ds <> [] /\ forallb is_digit ds = true /\ dec_value ds = Z.abs e).
  { destruct (Z.ltb_spec (Z.abs e) 10) as [L|L]; eexists; (split; [reflexivity|]).
    - split; [intros E; pose proof (pad_length 2 (Z.abs e)) as Y; rewrite E in Y; discriminate|]. split; [apply pad_digits|]. apply pad_value. change (10 ^ Z.of_nat 2) with 100. lia.
    - destruct (dec_spec (Z.abs e) ltac:(lia)) as (V & D & N & _). auto. }
  destruct X as (ds & Eds & N & D & V).
  assert (G : exp_text e = "e"%char :: (if e <? 0 then "-"%char else "+"%char) :: ds) by (unfold exp_text; do 2 f_equal; exact Eds).
  rewrite G. clear G Eds.
  destruct (Z.ltb_spec e 0) as [L|L].
  - replace e with (-1 * positional ds) at 1 by (rewrite <- positional_value, V; lia).
    change ("e"%char :: "-"%char :: ds) with ("e"%char :: lit "-" ++ ds). constructor; [auto|constructor|exact N|apply digits_a, D].
  - replace e with (1 * positional ds) at 1 by (rewrite <- positional_value, V; lia).
    change ("e"%char :: "+"%char :: ds) with ("e"%char :: lit "+" ++ ds). constructor; [auto|constructor|exact N|apply digits_a, D].
Qed.
Lemma trim_spec k : forall m j n, 0 <= m -> trim k m = (j, n) -> 0 <= n /\ (j <= k)%nat /\ m = n * 10 ^ Z.of_nat (k - j).
Proof.
  induction k as [|k IH]; cbn [trim]; intros m j n Hm E.
  - injection E as <- <-. repeat split; [lia|lia|]. change (Z.of_nat (0 - 0)) with 0. rewrite Z.pow_0_r. lia.
  - destruct (Z.eqb_spec (m mod 10) 0) as [Z0|Z0].
    + destruct (IH (m / 10) j n ltac:(apply Z.div_pos; lia) E) as (A & B & C). split; [exact A|]. split; [lia|].
      replace (S k - j)%nat with (S (k - j)) by lia. rewrite Nat2Z.inj_succ, Z.pow_succ_r by lia.
      pose proof (Z.div_mod m 10 ltac:(lia)) as X. rewrite Z0, C in X. lia.
    + injection E as <- <-. rewrite Nat.sub_diag. change (Z.of_nat 0) with 0. rewrite Z.pow_0_r. lia.
Qed.
Lemma short_numeral sg s k m ex e : sign_text sg s -> 0 <= m -> exp_part ex e ->
  forall q, (q == inject_Z (s * m) * ten (e - Z.of_nat k))%Q -> numeral "." (sg ++ short_decimal k m ++ ex) q.
Proof.
  intros Hs Hm He q Hq. unfold short_decimal. destruct (trim k m) as [j n] eqn:E. destruct (trim_spec _ _ _ _ Hm E) as (A & B & C).
  apply (decimal_numeral sg s j n ex e Hs A He). rewrite Hq, C. rewrite Z.mul_assoc, (inject_Z_mult (s * n)), <- ten_int by lia.
  rewrite <- Qmult_assoc, <- ten_plus. replace (Z.of_nat (k - j) + (e - Z.of_nat k)) with (e - Z.of_nat j) by lia. reflexivity.
Qed.

Lemma minus_sign v : exists s, sign_text (minus v) s /\ (inject_Z s * Qabs v == v)%Q /\ (s = 1 \/ s = -1).
Proof.
  unfold minus. destruct (Qle_bool 0 v) eqn:E.
  - apply Qle_bool_iff in E. exists 1. split; [constructor|]. split; [rewrite Qabs_pos by exact E; ring|auto].
  - assert (N : (v <= 0)%Q). { apply Qlt_le_weak, Qnot_le_lt. intros X. apply Qle_bool_iff in X. congruence. }
    exists (-1). split; [constructor|]. split; [rewrite Qabs_neg by exact N; change (inject_Z (-1)) with (-1)%Q; ring|auto].
Qed.
Lemma rounded_sign u v a q s : (s = 1 \/ s = -1) -> (inject_Z s * a == v)%Q -> rounded_to u a q -> rounded_to u v (inject_Z s * q).
Proof.
  intros [->| ->] E R.
  - refine (rounded_eq u u a v q _ _ _ _ R); [reflexivity|rewrite <- E; ring|ring].
  - refine (rounded_eq u u (- a)%Q v (- q)%Q _ _ _ _ (rounded_neg _ _ _ R)); [reflexivity|rewrite <- E; ring|ring].
Qed.
Lemma leading_abs v e : leading (Qabs v) e -> leading v e.
Proof. unfold leading. rewrite (Qabs_pos (Qabs v)) by apply Qabs_nonneg. auto. Qed.
Lemma abs_pos_nz v : ~ (v == 0)%Q -> (0 < Qabs v)%Q.
Proof.
  intros H. destruct (Qlt_le_dec 0 (Qabs v)) as [L|L]; [exact L|]. exfalso. apply H.
  pose proof (Qle_Qabs v). pose proof (Qle_Qabs (- v)). rewrite Qabs_opp in *. lra.
Qed.

Lemma f_reads p v : exists q, numeral "." (fmt_f p v) q /\ rounded_to (ten (- Z.of_nat p)) v q.
Proof.
  destruct (minus_sign v) as (s & S & E & Hs). set (m := nearest (Qabs v * tens (Z.of_nat p))).
  assert (M : 0 <= m) by (apply nearest_nonneg, Qmult_le_0_compat; [apply Qabs_nonneg|apply Qlt_le_weak, ten_pos]).
  exists (inject_Z s * (inject_Z m * ten (- Z.of_nat p)))%Q. split.
  - unfold fmt_f. fold m. rewrite <- (app_nil_r (decimal p m)). apply (decimal_numeral (minus v) s p m [] 0 S M exp_none).
    rewrite inject_Z_mult. simpl (0 - _). ring.
  - apply (rounded_sign _ _ (Qabs v) _ s Hs E).
    refine (rounded_eq (1 * ten (- Z.of_nat p)) _ (Qabs v * tens (Z.of_nat p) * ten (- Z.of_nat p)) _ (inject_Z m * ten (- Z.of_nat p)) _ _ _ _ (rounded_scale _ _ _ _ (ten_pos _) (nearest_rounded _))).
    + ring.
    + change (tens (Z.of_nat p)) with (ten (Z.of_nat p)). rewrite <- Qmult_assoc, (Qmult_comm (ten (Z.of_nat p))), ten_neg. ring.
    + reflexivity.
Qed.
Lemma e_reads p v : exists q, numeral "." (fmt_e p v) q /\ rounded_digits (Z.of_nat p + 1) v q.
Proof.
  unfold fmt_e. destruct (Qeq_bool v 0) eqn:Z0.
  - apply Qeq_bool_iff in Z0. exists 0%Q. split; [|left; split; [exact Z0|reflexivity]].
    destruct (minus_sign v) as (s & S & E & Hs). apply (decimal_numeral (minus v) s p 0 _ 0 S); [lia|apply exp_text_part|]. rewrite Z.mul_0_r. change (inject_Z 0) with 0%Q. ring.
  - assert (NZ : ~ (v == 0)%Q) by (intros X; apply Qeq_bool_iff in X; congruence). apply abs_pos_nz in NZ.
    destruct (significant p (Qabs v)) as [m e'] eqn:Sg. destruct (significant_spec p (Qabs v) m e' NZ Sg) as (e & L & R & B).
    destruct (minus_sign v) as (s & S & E & Hs).
    assert (M : 0 <= m) by (assert (0 < 10 ^ Z.of_nat p) by (apply Z.pow_pos_nonneg; lia); lia).
    exists (inject_Z s * (inject_Z m * ten (e' - Z.of_nat p)))%Q. split.
    + apply (decimal_numeral (minus v) s p m _ e' S M (exp_text_part e')). rewrite inject_Z_mult. ring.
    + right. exists e. split; [apply leading_abs, L|]. replace (e - (Z.of_nat p + 1) + 1) with (e - Z.of_nat p) by lia. apply (rounded_sign _ _ (Qabs v) _ s Hs E R).
Qed.
Lemma g_reads v : exists q, numeral "." (fmt_g v) q /\ rounded_digits 6 v q.
Proof.
  unfold fmt_g. destruct (Qeq_bool v 0) eqn:Z0.
  - apply Qeq_bool_iff in Z0. exists 0%Q. split; [|left; split; [exact Z0|reflexivity]].
    change (lit "0") with ([] ++ decimal 0 0 ++ []). apply (decimal_numeral [] 1 0 0 [] 0); [constructor|lia|constructor|reflexivity].
  - assert (NZ : ~ (v == 0)%Q) by (intros X; apply Qeq_bool_iff in X; congruence). apply abs_pos_nz in NZ.
    destruct (significant 5 (Qabs v)) as [m e'] eqn:Sg. destruct (significant_spec 5 (Qabs v) m e' NZ Sg) as (e & L & R & B).
    change (Z.of_nat 5) with 5 in *.
    destruct (minus_sign v) as (s & S & E & Hs). assert (M : 0 <= m) by (change (10 ^ 5) with 100000 in B; lia).
    exists (inject_Z s * (inject_Z m * ten (e' - 5)))%Q. split.
    + destruct ((-4 <=? e') && (e' <? 6)) eqn:F.
      * apply andb_prop in F as [F1 F2]. apply Z.leb_le in F1. apply Z.ltb_lt in F2.
        rewrite <- (app_nil_r (short_decimal _ _)). apply (short_numeral (minus v) s _ m [] 0 S M exp_none). rewrite inject_Z_mult, Z2Nat.id by lia.
        replace (0 - (5 - e')) with (e' - 5) by lia. ring.
      * apply (short_numeral (minus v) s 5 m _ e' S M (exp_text_part e')). change (Z.of_nat 5) with 5. rewrite inject_Z_mult. ring.
    + right. exists e. split; [apply leading_abs, L|]. replace (e - 6 + 1) with (e - 5) by lia. apply (rounded_sign _ _ (Qabs v) _ s Hs E R).
Qed.
