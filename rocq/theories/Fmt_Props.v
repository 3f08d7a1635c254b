(** Property C84: the default texts of the float and physical value converters and reading them back. *)
From Coq Require Import String Ascii List ZArith Bool QArith Qabs Qpower Lia Lqa.
From Verif Require Import PyBase Text_Model Text_Proofs Float53_Model Float53_Proofs ConvNum_Spec ConvNum_Proofs ConvUuid_Spec ConvUuid_Proofs.
From Verif Require Import ConvFloat_Model ConvFloat_Spec ConvFloat_Proofs ConvFloat_Props GeomPretty_Spec GeomPretty_Proofs Fmt_Model Fmt_Spec Fmt_Proofs Fmt_Proofs2.
Import ListNotations.
Local Open Scope Z_scope.

(** a locale with decimal point or decimal comma *)
Definition usual (l : loc) : Prop := (decimal_point l = "."%char \/ decimal_point l = ","%char) /\ sane_sep l.

(** C84: what the format codes write *)
Theorem fmt_fixed_reads p v : exists q, numeral "." (fmt_f p v) q /\ rounded_to (Qpower (10 # 1) (- Z.of_nat p)) v q.
Proof. apply f_reads. Qed.
Theorem fmt_exponent_reads p v : exists q, numeral "." (fmt_e p v) q /\ rounded_digits (Z.of_nat p + 1) v q.
Proof. apply e_reads. Qed.
Theorem fmt_general_reads v : exists q, numeral "." (fmt_g v) q /\ rounded_digits 6 v q.
Proof. apply g_reads. Qed.

Lemma numeral_back l t q r : usual l -> numeral "." t q -> (r = [] \/ exists r', r = " "%char :: r') ->
  exists q', fuzzy_back l (t ++ r) = Ok q' /\ (q' == q)%Q.
Proof.
  intros [Hl Hs] N Hr. destruct (strip_numeral "." t q r (or_introl eq_refl) N Hr) as (w & E & Hw).
  apply stripped_iff in E. pose proof (numeral_leading "." t q w (or_introl eq_refl) N Hw) as L. destruct Hl as [P|P].
  - exact (conv_fuzzy_point_locale l _ _ t q P Hs E L N).
  - exact (conv_fuzzy_comma_locale l _ _ t "." q P Hs E L (or_introl eq_refl) N).
Qed.
Lemma numeral_strict l t q : usual l -> numeral "." t q -> exists q', strict_back l t = Ok q' /\ (q' == q)%Q.
Proof.
  intros U N. destruct (numeral_back l t q [] U N (or_introl eq_refl)) as (q' & E & Hq). exists q'. split; [|exact Hq].
  destruct (strip_numeral "." t q [] (or_introl eq_refl) N (or_introl eq_refl)) as (w & S & Hw). rewrite app_nil_r in E, S.
  pose proof (numeral_leading "." t q w (or_introl eq_refl) N Hw) as L. unfold fuzzy_back in E. rewrite S in E.
  rewrite (proj2 (number_match_leading _ t) L) in E. exact E.
Qed.

(** C84: convert and convert_back of the float converter: the value rounded to six significant digits *)
Theorem fmt_float_back l v : usual l ->
  exists t q q', float_convert false (Some v) = Ok (Some t) /\ fuzzy_back l t = Ok q /\ strict_back l t = Ok q' /\
    (q == q')%Q /\ rounded_digits 6 v q.
Proof.
  intros U. destruct (g_reads v) as (q & N & R). pose proof (numeral_back l _ q [] U N (or_introl eq_refl)) as (a & A & Ha). rewrite app_nil_r in A.
  destruct (numeral_strict l _ q U N) as (b & B & Hb). exists (fmt_g v), a, b. repeat split; auto; [rewrite Ha, Hb; reflexivity|].
  destruct R as [[V Q0]|(e & L & R)]; [left; split; [exact V|rewrite Ha; exact Q0]|right; exists e; split; [exact L|]].
  refine (rounded_eq _ _ _ _ q a _ _ _ R); [reflexivity|reflexivity|symmetry; exact Ha].
Qed.
(** C84: a value of at most six significant digits comes back *)
Theorem fmt_float_exact l v : usual l -> has_digits 6 v ->
  exists t q, float_convert false (Some v) = Ok (Some t) /\ fuzzy_back l t = Ok q /\ (q == v)%Q.
Proof.
  intros U H. destruct (fmt_float_back l v U) as (t & q & _ & T & A & _ & _ & R). exists t, q. repeat split; auto. exact (exact_digits 6 v q H R).
Qed.
(** C84: and so does the double nearest to such a value *)
Theorem fmt_float_double l w : usual l -> has_digits 6 w ->
  exists t q, float_convert false (Some (fl w)) = Ok (Some t) /\ fuzzy_back l t = Ok q /\ fl q = fl w.
Proof.
  intros U H. destruct (fmt_float_back l (fl w) U) as (t & q & _ & T & A & _ & _ & R). exists t, q. repeat split; auto.
  apply fl_comp. exact (near_digits 6 (fl w) w q ltac:(lia) H (fl_near w) R).
Qed.
Lemma rounded_has n v q : 1 <= n -> rounded_digits n v q -> has_digits n q.
Proof.
  intros Hn [[_ Q0]|(e & [_ L] & a & E & B & _)].
  - exists 0, 0. split; [rewrite Q0; reflexivity|]. apply Z.pow_pos_nonneg; lia.
  - change (Qpower (10 # 1)) with ten in *. set (u := ten (e - n + 1)) in *. pose proof (ten_pos (e - n + 1)) as Hu. fold u in Hu.
    assert (X : (Qabs q == inject_Z (Z.abs a) * u)%Q) by (rewrite E, Qabs_Qmult, (Qabs_pos u) by (apply Qlt_le_weak; exact Hu); reflexivity).
    assert (Y : (ten (e + 1) == inject_Z (10 ^ n) * u)%Q) by (unfold u; rewrite <- ten_int, <- ten_plus by lia; replace (n + (e - n + 1)) with (e + 1) by lia; reflexivity).
    assert (T : (Qabs q <= Qabs (q - v) + Qabs v)%Q).
    { pose proof (Qabs_triangle (q - v) v) as Z0. setoid_replace (q - v + v)%Q with q in Z0 by ring. exact Z0. }
    assert (A : Z.abs a <= 10 ^ n).
    { apply Z.lt_succ_r. rewrite Zlt_Qlt. apply (Qmult_lt_r _ _ u Hu). rewrite <- X. unfold Z.succ. rewrite inject_Z_plus, Qmult_plus_distr_l, <- Y. change (inject_Z 1) with 1%Q. lra. }
    destruct (Z.eq_dec (Z.abs a) (10 ^ n)) as [A2|A2].
    + exists (Z.sgn a), (e + 1). split; [|assert (1 < 10 ^ n) by (apply Z.pow_gt_1; lia); lia].
      rewrite E, <- (Z.abs_sgn a) at 1. change (Qpower (10 # 1) (e + 1)) with (ten (e + 1)). rewrite Y, A2, inject_Z_mult. ring.
    + exists a, (e - n + 1). split; [exact E|lia].
Qed.
(** C84: one pass through the text may change a double, a second one no more *)
Theorem fmt_float_stable l v : usual l ->
  exists t q t' q', float_convert false (Some v) = Ok (Some t) /\ fuzzy_back l t = Ok q /\
    float_convert false (Some (fl q)) = Ok (Some t') /\ fuzzy_back l t' = Ok q' /\ fl q' = fl q.
Proof.
  intros U. destruct (fmt_float_back l v U) as (t & q & _ & T & A & _ & _ & R).
  destruct (fmt_float_double l q U (rounded_has 6 v q ltac:(lia) R)) as (t' & q' & T' & A' & E). exists t, q, t', q'. auto.
Qed.
(** C84, finding: more digits are lost *)
Theorem fmt_float_lost_refuted l : usual l ->
  exists t q, float_convert false (Some (inject_Z 1234567)) = Ok (Some t) /\ fuzzy_back l t = Ok q /\ (q == inject_Z 1234570)%Q.
Proof.
  intros U. destruct (fmt_float_back l (inject_Z 1234567) U) as (t & q & _ & T & A & _ & _ & R). exists t, q. repeat split; auto.
  destruct R as [[X _]|(e & L & a & E & B & _)]; [discriminate X|].
  assert (L6 : leading (inject_Z 1234567) 6) by (split; vm_compute; congruence).
  rewrite (leading_unique _ _ _ L L6) in *. change (Qpower (10 # 1) (6 - 6 + 1)) with (inject_Z 10) in *.
  rewrite E in *. apply Qabs_Qle_condition in B as [B1 B2]. unfold Qle, Qminus, Qplus, Qopp, Qmult, inject_Z in B1, B2. cbn in B1, B2.
  rewrite <- inject_Z_mult. assert (a = 123457) by lia. subst. reflexivity.
Qed.

(** C84: the physical value converter with any units, in exact arithmetic *)
Theorem fmt_physical_back l units mult pn v : usual l -> ~ (mult == 0)%Q ->
  exists t r, physical_convert Qmult units mult pn (Some v) = Ok (Some t) /\ physical_back l mult pn (Some t) = Ok r /\
    rounded_digits 6 (v * mult) (r * mult).
Proof.
  intros U Hm. destruct (g_reads (v * mult)) as (q & N & R).
  destruct (numeral_back l _ q (lit " " ++ units) U N (or_intror (ex_intro _ units eq_refl))) as (a & A & Ha).
  destruct (conv_physical_back l mult pn _ a Hm A) as (r & B & Hr). eexists. exists r. split; [reflexivity|]. split; [exact B|].
  assert (E : (r * mult == q)%Q) by (rewrite Hr, Ha; reflexivity).
  destruct R as [[V Q0]|(e & L & R)]; [left; split; [exact V|rewrite E; exact Q0]|right; exists e; split; [exact L|]].
  refine (rounded_eq _ _ _ _ q _ _ _ _ R); [reflexivity|reflexivity|symmetry; exact E].
Qed.
Lemma rounded_near v q : rounded_digits 6 v q -> near (5 # 1000000) q v.
Proof.
  intros [[V Q0]|(e & [L _] & a & _ & B & _)]; unfold near.
  - rewrite V, Q0. vm_compute. congruence.
  - change (Qpower (10 # 1)) with ten in *. assert (X : (ten e == inject_Z (10 ^ 5) * ten (e - 6 + 1))%Q).
    { rewrite <- ten_int, <- ten_plus by lia. replace (5 + (e - 6 + 1)) with e by lia. reflexivity. }
    change (inject_Z (10 ^ 5)) with 100000%Q in X. lra.
Qed.
Lemma near_trans r s a b c : (0 <= r)%Q -> near r a b -> near s b c -> near (r + s + r * s) a c.
Proof.
  unfold near. intros Hr A B. pose proof (Qabs_triangle (a - b) (b - c)) as X. setoid_replace (a - b + (b - c))%Q with (a - c)%Q in X by ring.
  pose proof (Qabs_triangle (b - c) c) as Y. setoid_replace (b - c + c)%Q with b in Y by ring. nra.
Qed.
(** C84: in doubles the physical value comes back up to the six digits and a few units in the sixteenth *)
Theorem fmt_physical_double l units mult pn v : usual l -> ~ (mult == 0)%Q ->
  exists t r, physical_convert (fun a b => fl (a * b)) units mult pn (Some v) = Ok (Some t) /\ fl_physical_back l mult t = Ok r /\
    near (5000001 # 1000000000000) r v.
Proof.
  intros U Hm. destruct (g_reads (fl (v * mult))) as (q & N & R).
  destruct (numeral_back l _ q (lit " " ++ units) U N (or_intror (ex_intro _ units eq_refl))) as (a & A & Ha).
  eexists. exists (fl (fl a / mult)). split; [reflexivity|]. unfold fl_physical_back. rewrite A.
  destruct (Qeq_bool mult 0) eqn:Z0; [apply Qeq_bool_iff in Z0; contradiction|]. split; [reflexivity|].
  assert (S : near (5000000001 # 1000000000000000) (fl a) (v * mult)).
  { pose proof (near_trans (5 # 1000000) eps _ _ _ ltac:(discriminate) (rounded_near _ _ R) (fl_near (v * mult))) as X.
    rewrite (fl_comp a q Ha). pose proof (near_trans eps _ _ _ _ ltac:(discriminate) (fl_near q) X) as Y.
    unfold near in *. eapply Qle_trans; [exact Y|]. apply Qmult_le_compat_r; [|apply Qabs_nonneg]. vm_compute. congruence. }
  assert (S2 : near (5000000001 # 1000000000000000) (fl a / mult) v).
  { unfold near in *. setoid_replace (fl a / mult - v)%Q with ((fl a - v * mult) * / mult)%Q by (field; exact Hm).
    rewrite Qabs_Qmult. setoid_replace (Qabs v) with (Qabs (v * mult) * Qabs (/ mult))%Q.
    - rewrite Qmult_assoc. apply Qmult_le_compat_r; [exact S|apply Qabs_nonneg].
    - rewrite <- Qabs_Qmult. apply Qabs_wd. field. exact Hm. }
  pose proof (near_trans eps _ _ _ _ ltac:(discriminate) (fl_near (fl a / mult)) S2) as Y.
  unfold near in *. eapply Qle_trans; [exact Y|]. apply Qmult_le_compat_r; [|apply Qabs_nonneg]. vm_compute. congruence.
Qed.

Print Assumptions fmt_fixed_reads.
Print Assumptions fmt_exponent_reads.
Print Assumptions fmt_general_reads.
Print Assumptions fmt_float_back.
Print Assumptions fmt_float_exact.
Print Assumptions fmt_float_double.
Print Assumptions fmt_float_stable.
Print Assumptions fmt_float_lost_refuted.
Print Assumptions fmt_physical_back.
Print Assumptions fmt_physical_double.

Example fmt_texts :
  fmt_g (1234567 # 1) = lit "1.23457e+06" /\ fmt_g (- (1 # 3)) = lit "-0.333333" /\ fmt_g (999999 # 10) = lit "99999.9" /\
  fmt_g (5 # 2000000) = lit "2.5e-06" /\ fmt_f 2 (- (12345 # 1000)) = lit "-12.34" /\ fmt_f 0 (5 # 2) = lit "2" /\ fmt_e 2 (99999 # 10) = lit "1.00e+04".
Proof. vm_compute. repeat split; reflexivity. Qed.
Example fmt_usual : usual c_locale /\ usual de_locale.
Proof.
  split; (split; [simpl; auto|]); intros c H; simpl in H; [discriminate|]. injection H as <-.
  split; [intros X; apply a_digit_iff in X; discriminate X|]. split; [simpl; intuition discriminate|discriminate].
Qed.
Example fmt_tenth : has_digits 6 (1 # 10) /\ exists q, fuzzy_back c_locale (fmt_g (fl (1 # 10))) = Ok q /\ fl q = fl (1 # 10) /\ ~ (fl (1 # 10) == 1 # 10)%Q.
Proof.
  split; [exists 1, (-1); split; vm_compute; reflexivity|]. eexists. split; [vm_compute; reflexivity|]. split; [vm_compute; reflexivity|vm_compute; congruence].
Qed.
Example fmt_nm : physical_convert Qmult (lit "nm") (inject_Z 1000000000) false (Some (125 # 100000000000)) = Ok (Some (lit "1.25 nm")).
Proof. vm_compute. reflexivity. Qed.
