(** The text in the converters. *)
From Coq Require Import String Ascii List ZArith Bool QArith Qabs Qpower Lia Lqa.
From Verif Require Import PyBase Text_Model Text_Proofs Float53_Model Float53_Proofs ConvNum_Spec ConvNum_Proofs ConvDate_Proofs ConvUuid_Spec ConvUuid_Proofs.
From Verif Require Import ConvFloat_Model ConvFloat_Spec ConvFloat_Proofs GeomPretty_Spec GeomPretty_Proofs Fmt_Model Fmt_Spec Fmt_Proofs.
Import ListNotations.
Local Open Scope Z_scope.

Lemma plain_space : plain " "%char. Proof. repeat split. Qed.
Lemma numeral_first mark t q : numeral mark t q -> t <> [].
Proof.
  intros (sg & k & i & fr & f & ex & e & -> & _ & _ & Hf & N & _) E. apply app_eq_nil in E as [_ E]. apply app_eq_nil in E as [E1 E].
  apply app_eq_nil in E as [E2 _]. subst. inversion Hf; subst. apply N. reflexivity.
Qed.
Lemma space_plain c : is_space c = true -> plain c /\ c <> "."%char /\ c <> ","%char.
Proof. intros H. unfold plain. revert H. chars_up c; vm_compute; intuition congruence. Qed.
Lemma numeral_no_space mark t q : (mark = "."%char \/ mark = ","%char) -> numeral mark t q -> forall c, In c t -> is_space c = false.
Proof.
  intros Hm H c Hc. destruct (is_space c) eqn:E; [|reflexivity]. destruct (space_plain c E) as (P & X & Y). exfalso.
  apply (numeral_chars mark t q c P) in H; [exact (H Hc)|]. destruct Hm; congruence.
Qed.
Lemma numeral_leading mark t q r : (mark = "."%char \/ mark = ","%char) -> numeral mark t q ->
  (r = [] \/ exists r', r = " "%char :: r') -> leading_numeral (t ++ r) t.
Proof.
  intros Hm H Hr. split; [exists r; reflexivity|]. split; [exists mark, q; auto|].
  intros t' [r2 E] (mk & q' & Hmk & N).
  destruct Hr as [->|(r' & ->)].
  - rewrite app_nil_r in E. rewrite E, app_length. lia.
  - destruct (le_lt_dec (length t') (length t)) as [L|L]; [exact L|]. exfalso.
    assert (X : In " "%char t').
    { assert (Y : nth_error (t ++ " "%char :: r') (length t) = Some " "%char) by (rewrite nth_error_app2, Nat.sub_diag by lia; reflexivity).
      rewrite E, nth_error_app1 in Y by exact L. apply nth_error_In in Y. exact Y. }
    pose proof (numeral_no_space mk t' q' Hmk N _ X) as Z. discriminate Z.
Qed.
Lemma strip_numeral mark t q r : (mark = "."%char \/ mark = ","%char) -> numeral mark t q ->
  (r = [] \/ exists r', r = " "%char :: r') ->
  exists w, strip_by is_space (t ++ r) = t ++ w /\ (w = [] \/ exists r', w = " "%char :: r').
Proof.
  intros Hm H Hr. pose proof (numeral_no_space mark t q Hm H) as NS. pose proof (numeral_first mark t q H) as NE.
  destruct (strip_decompose is_space (t ++ r)) as (pre & post & E & P1 & P2 & _). set (core := strip_by is_space (t ++ r)) in *.
  rewrite forallb_forall in P1, P2.
  assert (pre = []) as ->.
  { destruct pre as [|c pre]; [reflexivity|]. destruct t as [|d t]; [congruence|]. injection E as <- _.
    specialize (P1 d (or_introl eq_refl)). rewrite (NS d (or_introl eq_refl)) in P1. discriminate. }
  simpl in E.
  assert (L : (length t <= length core)%nat).
  { destruct (le_lt_dec (length t) (length core)) as [L|L]; [exact L|]. exfalso.
    destruct (nth_error t (length core)) as [c|] eqn:X; [|apply nth_error_None in X; lia].
    assert (Y : nth_error (t ++ r) (length core) = Some c) by (rewrite nth_error_app1 by exact L; exact X).
    rewrite E, nth_error_app2, Nat.sub_diag in Y by lia. destruct post as [|d post]; [discriminate|]. injection Y as ->.
    specialize (P2 c (or_introl eq_refl)). rewrite (NS c (nth_error_In _ _ X)) in P2. discriminate. }
  assert (F : firstn (length t) core = t).
  { pose proof (f_equal (firstn (length t)) E) as G. rewrite firstn_app, Nat.sub_diag, firstn_all, app_nil_r in G.
    rewrite firstn_app in G. replace (length t - length core)%nat with 0%nat in G by lia. simpl in G. rewrite app_nil_r in G. symmetry. exact G. }
  exists (skipn (length t) core). split; [transitivity (firstn (length t) core ++ skipn (length t) core); [symmetry; apply firstn_skipn|rewrite F; reflexivity]|].
  rewrite <- (firstn_skipn (length t) core), F, <- app_assoc in E. apply app_inv_head in E.
  destruct (skipn (length t) core) as [|c w]; [left; reflexivity|]. right. destruct Hr as [->|(r' & ->)]; [discriminate|]. injection E as <- _. eauto.
Qed.

(** ** six digits survive the rounding to a double *)
Lemma multiples_close u a b : (0 < u -> Qabs (inject_Z a * u - inject_Z b * u) < u -> inject_Z a * u == inject_Z b * u)%Q.
Proof.
  intros Hu H. setoid_replace (inject_Z a * u - inject_Z b * u)%Q with (inject_Z (a - b) * u)%Q in H.
  2:{ unfold Zminus. rewrite inject_Z_plus, inject_Z_opp. ring. }
  rewrite Qabs_Qmult, (Qabs_pos u) in H by (apply Qlt_le_weak; exact Hu).
  assert (X : (inject_Z (Z.abs (a - b)) < 1)%Q). { apply (Qmult_lt_r _ _ u Hu). rewrite Qmult_1_l. exact H. }
  change 1%Q with (inject_Z 1) in X. rewrite <- Zlt_Qlt in X. assert (a = b) by lia. subst. reflexivity.
Qed.
Lemma leading_exists v : ~ (v == 0)%Q -> exists e, leading v e.
Proof.
  intros H. exists (dec_exponent (Qabs v)). apply leading_abs. unfold leading. rewrite (Qabs_pos (Qabs v)) by apply Qabs_nonneg.
  apply exponent_leading, abs_pos_nz, H.
Qed.
Definition eps : Q := 1 # Z.to_pos (2 ^ 53).
Lemma near_zero v w : near eps v w -> (v == 0 <-> w == 0)%Q.
Proof.
  unfold near. intros H. split; intros E.
  - rewrite E in H. setoid_replace (0 - w)%Q with (- w)%Q in H by ring. rewrite Qabs_opp in H. pose proof (Qle_Qabs w). pose proof (Qle_Qabs (- w)). rewrite Qabs_opp in *.
    pose proof (Qabs_nonneg w). assert (X : (eps < 1)%Q) by reflexivity. assert (Y : (Qabs w <= 0)%Q) by nra. lra.
  - rewrite E in H. change (Qabs 0) with 0%Q in H. rewrite Qmult_0_r in H. setoid_replace (v - 0)%Q with v in H by ring.
    pose proof (Qle_Qabs v). pose proof (Qle_Qabs (- v)). rewrite Qabs_opp in *. lra.
Qed.
(** a decimal of at most 15 digits that was rounded to a double is found again by rounding to as many digits *)
Lemma near_digits n v w q : 1 <= n <= 15 -> has_digits n w -> near eps v w -> rounded_digits n v q -> (q == w)%Q.
Proof.
  intros Hn Hd Hv R. destruct R as [[V Q0]|(f & Lv & Rv)].
  { rewrite Q0. symmetry. apply (near_zero v w Hv), V. }
  assert (W : ~ (w == 0)%Q).
  { intros W. apply (near_zero v w Hv) in W. destruct Lv as [Lv _]. rewrite W in Lv. pose proof (ten_pos f) as P. change (Qpower (10 # 1)) with ten in Lv. change (Qabs 0) with 0%Q in Lv. lra. }
  destruct (leading_exists w W) as [e Lw].
  pose proof Lw as [Lw1 Lw2]. pose proof Lv as [Lv1 Lv2]. change (Qpower (10 # 1)) with ten in *.
  unfold near in Hv.
  assert (T : (Qabs w <= Qabs v + eps * Qabs w)%Q).
  { pose proof (Qabs_triangle v (w - v)) as X. setoid_replace (v + (w - v))%Q with w in X by ring. rewrite Qabs_Qminus in Hv. lra. }
  assert (T2 : (Qabs v <= Qabs w + eps * Qabs w)%Q).
  { pose proof (Qabs_triangle w (v - w)) as X. setoid_replace (w + (v - w))%Q with v in X by ring. lra. }
  assert (Ev : eps = (1 # 9007199254740992)%Q) by reflexivity. rewrite Ev in *. clear Ev.
  set (u := ten (e - n + 1)). pose proof (ten_pos (e - n + 1)) as Hu. fold u in Hu.
  destruct Hd as (m & k & Em & M).
  assert (Aw : (Qabs w == inject_Z (Z.abs m) * ten k)%Q).
  { rewrite Em, Qabs_Qmult, (Qabs_pos (ten k)) by (apply Qlt_le_weak, ten_pos). reflexivity. }
  assert (K : e < k + n).
  { apply ten_lt_inv. eapply Qle_lt_trans; [exact Lw1|]. rewrite Aw, ten_plus, (Qmult_comm (ten k)).
    apply Qmult_lt_r; [apply ten_pos|]. rewrite ten_int by lia. rewrite <- Zlt_Qlt. exact M. }
  set (b := m * 10 ^ (k + n - e - 1)).
  assert (Eb : (w == inject_Z b * u)%Q).
  { unfold b, u. rewrite inject_Z_mult, <- ten_int by lia. rewrite <- Qmult_assoc, <- ten_plus.
    replace (k + n - e - 1 + (e - n + 1)) with k by lia. exact Em. }
  assert (Te : (ten e == inject_Z (10 ^ (n - 1)) * u)%Q).
  { unfold u. rewrite <- ten_int, <- ten_plus by lia. replace (n - 1 + (e - n + 1)) with e by lia. reflexivity. }
  assert (P15 : 10 ^ (n - 1) <= 10 ^ 14) by (apply Z.pow_le_mono_r; lia).
  assert (P15q : (inject_Z (10 ^ (n - 1)) <= 100000000000000)%Q) by (change 100000000000000%Q with (inject_Z (10 ^ 14)); rewrite <- Zle_Qle; exact P15).
  assert (Te14 : (ten e <= 100000000000000 * u)%Q) by (rewrite Te; apply Qmult_le_compat_r; [exact P15q|apply Qlt_le_weak, Hu]).
  assert (Te1 : (ten (e + 1) == 10 * ten e)%Q) by apply ten_succ.
  assert (F : f = e \/ f = e - 1).
  { assert (F1 : f < e + 1).
    { apply ten_lt_inv. eapply Qle_lt_trans; [exact Lv1|].
      (* |w| <= 10^(e+1) - u *)
      assert (B : (Qabs w <= ten (e + 1) - u)%Q).
      { assert (X : (Qabs w == inject_Z (Z.abs b) * u)%Q) by (rewrite Eb, Qabs_Qmult, (Qabs_pos u) by (apply Qlt_le_weak; exact Hu); reflexivity).
        assert (Y : (ten (e + 1) == inject_Z (10 ^ n) * u)%Q) by (unfold u; rewrite <- ten_int, <- ten_plus by lia; replace (n + (e - n + 1)) with (e + 1) by lia; reflexivity).
        assert (Zb : Z.abs b < 10 ^ n). { rewrite Zlt_Qlt. apply (Qmult_lt_r _ _ u Hu). rewrite <- X, <- Y. exact Lw2. }
        rewrite X, Y. assert (Zc : (inject_Z (Z.abs b) + 1 <= inject_Z (10 ^ n))%Q) by (change 1%Q with (inject_Z 1); rewrite <- inject_Z_plus, <- Zle_Qle; lia).
        setoid_replace (inject_Z (10 ^ n) * u - u)%Q with ((inject_Z (10 ^ n) - 1) * u)%Q by ring.
        apply Qmult_le_compat_r; [lra|apply Qlt_le_weak, Hu]. }
      lra. }
    assert (F2 : e - 1 < f + 1).
    { apply ten_lt_inv. pose proof (ten_pred e) as X. pose proof (ten_pos e). eapply Qle_lt_trans; [|exact Lv2]. lra. }
    lia. }
  destruct Rv as (a & Ea & Ra & _). change (Qpower (10 # 1)) with ten in *.
  assert (Tri : (Qabs (q - w) <= Qabs (q - v) + Qabs (v - w))%Q).
  { pose proof (Qabs_triangle (q - v) (v - w)) as X. setoid_replace (q - v + (v - w))%Q with (q - w)%Q in X by ring. exact X. }
  destruct F as [->|F].
  - fold u in Ea, Ra. rewrite Ea, Eb. apply multiples_close; [exact Hu|]. rewrite <- Ea, <- Eb. lra.
  - assert (Fu : (u == 10 * ten (f - n + 1))%Q) by (unfold u; rewrite ten_pred; replace (e - n + 1 - 1) with (f - n + 1) by lia; reflexivity).
    set (x := ten (f - n + 1)) in *.
    assert (Eb2 : (w == inject_Z (b * 10) * x)%Q) by (rewrite Eb, Fu, inject_Z_mult; change (inject_Z 10) with 10%Q; ring).
    replace (f + 1) with e in Lv2 by lia.
    rewrite Ea, Eb2. apply multiples_close; [apply ten_pos|]. rewrite <- Ea, <- Eb2. lra.
Qed.
Lemma fl_near v : near eps (fl v) v.
Proof. unfold near. rewrite Qmult_comm. apply fl_error. Qed.
