From Coq Require Import ZArith QArith Qabs Qround Bool Lia Lqa.
From Verif Require Import PyBase ConvNum_Model ConvNum_Proofs Float53_Model Float53_Proofs Float53_Proofs2 ConvDbl_Model ConvDbl_Spec ConvDbl_Proofs.
Local Open Scope Z_scope.

(** ** truncation *)
Lemma trunc_mono p q : (p <= q)%Q -> q_trunc p <= q_trunc q.
Proof.
  intros H. destruct (Qlt_le_dec p 0) as [Np|Pp]; [destruct (Qlt_le_dec q 0) as [Nq|Pq]|].
  - assert (E : forall x, (x < 0)%Q -> q_trunc x = - Qfloor (- x)).
    { intros x Hx. rewrite <- (q_trunc_floor (- x)) by lra. rewrite q_trunc_opp. lia. }
    rewrite (E p Np), (E q Nq). apply -> Z.opp_le_mono. apply Qfloor_resp_le. lra.
  - rewrite (q_trunc_floor q Pq). assert (0 <= Qfloor q) by (rewrite <- (Qfloor_Z 0); apply Qfloor_resp_le; exact Pq).
    assert (Hp : 0 <= q_trunc (- p)) by (rewrite q_trunc_floor by lra; rewrite <- (Qfloor_Z 0); apply Qfloor_resp_le; change (inject_Z 0) with 0%Q; lra).
    rewrite q_trunc_opp in Hp. lia.
  - rewrite !q_trunc_floor by lra. apply Qfloor_resp_le, H.
Qed.
Lemma trunc_near x k : 0 <= k -> (Qabs (x - inject_Z k) < 1)%Q -> k - 1 <= q_trunc x <= k /\ 0 <= q_trunc x.
Proof.
  intros Hk H. assert (H' : (inject_Z k - 1 < x /\ x < inject_Z k + 1)%Q).
  { revert H. apply Qabs_case; intros; lra. } destruct H' as [L R].
  assert (B : 0 <= q_trunc x).
  { destruct (Z.eq_dec k 0) as [->|Hz].
    - destruct (Qlt_le_dec x 0) as [Nx|Px].
      + assert (E : q_trunc (- x) = 0).
        { rewrite q_trunc_floor by lra. pose proof (Qfloor_le (- x)). pose proof (Qlt_floor (- x)) as F. change (inject_Z 0) with 0%Q in *.
          assert (0 <= Qfloor (- x)) by (rewrite <- (Qfloor_Z 0); apply Qfloor_resp_le; change (inject_Z 0) with 0%Q; lra).
          assert (Q : (inject_Z (Qfloor (- x)) < inject_Z 1)%Q) by (change (inject_Z 1) with 1%Q; lra). rewrite <- Zlt_Qlt in Q. lia. }
        rewrite q_trunc_opp in E. lia.
      + rewrite q_trunc_floor by exact Px. rewrite <- (Qfloor_Z 0). apply Qfloor_resp_le. exact Px.
    - assert (1 <= inject_Z k)%Q by (change 1%Q with (inject_Z 1); rewrite <- Zle_Qle; lia).
      rewrite q_trunc_floor by lra. rewrite <- (Qfloor_Z 0). apply Qfloor_resp_le. change (inject_Z 0) with 0%Q. lra. }
  split; [|exact B]. split.
  - pose proof (trunc_mono (inject_Z (k - 1)) x) as M. rewrite q_trunc_inject in M. apply M. replace (k - 1) with (k + - (1)) by lia. rewrite inject_Z_plus.
    change (inject_Z (- (1))) with (- (1))%Q. lra.
  - destruct (Qlt_le_dec x 0) as [Nx|Px]; [pose proof (trunc_mono x (inject_Z 0) ltac:(change (inject_Z 0) with 0%Q; lra)) as M; rewrite q_trunc_inject in M; lia|].
    rewrite q_trunc_floor by exact Px. pose proof (Qfloor_le x).
    assert (Q : (inject_Z (Qfloor x) < inject_Z (k + 1))%Q) by (rewrite inject_Z_plus; change (inject_Z 1) with 1%Q; lra). rewrite <- Zlt_Qlt in Q. lia.
Qed.

(** ** the consequence of a resolvable range: errors in units of a step are small *)
Lemma resolvable_n n mn mx : resolvable n mn mx -> 0 < n <= 2 ^ 49.
Proof.
  intros (Hn & Hw & H). split; [exact Hn|]. pose proof (Qabs_nonneg mn) as A. rewrite Zle_Qle.
  assert (P : (0 < inject_Z n)%Q) by (apply inj_pos, Hn).
  apply (Qmult_le_r _ _ (mx - mn)); [lra|]. eapply Qle_trans; [|exact H]. rewrite !(Qmult_comm (inject_Z n)). apply Qmult_le_compat_r; lra.
Qed.
Lemma resolvable_ratio n mn mx : resolvable n mn mx ->
  (0 <= inject_Z n * Qabs mn / (mx - mn) /\ inject_Z n + inject_Z n * Qabs mn / (mx - mn) <= inject_Z (2 ^ 49))%Q.
Proof.
  intros (Hn & Hw & H). pose proof (Qabs_nonneg mn) as A. assert (P : (0 < inject_Z n)%Q) by (apply inj_pos, Hn). split.
  - unfold Qdiv. apply Qmult_le_0_compat; [apply Qmult_le_0_compat; lra|]. apply Qlt_le_weak, Qinv_lt_0_compat. lra.
  - apply (Qmult_le_r _ _ (mx - mn)); [lra|]. eapply Qle_trans; [|exact H].
    apply Qle_lteq. right. field. lra.
Qed.
Lemma scaled_error n mn mx k v : 0 < n -> (mn < mx)%Q -> 0 <= k ->
  (Qabs (v - (mn + inject_Z k * (mx - mn) / inject_Z n)) <= 6 * U * (inject_Z k * (mx - mn) / inject_Z n) + U * Qabs mn)%Q ->
  (Qabs (inject_Z n * (v - mn) / (mx - mn) - inject_Z k) <= 6 * U * inject_Z k + U * (inject_Z n * Qabs mn / (mx - mn)))%Q.
Proof.
  intros Hn Hw Hk H. pose proof (inj_pos n Hn) as PN. set (N := inject_Z n) in *. set (K := inject_Z k) in *.
  assert (PW : (0 < mx - mn)%Q) by lra. set (W := (mx - mn)%Q) in *. set (A := Qabs mn) in *.
  assert (PS : (0 < W / N)%Q) by (unfold Qdiv; setoid_replace 0%Q with (0 * / N)%Q by ring; apply Qmult_lt_r; [apply Qinv_lt_0_compat, PN|exact PW]).
  apply (Qmult_le_r _ _ (W / N) PS).
  setoid_replace ((6 * U * K + U * (N * A / W)) * (W / N))%Q with (6 * U * (K * W / N) + U * A)%Q by (field; split; lra).
  eapply Qle_trans; [|exact H]. apply Qle_lteq. right.
  rewrite <- (Qabs_pos (W / N)) at 1 by lra. rewrite <- Qabs_Qmult. apply Qabs_wd. field. split; lra.
Qed.
Lemma trip_near n mn mx k : resolvable n mn mx -> 0 <= k <= n ->
  exists k', dbl_trip n mn mx k = Ok k' /\ k - 1 <= k' <= k /\ 0 <= k'.
Proof.
  intros R Hk. pose proof (resolvable_n _ _ _ R) as Hn. pose proof (resolvable_ratio _ _ _ R) as [Ra Rb]. destruct R as (_ & Hw & _).
  assert (Big : 2 ^ 49 <= 2 ^ 53) by (apply Z.pow_le_mono_r; lia).
  destruct (back_value n mn mx k ltac:(lia) ltac:(lia) Hw) as (v & Ev & Er). unfold dbl_trip. rewrite Ev.
  destruct (convert_value n mn mx v ltac:(lia) Hw) as (x & Ex & Ez). exists (q_trunc x). split; [exact Ex|]. apply trunc_near; [lia|].
  pose proof (scaled_error n mn mx k v ltac:(lia) Hw ltac:(lia) Er) as S.
  set (y := (inject_Z n * (v - mn) / (mx - mn))%Q) in *. set (a := (inject_Z n * Qabs mn / (mx - mn))%Q) in *.
  assert (PK : (0 <= inject_Z k /\ inject_Z k <= inject_Z n)%Q) by (split; [change 0%Q with (inject_Z 0)|]; rewrite <- Zle_Qle; lia).
  set (K := inject_Z k) in *. set (N := inject_Z n) in *. change (inject_Z (2 ^ 49)) with (562949953421312 # 1)%Q in Rb.
  assert (Y : (Qabs y <= (9 # 8) * K + a)%Q).
  { setoid_replace y with (K + (y - K))%Q by ring. eapply Qle_trans; [apply Qabs_triangle|]. rewrite (Qabs_pos K) by tauto. unfold U in *. lra. }
  setoid_replace (x - K)%Q with ((x - y) + (y - K))%Q by ring. eapply Qle_lt_trans; [apply Qabs_triangle|]. unfold U in *. lra.
Qed.
Lemma convert_range n mn mx v : 0 < n <= 2 ^ 50 -> (mn < mx)%Q -> (mn <= v <= mx)%Q ->
  exists x, dbl_convert n mn mx v = Ok (q_trunc x) /\ (0 <= x)%Q /\
    (Qabs (x - inject_Z n * (v - mn) / (mx - mn)) <= 7 * U * (inject_Z n * (v - mn) / (mx - mn)))%Q /\
    (0 <= inject_Z n * (v - mn) / (mx - mn) <= inject_Z n)%Q.
Proof.
  intros Hn Hw Hv. assert (Big : 2 ^ 50 <= 2 ^ 53) by (apply Z.pow_le_mono_r; lia).
  destruct (convert_value n mn mx v ltac:(lia) Hw) as (x & Ex & Er). exists x. split; [exact Ex|].
  pose proof (inj_pos n ltac:(lia)) as PN. set (N := inject_Z n) in *. set (y := (N * (v - mn) / (mx - mn))%Q) in *.
  assert (Py : (0 <= y)%Q) by (unfold y; apply Qle_shift_div_l; [lra|]; rewrite Qmult_0_l; apply Qmult_le_0_compat; lra).
  assert (Py' : (y <= N)%Q) by (unfold y; apply Qle_shift_div_r; [lra|]; apply Qmult_le_l; lra).
  rewrite (Qabs_pos y Py) in Er. split; [|auto]. apply abs_range in Er. unfold U in Er. lra.
Qed.
Lemma convert_bounds n mn mx v : 0 < n <= 2 ^ 50 -> (mn < mx)%Q -> (mn <= v <= mx)%Q ->
  exists k, dbl_convert n mn mx v = Ok k /\ 0 <= k <= n.
Proof.
  intros Hn Hw Hv. destruct (convert_range n mn mx v Hn Hw Hv) as (x & Ex & Px & Er & Py & Py'). exists (q_trunc x). split; [exact Ex|].
  rewrite q_trunc_floor by exact Px. split; [rewrite <- (Qfloor_Z 0); apply Qfloor_resp_le; exact Px|].
  pose proof (Qfloor_le x) as F. apply abs_range in Er.
  assert (L : (inject_Z n <= inject_Z (2 ^ 50))%Q) by (rewrite <- Zle_Qle; lia). change (inject_Z (2 ^ 50)) with (1125899906842624 # 1)%Q in L.
  assert (Q : (inject_Z (Qfloor x) < inject_Z (n + 1))%Q) by (rewrite inject_Z_plus; change (inject_Z 1) with 1%Q; unfold U in Er; lra).
  rewrite <- Zlt_Qlt in Q. lia.
Qed.
Lemma convert_ends n mn mx : 0 < n <= 2 ^ 50 -> (mn < mx)%Q ->
  dbl_convert n mn mx mn = Ok 0 /\ exists k, dbl_convert n mn mx mx = Ok k /\ n - 1 <= k <= n.
Proof.
  intros Hn Hw. split.
  - destruct (convert_range n mn mx mn Hn Hw ltac:(lra)) as (x & Ex & Px & Er & _). rewrite Ex. f_equal.
    assert (Z : (inject_Z n * (mn - mn) / (mx - mn) == 0)%Q) by (field; lra). rewrite Z in Er. apply abs_range in Er.
    change 0 with (q_trunc (inject_Z 0)). apply q_trunc_comp. change (inject_Z 0) with 0%Q. lra.
  - destruct (convert_range n mn mx mx Hn Hw ltac:(lra)) as (x & Ex & Px & Er & _). exists (q_trunc x). split; [exact Ex|].
    assert (Z : (inject_Z n * (mx - mn) / (mx - mn) == inject_Z n)%Q) by (field; lra). rewrite Z in Er.
    apply trunc_near; [lia|]. eapply Qle_lt_trans; [exact Er|].
    assert (L : (inject_Z n <= inject_Z (2 ^ 50))%Q) by (rewrite <- Zle_Qle; lia). change (inject_Z (2 ^ 50)) with (1125899906842624 # 1)%Q in L.
    unfold U. lra.
Qed.
Lemma value_trip n mn mx v : resolvable n mn mx -> (mn <= v <= mx)%Q ->
  exists k w, dbl_convert n mn mx v = Ok k /\ dbl_convert_back n mn mx k = Ok w /\
    (v - (mx - mn) / inject_Z n - ((mx - mn) + Qabs mn) / inject_Z (2 ^ 49) < w /\ w <= v + ((mx - mn) + Qabs mn) / inject_Z (2 ^ 49))%Q.
Proof.
  intros R Hv. pose proof (resolvable_n _ _ _ R) as Hn. pose proof (resolvable_ratio _ _ _ R) as [Ra Rb]. destruct R as (_ & Hw & _).
  assert (Big : 2 ^ 49 <= 2 ^ 50) by (apply Z.pow_le_mono_r; lia). assert (Big' : 2 ^ 50 <= 2 ^ 53) by (apply Z.pow_le_mono_r; lia).
  destruct (convert_bounds n mn mx v ltac:(lia) Hw Hv) as (k0 & Ek0 & Hk).
  destruct (convert_range n mn mx v ltac:(lia) Hw Hv) as (x & Ex & Px & Er & Py & Py'). rewrite Ex in Ek0. injection Ek0 as Ek0.
  destruct (back_value n mn mx k0 ltac:(lia) ltac:(lia) Hw) as (w & Ew & Ee). exists k0, w. split; [rewrite Ex, Ek0; reflexivity|]. split; [exact Ew|].
  pose proof (scaled_error n mn mx k0 w ltac:(lia) Hw ltac:(lia) Ee) as S.
  rewrite q_trunc_floor in Ek0 by exact Px. pose proof (Qfloor_le x) as F1. pose proof (Qlt_floor x) as F2. rewrite Ek0 in F1, F2.
  rewrite inject_Z_plus in F2. change (inject_Z 1) with 1%Q in F2.
  set (y := (inject_Z n * (v - mn) / (mx - mn))%Q) in *. set (z := (inject_Z n * (w - mn) / (mx - mn))%Q) in *.
  set (a := (inject_Z n * Qabs mn / (mx - mn))%Q) in *. pose proof (inj_pos n ltac:(lia)) as PN.
  assert (PK : (0 <= inject_Z k0 /\ inject_Z k0 <= inject_Z n)%Q) by (split; [change 0%Q with (inject_Z 0)|]; rewrite <- Zle_Qle; lia).
  set (K := inject_Z k0) in *. change (inject_Z (2 ^ 49)) with (562949953421312 # 1)%Q in Rb.
  assert (PS : (0 < (mx - mn) / inject_Z n)%Q) by (unfold Qdiv; setoid_replace 0%Q with (0 * / inject_Z n)%Q by ring; apply Qmult_lt_r; [apply Qinv_lt_0_compat, PN|lra]).
  assert (Zy : (w - v == (z - y) * ((mx - mn) / inject_Z n))%Q) by (unfold z, y; field; split; lra).
  apply abs_range in Er. apply abs_range in S. set (r := ((inject_Z n + a) * (1 # 562949953421312))%Q).
  assert (B : (- (1) - r < z - y /\ z - y <= r)%Q) by (unfold r, U in *; lra).
  set (s := ((mx - mn) / inject_Z n)%Q) in *.
  assert (Er' : (((mx - mn) + Qabs mn) / inject_Z (2 ^ 49) == r * s)%Q).
  { unfold r, s, a. change (inject_Z (2 ^ 49)) with (562949953421312 # 1)%Q. field. split; lra. }
  rewrite Er'. split.
  - assert ((- (1) - r) * s < (z - y) * s)%Q by (apply Qmult_lt_r; [exact PS|tauto]). lra.
  - assert ((z - y) * s <= r * s)%Q by (apply Qmult_le_r; [exact PS|tauto]). lra.
Qed.
(** ** monotone *)
Lemma fl_nonneg q : (0 <= q)%Q -> (0 <= fl q)%Q.
Proof. intros H. pose proof (fl_mono 0 q H) as M. exact M. Qed.
Lemma convert_mono n mn mx v v' k k' : 0 <= n -> (mn < mx)%Q -> (v <= v')%Q ->
  dbl_convert n mn mx v = Ok k -> dbl_convert n mn mx v' = Ok k' -> k <= k'.
Proof.
  intros Hn Hw Hv. destruct (width_pos mn mx Hw) as (_ & _ & _ & P0 & _). unfold dbl_convert. cbv zeta.
  destruct (Qeq_bool (fl (mx - mn)) 0) eqn:Z; [apply Qeq_bool_eq in Z; lra|]. intros E E'. injection E as <-. injection E' as <-.
  apply trunc_mono, fl_mono. unfold Qdiv. apply Qmult_le_compat_r; [|apply Qlt_le_weak, Qinv_lt_0_compat, P0]. apply fl_mono.
  rewrite !(Qmult_comm (fl (inject_Z n))). apply Qmult_le_compat_r; [apply fl_mono; lra|].
  apply fl_nonneg. change 0%Q with (inject_Z 0). rewrite <- Zle_Qle. exact Hn.
Qed.
Lemma back_mono n mn mx k k' v v' : 0 < n -> (mn < mx)%Q -> k <= k' ->
  dbl_convert_back n mn mx k = Ok v -> dbl_convert_back n mn mx k' = Ok v' -> (v <= v')%Q.
Proof.
  intros Hn Hw Hk. destruct (width_pos mn mx Hw) as (_ & _ & _ & P0 & _). unfold dbl_convert_back.
  destruct (n =? 0) eqn:Z; [apply Z.eqb_eq in Z; lia|]. intros E E'. injection E as <-. injection E' as <-.
  apply fl_mono. apply Qplus_le_compat; [|apply Qle_refl]. apply fl_mono. unfold Qdiv. apply Qmult_le_compat_r.
  - apply fl_mono, Qmult_le_compat_r; [apply fl_mono; rewrite <- Zle_Qle; exact Hk|lra].
  - apply Qinv_le_0_compat, fl_nonneg, Qlt_le_weak, inj_pos, Hn.
Qed.
(** ** powers of two steps on the unit interval are exact *)
Lemma unit_back j k : 0 <= j <= 53 -> 0 <= k <= 2 ^ 53 ->
  exists v, dbl_convert_back (2 ^ j) 0 1 k = Ok v /\ (v == k # Z.to_pos (2 ^ j))%Q.
Proof.
  intros Hj Hk. assert (P : 0 < 2 ^ j) by (apply Z.pow_pos_nonneg; lia). assert (B : 2 ^ j <= 2 ^ 53) by (apply Z.pow_le_mono_r; lia).
  unfold dbl_convert_back. destruct (2 ^ j =? 0) eqn:Z; [apply Z.eqb_eq in Z; lia|]. eexists. split; [reflexivity|].
  pose proof (fl_int (inject_Z k) k ltac:(reflexivity) ltac:(lia)) as Ek. pose proof (fl_int (inject_Z (2 ^ j)) (2 ^ j) ltac:(reflexivity) ltac:(lia)) as En.
  assert (E1 : (fl (1 - 0) == 1)%Q) by reflexivity.
  assert (E2 : (fl (fl (inject_Z k) * fl (1 - 0)) == inject_Z k)%Q) by (apply fl_int; [rewrite Ek, E1; ring|lia]).
  assert (Eq : (inject_Z k / inject_Z (2 ^ j) == k # Z.to_pos (2 ^ j))%Q).
  { destruct (2 ^ j) as [|p|p] eqn:X; try lia. unfold Qdiv, Qinv, inject_Z, Qmult, Qeq. cbn. lia. }
  assert (E3 : (fl (fl (fl (inject_Z k) * fl (1 - 0)) / fl (inject_Z (2 ^ j))) == k # Z.to_pos (2 ^ j))%Q).
  { rewrite (fl_comp _ (k # Z.to_pos (2 ^ j))); [apply fl_binary; lia|]. rewrite E2, En. exact Eq. }
  rewrite (fl_comp _ (k # Z.to_pos (2 ^ j))); [apply fl_binary; lia|]. rewrite E3. ring.
Qed.
Lemma unit_trip j k : 0 <= j <= 53 -> 0 <= k <= 2 ^ 53 -> dbl_trip (2 ^ j) 0 1 k = Ok k.
Proof.
  intros Hj Hk. destruct (unit_back j k Hj Hk) as (v & Ev & Hv). unfold dbl_trip. rewrite Ev. unfold dbl_convert.
  assert (P : 0 < 2 ^ j) by (apply Z.pow_pos_nonneg; lia). assert (B : 2 ^ j <= 2 ^ 53) by (apply Z.pow_le_mono_r; lia).
  change (Qeq_bool (fl (1 - 0)) 0) with false. cbv iota zeta. f_equal.
  pose proof (fl_int (inject_Z (2 ^ j)) (2 ^ j) ltac:(reflexivity) ltac:(lia)) as En.
  assert (E1 : (fl (v - 0) == k # Z.to_pos (2 ^ j))%Q) by (rewrite (fl_comp _ (k # Z.to_pos (2 ^ j))); [apply fl_binary; lia|rewrite Hv; ring]).
  assert (Eq : (k # Z.to_pos (2 ^ j) == inject_Z k / inject_Z (2 ^ j))%Q).
  { destruct (2 ^ j) as [|p|p] eqn:X; try lia. unfold Qdiv, Qinv, inject_Z, Qmult, Qeq. cbn. lia. }
  assert (PN : (0 < inject_Z (2 ^ j))%Q) by (apply inj_pos, P).
  assert (E2 : (fl (fl (inject_Z (2 ^ j)) * fl (v - 0)) == inject_Z k)%Q).
  { apply fl_int; [rewrite En, E1, Eq; field; lra|lia]. }
  rewrite (q_trunc_eq _ (inject_Z k)); [apply q_trunc_inject|]. apply fl_int; [assert (E3 : (fl (1 - 0) == 1)%Q) by reflexivity; rewrite E2, E3; field|lia].
Qed.

(** ** percents *)
Lemma percent_trip k : Z.abs k <= 2 ^ 49 ->
  let r := q_trunc (fl (fl (fl (inject_Z k) / 100) * 100)) in r = k \/ r = k - Z.sgn k.
Proof.
  intros Hk. cbv zeta. assert (B : 2 ^ 49 <= 2 ^ 53) by (apply Z.pow_le_mono_r; lia).
  pose proof (fl_int (inject_Z k) k ltac:(reflexivity) ltac:(lia)) as Ek.
  destruct (fl_rel (fl (inject_Z k) / 100)) as (e1 & H1 & E1). set (v := fl (fl (inject_Z k) / 100)) in *.
  destruct (fl_rel (v * 100)) as (e2 & H2 & E2). set (x := fl (v * 100)) in *.
  pose proof (rel_mul e1 e2 U U ltac:(discriminate) ltac:(discriminate) H1 H2) as R. set (d := ((1 + e1) * (1 + e2) - 1)%Q) in *.
  assert (Ex : (x - inject_Z k == inject_Z k * d)%Q) by (unfold d; rewrite E2, E1, Ek; field).
  assert (L : (Qabs (x - inject_Z k) < 1)%Q).
  { rewrite Ex, Qabs_Qmult. assert (A : (Qabs (inject_Z k) <= 562949953421312)%Q).
    { change (Qabs (inject_Z k)) with (inject_Z (Z.abs k)). change 562949953421312%Q with (inject_Z (2 ^ 49)). rewrite <- Zle_Qle. exact Hk. }
    eapply Qle_lt_trans; [apply Qmult_le_compat_nonneg; split; [apply Qabs_nonneg|exact A|apply Qabs_nonneg|exact R]|]. reflexivity. }
  destruct (Z_le_gt_dec 0 k) as [P|N].
  - destruct (trunc_near x k P L) as [T T0]. destruct (Z.eq_dec k 0) as [->|]; [left; lia|]. rewrite Z.sgn_pos by lia. lia.
  - assert (L' : (Qabs (- x - inject_Z (- k)) < 1)%Q).
    { rewrite inject_Z_opp. setoid_replace (- x - - inject_Z k)%Q with (- (x - inject_Z k))%Q by ring. rewrite Qabs_opp. exact L. }
    destruct (trunc_near (- x) (- k) ltac:(lia) L') as [T T0]. rewrite q_trunc_opp in T, T0. rewrite Z.sgn_neg by lia. lia.
Qed.
