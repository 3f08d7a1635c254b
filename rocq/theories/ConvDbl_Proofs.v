From Coq Require Import ZArith QArith Qabs Bool Lia Lqa.
From Verif Require Import PyBase ConvNum_Model ConvNum_Proofs Float53_Model Float53_Proofs Float53_Proofs2 ConvDbl_Model ConvDbl_Spec.
Local Open Scope Z_scope.

Definition U : Q := 1 # 9007199254740992.
Lemma U_def : U = 1 # Z.to_pos (2 ^ 53). Proof. reflexivity. Qed.

(** ** relative errors *)
Lemma fl_rel q : exists e, (Qabs e <= U)%Q /\ (fl q == q * (1 + e))%Q.
Proof.
  pose proof (fl_error q) as E. rewrite <- U_def in E. destruct (Qeq_dec q 0) as [Z|NZ].
  - exists 0%Q. split; [unfold U, Qle; simpl; lia|]. rewrite (fl_comp q 0 Z). rewrite Z. reflexivity.
  - exists ((fl q - q) / q)%Q. split.
    + unfold Qdiv. rewrite Qabs_Qmult, Qabs_Qinv.
      assert (P : (0 < Qabs q)%Q).
      { apply Qnot_le_lt. intros H. apply NZ. pose proof (Qabs_nonneg q). assert (Qabs q == 0)%Q by lra. revert H1. apply Qabs_case; intros; lra. }
      apply (Qmult_le_r _ _ (Qabs q) P). rewrite <- Qmult_assoc, (Qmult_comm (/ Qabs q)), Qmult_inv_r by lra. lra.
    + field. exact NZ.
Qed.
Lemma abs_range e b : (Qabs e <= b)%Q <-> (- b <= e /\ e <= b)%Q.
Proof. split; [intros H; apply Qabs_Qle_condition in H; exact H|intros H; apply Qabs_Qle_condition; exact H]. Qed.
Lemma rel_mul a b A B : (0 <= A -> 0 <= B -> Qabs a <= A -> Qabs b <= B -> Qabs ((1 + a) * (1 + b) - 1) <= A + B + A * B)%Q.
Proof.
  intros HA HB Ha Hb. setoid_replace ((1 + a) * (1 + b) - 1)%Q with (a + b + a * b)%Q by ring.
  eapply Qle_trans; [apply Qabs_triangle|]. apply Qplus_le_compat; [eapply Qle_trans; [apply Qabs_triangle|]; lra|].
  rewrite Qabs_Qmult. apply Qmult_le_compat_nonneg; split; try assumption; apply Qabs_nonneg.
Qed.
Lemma rel_inv e : (Qabs e <= U -> Qabs (/ (1 + e) - 1) <= 2 * U)%Q.
Proof.
  intros H. apply abs_range in H. destruct H as [H1 H2].
  assert (P : (1 # 2 <= 1 + e)%Q) by (unfold U in *; lra).
  setoid_replace (/ (1 + e) - 1)%Q with (- e / (1 + e))%Q by (field; lra). unfold Qdiv. rewrite Qabs_Qmult, Qabs_Qinv, Qabs_opp.
  rewrite (Qabs_pos (1 + e)) by lra. fold (Qdiv (Qabs e) (1 + e)). apply Qle_shift_div_r; [lra|].
  assert (Qabs e <= U)%Q by (apply abs_range; split; assumption). unfold U in *. nra.
Qed.
(** the factor of a product of four correctly rounded operations, one of them in the denominator *)
Lemma rel_three e1 e2 e3 : (Qabs e1 <= U -> Qabs e2 <= U -> Qabs e3 <= U -> Qabs ((1 + e1) * (1 + e2) * (1 + e3) - 1) <= 4 * U)%Q.
Proof.
  intros H1 H2 H3. pose proof (rel_mul e1 e2 U U ltac:(discriminate) ltac:(discriminate) H1 H2) as A.
  set (d := ((1 + e1) * (1 + e2) - 1)%Q) in *. setoid_replace ((1 + e1) * (1 + e2) * (1 + e3) - 1)%Q with ((1 + d) * (1 + e3) - 1)%Q by (unfold d; ring).
  eapply Qle_trans; [apply (rel_mul d e3 (U + U + U * U) U); [discriminate|discriminate|exact A|exact H3]|]. vm_compute. discriminate.
Qed.
Lemma rel_four e0 e1 e2 e3 : (Qabs e0 <= U -> Qabs e1 <= U -> Qabs e2 <= U -> Qabs e3 <= U ->
  Qabs ((1 + e1) * (1 + e2) * (1 + e3) / (1 + e0) - 1) <= 7 * U)%Q.
Proof.
  intros H0 H1 H2 H3. pose proof (rel_three e1 e2 e3 H1 H2 H3) as A. pose proof (rel_inv e0 H0) as B.
  set (d := ((1 + e1) * (1 + e2) * (1 + e3) - 1)%Q) in *. set (g := (/ (1 + e0) - 1)%Q) in *.
  setoid_replace ((1 + e1) * (1 + e2) * (1 + e3) / (1 + e0) - 1)%Q with ((1 + d) * (1 + g) - 1)%Q by (unfold d, g, Qdiv; ring).
  eapply Qle_trans; [apply (rel_mul d g (4 * U) (2 * U)); [discriminate|discriminate|exact A|exact B]|]. vm_compute. discriminate.
Qed.

(** ** the two computations *)
Lemma inj_pos n : 0 < n -> (0 < inject_Z n)%Q.
Proof. intros H. unfold Qlt, inject_Z. simpl. lia. Qed.
Lemma width_pos mn mx : (mn < mx)%Q -> exists e, (Qabs e <= U)%Q /\ (fl (mx - mn) == (mx - mn) * (1 + e))%Q /\ (0 < fl (mx - mn))%Q /\ (0 < 1 + e)%Q.
Proof.
  intros H. destruct (fl_rel (mx - mn)) as (e & He & E). exists e. split; [exact He|]. split; [exact E|].
  assert (P : (0 < 1 + e)%Q) by (apply abs_range in He; unfold U in He; lra). split; [|exact P].
  rewrite E. setoid_replace 0%Q with ((mx - mn) * 0)%Q by ring. apply Qmult_lt_l; lra.
Qed.
Lemma convert_value n mn mx v : 0 < n <= 2 ^ 53 -> (mn < mx)%Q ->
  exists x, dbl_convert n mn mx v = Ok (q_trunc x) /\
    (Qabs (x - inject_Z n * (v - mn) / (mx - mn)) <= 7 * U * Qabs (inject_Z n * (v - mn) / (mx - mn)))%Q.
Proof.
  intros Hn Hw. destruct (width_pos mn mx Hw) as (e0 & He0 & E0 & P0 & P1).
  unfold dbl_convert. cbv zeta. destruct (Qeq_bool (fl (mx - mn)) 0) eqn:Z; [apply Qeq_bool_eq in Z; lra|].
  eexists. split; [reflexivity|]. set (w := fl (mx - mn)) in *.
  pose proof (fl_int (inject_Z n) n ltac:(reflexivity) ltac:(lia)) as En. set (N := inject_Z n) in *.
  destruct (fl_rel (v - mn)) as (e1 & He1 & E1). set (d := fl (v - mn)) in *.
  destruct (fl_rel (fl N * d)) as (e2 & He2 & E2). set (p := fl (fl N * d)) in *.
  destruct (fl_rel (p / w)) as (e3 & He3 & E3). set (x := fl (p / w)) in *.
  assert (Ex : (x == (N * (v - mn) / (mx - mn)) * ((1 + e1) * (1 + e2) * (1 + e3) / (1 + e0)))%Q).
  { rewrite E3, E2, En, E1, E0. field. split; lra. }
  set (y := (N * (v - mn) / (mx - mn))%Q) in *. set (r := ((1 + e1) * (1 + e2) * (1 + e3) / (1 + e0))%Q) in *.
  setoid_replace (x - y)%Q with ((r - 1) * y)%Q by (rewrite Ex; ring). rewrite Qabs_Qmult.
  apply Qmult_le_compat_r; [|apply Qabs_nonneg]. apply rel_four; assumption.
Qed.
Lemma back_value n mn mx k : 0 < n <= 2 ^ 53 -> 0 <= k <= 2 ^ 53 -> (mn < mx)%Q ->
  exists v, dbl_convert_back n mn mx k = Ok v /\
    (Qabs (v - (mn + inject_Z k * (mx - mn) / inject_Z n)) <= 6 * U * (inject_Z k * (mx - mn) / inject_Z n) + U * Qabs mn)%Q.
Proof.
  intros Hn Hk Hw. destruct (width_pos mn mx Hw) as (e0 & He0 & E0 & P0 & P1).
  unfold dbl_convert_back. destruct (n =? 0) eqn:Z; [apply Z.eqb_eq in Z; lia|].
  eexists. split; [reflexivity|]. set (w := fl (mx - mn)) in *.
  pose proof (fl_int (inject_Z n) n ltac:(reflexivity) ltac:(lia)) as En.
  pose proof (fl_int (inject_Z k) k ltac:(reflexivity) ltac:(lia)) as Ek.
  pose proof (inj_pos n ltac:(lia)) as PN. set (N := inject_Z n) in *.
  assert (PK : (0 <= inject_Z k)%Q) by (unfold Qle, inject_Z; simpl; lia). set (K := inject_Z k) in *.
  destruct (fl_rel (fl K * w)) as (e1 & He1 & E1). set (p := fl (fl K * w)) in *.
  destruct (fl_rel (p / fl N)) as (e2 & He2 & E2). set (d := fl (p / fl N)) in *.
  destruct (fl_rel (d + mn)) as (e3 & He3 & E3). set (v := fl (d + mn)) in *.
  set (t := (K * (mx - mn) / N)%Q) in *.
  assert (Pt : (0 <= t)%Q). { unfold t, Qdiv. apply Qmult_le_0_compat; [apply Qmult_le_0_compat; lra|]. apply Qlt_le_weak, Qinv_lt_0_compat, PN. }
  assert (Ed : (d == t * ((1 + e0) * (1 + e1) * (1 + e2)))%Q).
  { unfold t. rewrite E2, E1, En, Ek, E0. field. lra. }
  pose proof (rel_three e0 e1 e2 He0 He1 He2) as R. set (r := ((1 + e0) * (1 + e1) * (1 + e2))%Q) in *.
  setoid_replace (v - (mn + t))%Q with (t * (r - 1) + e3 * (t * r) + e3 * mn)%Q by (rewrite E3, Ed; ring).
  eapply Qle_trans; [apply Qabs_triangle|]. apply Qplus_le_compat.
  - eapply Qle_trans; [apply Qabs_triangle|]. rewrite !Qabs_Qmult. rewrite (Qabs_pos t) by exact Pt.
    assert (Rr : (Qabs r <= 2)%Q).
    { setoid_replace r with (1 + (r - 1))%Q by ring. eapply Qle_trans; [apply Qabs_triangle|]. change (Qabs 1) with 1%Q. unfold U in *. lra. }
    assert (A1 : (t * Qabs (r - 1) <= t * (4 * U))%Q) by (rewrite !(Qmult_comm t); apply Qmult_le_compat_r; assumption).
    assert (A2 : (Qabs e3 * (t * Qabs r) <= U * (t * 2))%Q).
    { apply Qmult_le_compat_nonneg; split; [apply Qabs_nonneg|exact He3|apply Qmult_le_0_compat; [exact Pt|apply Qabs_nonneg]|].
      rewrite !(Qmult_comm t). apply Qmult_le_compat_r; assumption. }
    lra.
  - rewrite Qabs_Qmult. apply Qmult_le_compat_r; [exact He3|apply Qabs_nonneg].
Qed.
