(** Property C86: the ticks of a LogTicker. *)
From Coq Require Import String Ascii List ZArith Bool QArith Qabs Qround Qpower Lia Lqa Sorted Reals Qreals Lra.
From Verif Require Import PyBase Text_Model Float53_Model ConvFloat_Spec GeomPretty_Model GeomPretty_Spec GeomPretty_Proofs.
From Verif Require Import Fmt_Model Fmt_Spec Fmt_Proofs Ticker_Spec Ticker_Proofs LogTicker_Model LogTicker_Spec LogTicker_Proofs.
Import ListNotations.
Local Open Scope Z_scope.

Section C86.
  Variables (base : Z) (flog digit : Q -> Z) (pw : Q -> Q).
  Hypothesis B : 2 <= base.

  Lemma division_pos low high t r k mn mx nd subs : parts base flog digit pw low high t r k mn mx nd subs -> 1 <= t_division r.
  Proof. intros P. rewrite (p_div _ _ _ _ _ _ _ _ _ _ _ _ _ P). lia. Qed.
  Lemma parts_subs low high t r k mn mx nd subs : parts base flog digit pw low high t r k mn mx nd subs ->
    Forall (fun s => 2 <= s < base) subs /\ StronglySorted Z.lt subs /\ (subs <> [] -> (Qpower (inject_Z base) k == 1)%Q) /\ Forall (fun s => s <> 1) subs.
  Proof.
    intros P. destruct (p_subs _ _ _ _ _ _ _ _ _ _ _ _ _ P) as [ns ->]. destruct (subs_ok base B k ns) as (F & S & K). split; [exact F|]. split; [exact S|].
    split; [intros N; rewrite (K N); reflexivity|]. eapply Forall_impl; [|exact F]. cbn. lia.
  Qed.
  Lemma range_abs low high : (low <= high)%Q -> (Qabs (high - low) == high - low)%Q.
  Proof. intros H. apply Qabs_pos. Lqa.lra. Qed.
  Lemma floor_le_div low fb : (0 < fb)%Q -> (inject_Z (Qfloor (low / fb)) * fb <= low /\ low < inject_Z (Qfloor (low / fb) + 1) * fb)%Q.
  Proof.
    intros H. destruct (floor_multiple low fb H) as [A1 A2]. split; [exact A1|]. rewrite inject_Z_plus. change (inject_Z 1) with 1%Q. Lqa.lra.
  Qed.

  (** C86: the decades are evenly spaced and cover the limits; the unit is a power of the base not larger than the range *)
  Theorem logt_decades low high t : t <> 0 -> exact_flog base flog -> (low <= high)%Q ->
    exists r k m n, log_ticker base flog digit pw low high t = Ok r /\ t_precision r = Z.abs k /\
      majors (t_values r) = map (fun i => inject_Z (m + Z.of_nat i * t_division r) * Qpower (inject_Z base) k)%Q (seq 0 (S n)) /\
      (inject_Z m * Qpower (inject_Z base) k <= low /\ low < inject_Z (m + 1) * Qpower (inject_Z base) k)%Q /\
      (high <= inject_Z (m + Z.of_nat n * t_division r) * Qpower (inject_Z base) k)%Q /\ 1 <= t_division r /\
      (k <> 0 -> (Qpower (inject_Z base) k <= high - low /\ high - low < Qpower (inject_Z base) (k + 1))%Q).
  Proof.
    intros T L H.
    assert (O : exists r, log_ticker base flog digit pw low high t = Ok r).
    { unfold log_ticker. rewrite (proj2 (Z.eqb_neq t 0)) by exact T. destruct (add_decades _ _ _ _ _) as [vs ix]. eauto. }
    destruct O as [r O]. destruct (log_parts _ _ _ _ _ _ _ _ O) as (k & mn & mx & nd & subs & P).
    pose proof (division_pos _ _ _ _ _ _ _ _ _ P) as D. destruct (parts_subs _ _ _ _ _ _ _ _ _ P) as (F & S & K & _).
    set (fb := Qpower (inject_Z base) k) in *. assert (Hfb : (0 < fb)%Q) by (apply power_pos, B).
    pose proof (p_mn _ _ _ _ _ _ _ _ _ _ _ _ _ P) as Emn. pose proof (p_mx _ _ _ _ _ _ _ _ _ _ _ _ _ P) as Emx. fold fb in Emn, Emx.
    set (c := Qceiling (inject_Z (mx + t_division r - mn) / inject_Z (t_division r))).
    pose proof (ceil_bounds (mx + t_division r - mn) (t_division r) ltac:(lia)) as C. fold c in C.
    assert (C1 : 2 <= c) by nia.
    exists r, k, mn, (Z.to_nat (c - 1)). split; [exact O|]. split; [apply (p_prec _ _ _ _ _ _ _ _ _ _ _ _ _ P)|]. split.
    { rewrite (p_values _ _ _ _ _ _ _ _ _ _ _ _ _ P), (ticks_majors base _ subs F). unfold int_arange. rewrite map_map.
      fold c. replace (Z.to_nat c) with (Datatypes.S (Z.to_nat (c - 1))) by lia. reflexivity. }
    split; [rewrite Emn; apply floor_le_div, Hfb|]. split; [|split; [exact D|]].
    - rewrite Z2Nat.id by lia.
      assert (X : (high <= inject_Z mx * fb)%Q).
      { pose proof (Qle_ceiling (high / fb)) as A. assert (E : (high == high / fb * fb)%Q) by (field; intros Z0; rewrite Z0 in Hfb; discriminate Hfb).
        rewrite E. apply Qmult_le_compat_r; [|apply Qlt_le_weak, Hfb]. eapply Qle_trans; [exact A|]. rewrite <- Zle_Qle, Emx. lia. }
      eapply Qle_trans; [exact X|]. apply Qmult_le_compat_r; [|apply Qlt_le_weak, Hfb]. rewrite <- Zle_Qle. nia.
    - intros Kn. pose proof (p_k _ _ _ _ _ _ _ _ _ _ _ _ _ P) as Ek. unfold factor_exp in Ek.
      destruct (q_lt (Qabs (high - low)) (inject_Z (t - 2) / inject_Z base) && q_lt 0 (Qabs (high - low))) eqn:E; [|congruence].
      apply andb_prop in E as [_ E]. apply q_lt_iff in E. destruct (L _ E) as [L1 L2]. rewrite <- Ek in L1, L2. rewrite (range_abs _ _ H) in L1, L2. split; assumption.
  Qed.

  (** C86: every tick is s * base^x with 1 <= s < base, and the ticks increase *)
  Theorem logt_increasing low high t r : log_ticker base flog digit pw low high t = Ok r ->
    increasing (map (position base) (t_values r)) /\
    Forall (fun v => 1 <= snd v < base /\ (snd v = 1 -> position base v = Q2R (fst v))) (t_values r).
  Proof.
    intros O. destruct (log_parts _ _ _ _ _ _ _ _ O) as (k & mn & mx & nd & subs & P).
    pose proof (division_pos _ _ _ _ _ _ _ _ _ P) as D. destruct (parts_subs _ _ _ _ _ _ _ _ _ P) as (F & S & K & _).
    rewrite (p_values _ _ _ _ _ _ _ _ _ _ _ _ _ P). split.
    - apply (ticks_sorted base _ subs (t_division r) B (power_pos base k B) F S K D).
    - apply Forall_forall. intros (x, s) I. apply in_flat_map in I as (d & _ & I). cbn [fst snd]. split.
      + destruct I as [I|I]; [injection I as _ <-; lia|]. apply in_map_iff in I as (s' & E & I). injection E as _ <-. rewrite Forall_forall in F. specialize (F s' I). lia.
      + intros ->. rewrite position_sum, logb_one by lia. Lra.lra.
  Qed.

  (** C86: the minor tick indices are the indices of the ticks that are no powers of the base, in order *)
  Theorem logt_minor low high t r : log_ticker base flog digit pw low high t = Ok r ->
    StronglySorted lt (t_minor r) /\ forall i, In i (t_minor r) <-> exists x s, nth_error (t_values r) i = Some (x, s) /\ s <> 1.
  Proof.
    intros O. destruct (log_parts _ _ _ _ _ _ _ _ O) as (k & mn & mx & nd & subs & P). destruct (parts_subs _ _ _ _ _ _ _ _ _ P) as (_ & _ & _ & N).
    exact (p_minor _ _ _ _ _ _ _ _ _ _ _ _ _ P N).
  Qed.

  (** C86: not too many decades *)
  Theorem logt_count low high t r : 1 <= t -> (low <= high)%Q -> log_ticker base flog digit pw low high t = Ok r ->
    Z.of_nat (length (majors (t_values r))) <= Z.max (2 * t + 1) 6.
  Proof.
    intros T H O. destruct (log_parts _ _ _ _ _ _ _ _ O) as (k & mn & mx & nd & subs & P).
    pose proof (division_pos _ _ _ _ _ _ _ _ _ P) as D. destruct (parts_subs _ _ _ _ _ _ _ _ _ P) as (F & _).
    rewrite (p_values _ _ _ _ _ _ _ _ _ _ _ _ _ P), (ticks_majors base _ subs F), map_length. unfold int_arange. rewrite map_length, seq_length.
    pose proof (ceil_bounds (mx + t_division r - mn) (t_division r) ltac:(lia)) as C. set (c := Qceiling _) in *.
    pose proof (p_mx _ _ _ _ _ _ _ _ _ _ _ _ _ P) as Emx. pose proof (p_div _ _ _ _ _ _ _ _ _ _ _ _ _ P) as Ed. pose proof (p_nd _ _ _ _ _ _ _ _ _ _ _ _ _ P) as En.
    assert (N1 : 1 <= mx - mn) by lia.
    assert (Plain : nd = mx - mn -> c <= 2 * t + 1).
    { intros ->. set (N := mx - mn) in *. pose proof (Z.div_mod (N + 1) t ltac:(lia)) as M1. pose proof (Z.mod_pos_bound (N + 1) t ltac:(lia)) as M2.
      set (q := (N + 1) / t) in *. destruct (Z.le_gt_cases q 1) as [Q1|Q1].
      - rewrite Z.max_r in Ed by lia. rewrite Ed in *. nia.
      - rewrite Z.max_l in Ed by lia. rewrite Ed in *. assert (N < (q + 1) * t) by nia. nia. }
    assert (G : c <= Z.max (2 * t + 1) 6); [|lia].
    destruct (Z.eqb_spec k 0) as [->|K]; [|specialize (Plain En); lia].
    destruct (shrink_cases (Qabs (high - low)) (Z.to_nat (mx - mn)) (mx - mn)) as [E|(E1 & E2 & E3)]; [rewrite En, E in *; specialize (Plain eq_refl); lia|].
    assert (N5 : mx - mn <= 5).
    { rewrite (range_abs _ _ H) in E1. rewrite Z.abs_eq in E1 by lia.
      pose proof (p_mn _ _ _ _ _ _ _ _ _ _ _ _ _ P) as Emn. change (Qpower (inject_Z base) 0) with 1%Q in *.
      assert (I1 : (low / 1 == low)%Q) by field. assert (I2 : (high / 1 == high)%Q) by field. rewrite (Qfloor_comp _ _ I1) in Emn. rewrite (Qceiling_comp _ _ I2) in Emx.
      pose proof (Qceiling_lt high) as A. pose proof (Qlt_floor low) as A2. rewrite <- Emn in A2. rewrite inject_Z_plus in A2. change (inject_Z 1) with 1%Q in A2.
      assert (A3 : (inject_Z mx < high + 1)%Q \/ mx = mn + 1).
      { destruct (Z.max_spec (Qceiling high) (mn + 1)) as [[_ X]|[_ X]]; rewrite X in Emx; [right; exact Emx|left]. rewrite Emx. unfold Zminus in A. rewrite inject_Z_plus in A. change (inject_Z (- (1))) with (-1)%Q in A. Lqa.lra. }
      destruct A3 as [A3|A3]; [|lia].
      assert (A4 : (inject_Z (mx - mn) < inject_Z 6)%Q). { unfold Zminus in *. rewrite inject_Z_plus, inject_Z_opp in *. change (inject_Z 6) with 6%Q. Lqa.lra. }
      rewrite <- Zlt_Qlt in A4. lia. }
    nia.
  Qed.

  (** C86: labels: one per tick, the value to as many digits as the precision; exactly the value in decades of base 10 *)
  Theorem logt_labels low high t r : log_ticker base flog digit pw low high t = Ok r ->
    length (t_labels r) = length (t_values r) /\
    forall i x s l, nth_error (t_values r) i = Some (x, s) -> nth_error (t_labels r) i = Some l ->
      exists q, says l q /\ rounded_digits (t_precision r + 1) (inject_Z s * pw x) q.
  Proof.
    intros O. destruct (log_parts _ _ _ _ _ _ _ _ O) as (k & mn & mx & nd & subs & P). rewrite (p_labels _ _ _ _ _ _ _ _ _ _ _ _ _ P).
    split; [apply map_length|]. intros i x s l V Hl. rewrite nth_error_map, V in Hl. injection Hl as <-. unfold log_label. cbn [fst snd].
    destruct (e_reads (Z.to_nat (Z.abs k)) (inject_Z s * pw x)) as (q & A1 & A2). exists q. split; [exact A1|].
    rewrite (p_prec _ _ _ _ _ _ _ _ _ _ _ _ _ P). rewrite Z2Nat.id in A2 by lia. exact A2.
  Qed.
  Theorem logt_labels_exact low high t r : base = 10 -> (forall x z, (x == inject_Z z)%Q -> (pw x == Qpower (10 # 1) z)%Q) ->
    log_ticker base flog digit pw low high t = Ok r -> t_precision r = 0 ->
    forall i x s l, nth_error (t_values r) i = Some (x, s) -> nth_error (t_labels r) i = Some l ->
      exists z, (x == inject_Z z)%Q /\ says l (inject_Z s * Qpower (10 # 1) z).
  Proof.
    intros B10 Hpw O P0 i x s l V Hl. destruct (log_parts _ _ _ _ _ _ _ _ O) as (k & mn & mx & nd & subs & P). rewrite (p_labels _ _ _ _ _ _ _ _ _ _ _ _ _ P) in Hl.
    rewrite (p_prec _ _ _ _ _ _ _ _ _ _ _ _ _ P) in P0. assert (k = 0) by lia. subst k.
    destruct (logt_increasing low high t r O) as [_ Fs]. rewrite Forall_forall in Fs. destruct (Fs _ (nth_error_In _ _ V)) as [Hs _]. cbn [fst snd] in Hs.
    rewrite nth_error_map, V in Hl. injection Hl as <-. unfold log_label. cbn [fst snd]. change (Z.to_nat (Z.abs 0)) with 0%nat.
    assert (X : exists z, (x == inject_Z z)%Q).
    { apply nth_error_In in V. rewrite (p_values _ _ _ _ _ _ _ _ _ _ _ _ _ P) in V. apply in_flat_map in V as (d & _ & I). exists d. change (Qpower (inject_Z base) 0) with 1%Q in I.
      destruct I as [I|I]; [injection I as <- _; ring|]. apply in_map_iff in I as (s' & E & _). injection E as <- _. ring. }
    destruct X as [z X]. exists z. split; [exact X|].
    apply (numeral_eq _ _ (inject_Z s * pw x)%Q); [rewrite (Hpw x z X); reflexivity|]. apply e_exact. right. exists s, z. split; [rewrite (Hpw x z X), Z.sub_0_r; reflexivity|].
    unfold leading. change (Qpower (10 # 1)) with ten. rewrite Qabs_Qmult, (Hpw x z X). change (Qpower (10 # 1)) with ten. rewrite (Qabs_pos (ten z)) by (apply Qlt_le_weak, ten_pos).
    change (Qabs (inject_Z s)) with (inject_Z (Z.abs s)). rewrite Z.abs_eq by lia. pose proof (ten_pos z) as Tp. rewrite ten_succ. split.
    - rewrite <- (Qmult_1_l (ten z)) at 1. apply Qmult_le_compat_r; [|apply Qlt_le_weak, Tp]. change 1%Q with (inject_Z 1). rewrite <- Zle_Qle. lia.
    - apply Qmult_lt_r; [exact Tp|]. change 10%Q with (inject_Z 10). rewrite <- Zlt_Qlt. lia.
  Qed.

  Lemma value_rat x : value base (LV x 0 1) = Q2R x.
  Proof. unfold value. cbn. rewrite RMicromega.Q2R_0. Lra.lra. Qed.
  Lemma value_comp a b n x y : (x == a)%Q -> (y == b)%Q -> value base (LV x y n) = value base (LV a b n).
  Proof. intros E1 E2. unfold value. cbn. rewrite (Qeq_eqR _ _ E1), (Qeq_eqR _ _ E2). reflexivity. Qed.

  (** C86: the reported maximum is not below the upper limit, if the unit is not 1, or there are minor ticks, or rounding the
      limits to whole decades lengthens the range by not more than one half *)
  Theorem logt_maximum low high t r : exact_digit base digit -> (low <= high)%Q -> log_ticker base flog digit pw low high t = Ok r ->
    t_precision r <> 0 \/ t_minor r <> [] \/ (inject_Z (Qceiling high - Qfloor low) <= (3 # 2) * (high - low))%Q ->
    (Q2R high <= value base (t_max r))%R.
  Proof.
    intros Dg H O C. destruct (log_parts _ _ _ _ _ _ _ _ O) as (k & mn & mx & nd & subs & P).
    destruct (parts_subs _ _ _ _ _ _ _ _ _ P) as (F & _ & K & N1). pose proof (p_minor _ _ _ _ _ _ _ _ _ _ _ _ _ P N1) as [_ Mi].
    rewrite (p_prec _ _ _ _ _ _ _ _ _ _ _ _ _ P) in C. rewrite (p_top _ _ _ _ _ _ _ _ _ _ _ _ _ P). cbv zeta. set (fb := Qpower (inject_Z base) k) in *.
    assert (Hfb : (0 < fb)%Q) by (apply power_pos, B).
    pose proof (p_mn _ _ _ _ _ _ _ _ _ _ _ _ _ P) as Emn. pose proof (p_mx _ _ _ _ _ _ _ _ _ _ _ _ _ P) as Emx. pose proof (p_nd _ _ _ _ _ _ _ _ _ _ _ _ _ P) as En. fold fb in Emn, Emx.
    assert (Xmx : (high <= inject_Z mx * fb)%Q).
    { pose proof (Qle_ceiling (high / fb)) as A. assert (E : (high == high / fb * fb)%Q) by (field; intros Z0; rewrite Z0 in Hfb; discriminate Hfb).
      rewrite E. apply Qmult_le_compat_r; [|apply Qlt_le_weak, Hfb]. eapply Qle_trans; [exact A|]. rewrite <- Zle_Qle, Emx. lia. }
    assert (Plain : forall m, (high <= inject_Z m * fb)%Q -> (Q2R high <= value base (LV (inject_Z m * fb) (0 * fb) 1))%R).
    { intros m Hm. rewrite (value_comp (inject_Z m * fb) 0 1) by (reflexivity || ring). rewrite value_rat. apply Qle_Rle, Hm. }
    destruct subs as [|s0 ss] eqn:Es.
    - cbn [rat coef arg]. apply Plain. destruct (Z.eqb_spec k 0) as [->|Kn]; [|exact Xmx].
      (* no minor ticks, unit 1 *)
      destruct C as [C|[C|C]]; [lia| |].
      { exfalso. destruct (t_minor r) as [|i ix] eqn:Em; [congruence|]. destruct (proj1 (Mi i) (or_introl eq_refl)) as (x & s & V & Ns).
        apply nth_error_In in V. rewrite (p_values _ _ _ _ _ _ _ _ _ _ _ _ _ P) in V. apply in_flat_map in V as (d & _ & [V|[]]). injection V as _ <-. congruence. }
      change fb with 1%Q in *. assert (I1 : (low / 1 == low)%Q) by field. assert (I2 : (high / 1 == high)%Q) by field. rewrite (Qfloor_comp _ _ I1) in Emn. rewrite (Qceiling_comp _ _ I2) in Emx.
      set (cl := Qceiling high) in *. rewrite <- Emn in C.
      destruct (Z.le_gt_cases (mn + 1) cl) as [Le|Gt].
      + rewrite Z.max_l in Emx by lia. subst mx. destruct (shrink_cases (Qabs (high - low)) (Z.to_nat (cl - mn)) (cl - mn)) as [E|(E & _ & _)].
        * rewrite En, E. replace (mn + (cl - mn)) with cl by lia. exact Xmx.
        * exfalso. rewrite (range_abs _ _ H) in E. rewrite Z.abs_eq in E by lia. Lqa.lra.
      + (* the limits are equal and whole *)
        assert (Fl : (inject_Z mn <= low)%Q) by (rewrite Emn; apply Qfloor_le). assert (Cl : (high <= inject_Z cl)%Q) by apply Qle_ceiling.
        assert (Le2 : (inject_Z cl <= inject_Z mn)%Q) by (rewrite <- Zle_Qle; lia).
        assert (Nn : 0 <= nd) by (rewrite En; apply shrink_nonneg; lia).
        assert (Nq : (inject_Z mn <= inject_Z (mn + nd))%Q) by (rewrite <- Zle_Qle; lia). rewrite Qmult_1_r. Lqa.lra.
    - assert (K0 : k = 0). { destruct (p_subs _ _ _ _ _ _ _ _ _ _ _ _ _ P) as [ns Ens]. destruct (subs_ok base B k ns) as (_ & _ & X). apply X. rewrite <- Ens. discriminate. }
      subst k. cbn [Z.eqb]. change fb with 1%Q in *.
      destruct (q_le (inject_Z (mn + nd)) high) eqn:Q; cbn [rat coef arg].
      + set (hf := Qfloor high) in *. set (f := (high - inject_Z hf)%Q).
        assert (F0 : (0 <= f)%Q) by (unfold f; pose proof (Qfloor_le high); fold hf in H0; Lqa.lra).
        assert (F1 : (f < 1)%Q) by (unfold f; pose proof (Qlt_floor high) as X; fold hf in X; rewrite inject_Z_plus in X; change (inject_Z 1) with 1%Q in X; Lqa.lra).
        destruct (Dg f F0 F1) as [D1 D2]. rewrite (value_comp (inject_Z hf) 1) by ring. unfold value. cbn [rat coef arg]. rewrite RMicromega.Q2R_1, Rmult_1_l.
        assert (Lf : (Q2R f < logb base (IZR (digit f + 1)))%R).
        { replace (Q2R f) with (logb base (Rpower (IZR base) (Q2R f))).
          - apply logb_lt; [exact B|apply exp_pos|exact D2].
          - unfold logb, Rpower. rewrite ln_exp. pose proof (ln_base_pos base B). field. Lra.lra. }
        assert (Eh : Q2R high = (Q2R (inject_Z hf) + Q2R f)%R) by (rewrite <- Q2R_plus; apply Qeq_eqR; unfold f; ring).
        rewrite Eh. Lra.lra.
      + apply Plain. apply q_le_false in Q. rewrite Qmult_1_r. Lqa.lra.
  Qed.
  (** C86: the reported minimum is one percent below the lower limit *)
  Theorem logt_minimum low high t r : log_ticker base flog digit pw low high t = Ok r ->
    (value base (t_min r) = Q2R low - (value base (t_max r) - Q2R low) / 100)%R.
  Proof.
    intros O. destruct (log_parts _ _ _ _ _ _ _ _ O) as (k & mn & mx & nd & subs & P). rewrite (p_bottom _ _ _ _ _ _ _ _ _ _ _ _ _ P).
    unfold value. cbn [rat coef arg]. rewrite Q2R_minus, !Q2R_mult, Q2R_minus, Q2R_opp. replace (Q2R (1 # 100)) with (/ 100)%R by (unfold Q2R; cbn; Lra.lra). Lra.lra.
  Qed.
End C86.
(** C86, finding: the reported maximum can be below the upper limit *)
Theorem logt_maximum_refuted flog digit pw :
  exists r, log_ticker 10 flog digit pw (19 # 20) (7 # 2) 5 = Ok r /\ value 10 (t_max r) = 3%R /\ (3 < Q2R (7 # 2))%R.
Proof.
  eexists. split; [reflexivity|]. cbn [t_max].
  match goal with |- value 10 ?v = _ /\ _ => replace v with (LV 3 0 1) by (vm_compute; reflexivity) end.
  unfold value, Q2R. cbn. split; Lra.lra.
Qed.
(** C86, finding: for equal limits the maximum can be below and the minimum above them *)
Theorem logt_equal_refuted flog digit pw :
  exists r, log_ticker 10 flog digit pw (5 # 2) (5 # 2) 5 = Ok r /\ value 10 (t_max r) = 2%R /\ (Q2R (5 # 2) < value 10 (t_min r))%R.
Proof.
  eexists. split; [reflexivity|]. cbn [t_max t_min].
  match goal with |- value 10 ?v = _ /\ (_ < value 10 ?w)%R => let v' := eval vm_compute in v in let w' := eval vm_compute in w in replace v with v' by (vm_compute; reflexivity); replace w with w' by (vm_compute; reflexivity) end.
  unfold value, Q2R. cbn. split; Lra.lra.
Qed.

Print Assumptions logt_decades.
Print Assumptions logt_increasing.
Print Assumptions logt_minor.
Print Assumptions logt_count.
Print Assumptions logt_labels.
Print Assumptions logt_labels_exact.
Print Assumptions logt_maximum.
Print Assumptions logt_minimum.
Print Assumptions logt_maximum_refuted.
Print Assumptions logt_equal_refuted.

Definition ten_pow (x : Q) : Q := Qpower (10 # 1) (Qfloor x).
Example logt_case : exists r, log_ticker 10 log10_floor (fun _ => 1) ten_pow 0 8 3 = Ok r /\
  t_labels r = [lit "1e+00"; lit "1e+03"; lit "1e+06"; lit "1e+09"] /\ t_minor r = [] /\ t_division r = 3.
Proof. eexists. split; [vm_compute; reflexivity|]. vm_compute. auto. Qed.
Example logt_subs : exists r, log_ticker 10 log10_floor (fun _ => 6) ten_pow (1 # 4) (9 # 5) 5 = Ok r /\
  t_labels r = [lit "1e+00"; lit "5e+00"; lit "1e+01"; lit "5e+01"; lit "1e+02"; lit "5e+02"] /\ t_minor r = [1; 3; 5]%nat.
Proof. eexists. split; [vm_compute; reflexivity|]. vm_compute. auto. Qed.
Example logt_digit_exists b : exact_digit b (fun f => Int_part (Rpower (IZR b) (Q2R f))).
Proof. intros f _ _. destruct (base_Int_part (Rpower (IZR b) (Q2R f))) as [H1 H2]. rewrite plus_IZR. split; Lra.lra. Qed.
Example logt_log_exists : exact_flog 10 log10_floor.
Proof. exact log10_floor_exact. Qed.
