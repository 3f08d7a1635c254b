From Coq Require Import String Ascii List ZArith Bool QArith Qabs Qround Qpower Lia Lqa Sorted Reals Qreals Lra.
From Verif Require Import PyBase Text_Model Float53_Model Float53_Proofs GeomPretty_Model GeomPretty_Proofs Fmt_Model Fmt_Spec Fmt_Proofs LogTicker_Model LogTicker_Spec.
Import ListNotations.
Local Open Scope Z_scope.

(** ** integer ranges *)
Lemma ceil_div n d : 0 < d -> Qceiling (inject_Z n / inject_Z d) = - ((- n) / d).
Proof.
  intros H. unfold Qceiling. f_equal. unfold Qdiv, Qinv. cbn. destruct d as [|d|d]; try lia. cbn.
  unfold Qfloor, Qopp, Qmult, inject_Z. cbn. rewrite Z.mul_1_r. reflexivity.
Qed.
Lemma ceil_bounds n d : 0 < d -> n <= Qceiling (inject_Z n / inject_Z d) * d < n + d.
Proof.
  intros H. rewrite ceil_div by exact H. pose proof (Z.div_mod (- n) d ltac:(lia)). pose proof (Z.mod_pos_bound (- n) d H). nia.
Qed.
Lemma arange_in a b d x : 0 < d -> In x (int_arange a b d) -> a <= x < b /\ exists i, 0 <= i /\ x = a + i * d.
Proof.
  intros H I. unfold int_arange in I. apply in_map_iff in I as (i & <- & I). apply in_seq in I.
  pose proof (ceil_bounds (b - a) d H). split; [nia|]. exists (Z.of_nat i). lia.
Qed.
Lemma map_seq_sorted (f : nat -> Z) n : (forall i j, (i < j)%nat -> f i < f j) -> forall a, StronglySorted Z.lt (map f (seq a n)).
Proof.
  intros H. induction n as [|n IH]; intros a; cbn; constructor; [apply IH|]. apply Forall_forall. intros x I.
  apply in_map_iff in I as (j & <- & I). apply in_seq in I. apply H. lia.
Qed.
Lemma arange_sorted a b d : 0 < d -> StronglySorted Z.lt (int_arange a b d).
Proof. intros H. apply map_seq_sorted. intros. nia. Qed.

Section Subs.
  Variable base : Z.
  Hypothesis B : 2 <= base.
  Lemma half_bounds : 3 <= base -> 2 <= nearest (inject_Z base * (1 # 2)) < base.
  Proof.
    intros H. destruct (nearest_rounded (inject_Z base * (1 # 2))) as (n & _ & E & _). apply Qabs_Qle_condition in E as [E1 E2].
    set (m := nearest _) in *. assert (X : (inject_Z (2 * m) <= inject_Z (base + 1))%Q) by (rewrite inject_Z_mult, inject_Z_plus; change (inject_Z 2) with 2%Q; change (inject_Z 1) with 1%Q; Lqa.lra).
    assert (Y : (inject_Z (base - 1) <= inject_Z (2 * m))%Q) by (unfold Zminus; rewrite inject_Z_mult, inject_Z_plus; change (inject_Z 2) with 2%Q; change (inject_Z (- (1))) with (-1)%Q; Lqa.lra).
    rewrite <- Zle_Qle in X, Y. split; [|lia].
    destruct (Z.eq_dec base 3) as [E3|E3]; [|lia]. subst base. subst m. vm_compute. congruence.
  Qed.
  Lemma subs_ok k ns : Forall (fun s => 2 <= s < base) (sub_ticks base k ns) /\ StronglySorted Z.lt (sub_ticks base k ns) /\ (sub_ticks base k ns <> [] -> k = 0).
  Proof.
    unfold sub_ticks. destruct (Z.eqb_spec k 0) as [->|K]; simpl negb; cbv iota.
    2:{ split; [constructor|]. split; [constructor|congruence]. }
    assert (A : forall d, 0 < d -> Forall (fun s => 2 <= s < base) (int_arange 2 base d)).
    { intros d Hd. apply Forall_forall. intros s I. apply arange_in in I; [|exact Hd]. lia. }
    split; [|split; [|reflexivity]].
    - destruct (q_le (inject_Z (base - 2)) ns) eqn:E1; [apply A; lia|]. destruct (q_le (inject_Z (base - 2) * (1 # 2)) ns) eqn:E2; [apply A; lia|]. destruct (q_le (inject_Z (base - 2) * (1 # 4)) ns) eqn:E3; [|constructor].
      constructor; [|constructor]. apply half_bounds. destruct (Z.eq_dec base 2) as [E|E]; [|lia]. exfalso. subst base.
      unfold q_le in *. change (inject_Z (2 - 2)) with 0%Q in *. apply Qle_bool_iff in E3.
      assert (X : (0 <= ns)%Q) by (eapply Qle_trans; [|exact E3]; vm_compute; congruence). apply Qle_bool_iff in X. congruence.
    - destruct (q_le (inject_Z (base - 2)) ns); [apply arange_sorted; lia|]. destruct (q_le (inject_Z (base - 2) * (1 # 2)) ns); [apply arange_sorted; lia|]. destruct (q_le (inject_Z (base - 2) * (1 # 4)) ns); repeat constructor.
  Qed.
End Subs.

(** ** the tick list *)
Definition group (fb : Q) (subs : list Z) (d : Z) : list (Q * Z) := ((inject_Z d * fb)%Q, 1) :: map (fun s => ((inject_Z d * fb)%Q, s)) subs.
Lemma add_subs_values x subs : forall vs ix, fst (add_subs x subs vs ix) = vs ++ map (fun s => (x, s)) subs.
Proof. induction subs as [|s r IH]; intros; cbn; [symmetry; apply app_nil_r|]. rewrite IH, <- app_assoc. reflexivity. Qed.
Lemma add_decades_values fb subs ds : forall vs ix, fst (add_decades fb subs ds vs ix) = vs ++ flat_map (group fb subs) ds.
Proof.
  induction ds as [|d r IH]; intros vs ix; cbn [add_decades flat_map]; [symmetry; apply app_nil_r|].
  destruct (add_subs (inject_Z d * fb) subs (vs ++ [((inject_Z d * fb)%Q, 1)]) ix) as [vs' ix'] eqn:E.
  rewrite IH. pose proof (add_subs_values (inject_Z d * fb) subs (vs ++ [((inject_Z d * fb)%Q, 1)]) ix) as X. rewrite E in X. cbn in X. subst vs'.
  rewrite <- !app_assoc. reflexivity.
Qed.

Definition minors_are (vs : list (Q * Z)) (ix : list nat) : Prop :=
  StronglySorted lt ix /\ forall i, In i ix <-> exists x s, nth_error vs i = Some (x, s) /\ s <> 1.
Lemma minors_bound vs ix : minors_are vs ix -> Forall (fun i => (i < length vs)%nat) ix.
Proof. intros [_ H]. apply Forall_forall. intros i I. apply H in I as (x & s & E & _). apply nth_error_Some. congruence. Qed.
Lemma sorted_snoc ix n : StronglySorted lt ix -> Forall (fun i => (i < n)%nat) ix -> StronglySorted lt (ix ++ [n]).
Proof.
  induction 1 as [|a l S IH F]; intros H; cbn; [repeat constructor|]. inversion H as [|? ? H1 H2]; subst. constructor; [apply IH, H2|].
  apply Forall_app. split; [exact F|repeat constructor; exact H1].
Qed.
Lemma nth_snoc {A} (l : list A) a i y : nth_error (l ++ [a]) i = Some y <-> nth_error l i = Some y \/ (i = length l /\ y = a).
Proof.
  split.
  - intros H. destruct (lt_dec i (length l)) as [L|L]; [rewrite nth_error_app1 in H by exact L; auto|].
    rewrite nth_error_app2 in H by lia. destruct (i - length l)%nat as [|j] eqn:E; [injection H as <-; right; split; [lia|reflexivity]|destruct j; discriminate].
  - intros [H|[-> ->]]; [rewrite nth_error_app1; [exact H|apply nth_error_Some; congruence]|rewrite nth_error_app2, Nat.sub_diag by lia; reflexivity].
Qed.
Lemma add_major vs ix x : minors_are vs ix -> minors_are (vs ++ [(x, 1)]) ix.
Proof.
  intros [S H]. split; [exact S|]. intros i. rewrite H. split; intros (y & s & E & N).
  - exists y, s. rewrite nth_snoc. auto.
  - apply nth_snoc in E as [E|[_ E]]; [eauto|injection E as _ E; congruence].
Qed.
Lemma add_minor vs ix x s : s <> 1 -> minors_are vs ix -> minors_are (vs ++ [(x, s)]) (ix ++ [(length (vs ++ [(x, s)]) - 1)%nat]).
Proof.
  intros Hs M. pose proof (minors_bound _ _ M) as Bd. destruct M as [S H]. rewrite app_length. cbn [length]. replace (length vs + 1 - 1)%nat with (length vs) by lia.
  split; [apply sorted_snoc; assumption|]. intros i. rewrite in_app_iff, H. split.
  - intros [(y & t & E & N)|[<-|[]]]; [exists y, t; rewrite nth_snoc; auto|exists x, s; rewrite nth_snoc; auto].
  - intros (y & t & E & N). apply nth_snoc in E as [E|[-> _]]; [left; eauto|right; left; reflexivity].
Qed.
Lemma add_subs_minors x subs : Forall (fun s => s <> 1) subs -> forall vs ix, minors_are vs ix ->
  minors_are (fst (add_subs x subs vs ix)) (snd (add_subs x subs vs ix)).
Proof. induction 1 as [|s r Hs Hr IH]; intros vs ix M; cbn [add_subs]; [exact M|]. apply IH, add_minor; assumption. Qed.
Lemma add_decades_minors fb subs ds : Forall (fun s => s <> 1) subs -> forall vs ix, minors_are vs ix ->
  minors_are (fst (add_decades fb subs ds vs ix)) (snd (add_decades fb subs ds vs ix)).
Proof.
  intros Hs. induction ds as [|d r IH]; intros vs ix M; cbn [add_decades]; [exact M|].
  pose proof (add_subs_minors (inject_Z d * fb) subs Hs _ _ (add_major vs ix (inject_Z d * fb) M)) as X.
  destruct (add_subs (inject_Z d * fb) subs (vs ++ [((inject_Z d * fb)%Q, 1)]) ix) as [vs' ix']. apply IH, X.
Qed.

(** ** the order of the ticks *)
Local Open Scope R_scope.
Lemma ln_base_pos b : (2 <= b)%Z -> 0 < ln (IZR b).
Proof. intros H. rewrite <- ln_1. apply ln_increasing; [lra|]. apply IZR_lt. lia. Qed.
Lemma position_sum b x s : (2 <= b)%Z -> (0 < s)%Z -> position b (x, s) = Q2R x + logb b (IZR s).
Proof.
  intros Hb Hs. unfold position, logb. cbn [fst snd]. pose proof (ln_base_pos b Hb). assert (0 < IZR s) by (apply IZR_lt; exact Hs).
  rewrite ln_mult; [|assumption|apply exp_pos]. unfold Rpower. rewrite ln_exp. field. lra.
Qed.
Lemma logb_one b : logb b 1 = 0.
Proof. unfold logb. rewrite ln_1. unfold Rdiv. ring. Qed.
Lemma logb_lt b x y : (2 <= b)%Z -> 0 < x -> x < y -> logb b x < logb b y.
Proof. intros Hb Hx H. unfold logb. apply Rmult_lt_compat_r; [apply Rinv_0_lt_compat, ln_base_pos, Hb|apply ln_increasing; assumption]. Qed.
Lemma logb_base b : (2 <= b)%Z -> logb b (IZR b) = 1.
Proof. intros Hb. unfold logb. apply Rinv_r. pose proof (ln_base_pos b Hb). lra. Qed.
Lemma sorted_app (l1 l2 : list R) : StronglySorted Rlt l1 -> StronglySorted Rlt l2 -> (forall x y, In x l1 -> In y l2 -> x < y) -> StronglySorted Rlt (l1 ++ l2).
Proof.
  induction 1 as [|a l S IH F]; intros S2 H; cbn; [exact S2|]. constructor; [apply IH; [exact S2|intros; apply H; [right|]; assumption]|].
  apply Forall_app. split; [exact F|]. apply Forall_forall. intros y Hy. apply H; [left; reflexivity|exact Hy].
Qed.
Lemma Q2R_int z : Q2R (inject_Z z) = IZR z.
Proof. unfold Q2R, inject_Z. cbn. field. Qed.

Section Order.
  Variables (b : Z) (fb : Q) (subs : list Z) (dv : Z).
  Hypothesis Hb : (2 <= b)%Z.
  Hypothesis Hfb : (0 < fb)%Q.
  Hypothesis Hs : Forall (fun s => 2 <= s < b)%Z subs.
  Hypothesis Ss : StronglySorted Z.lt subs.
  Hypothesis Hk : subs <> [] -> (fb == 1)%Q.
  Hypothesis Hd : (1 <= dv)%Z.

  Lemma fb_pos : 0 < Q2R fb.
  Proof. rewrite <- RMicromega.Q2R_0. apply Qlt_Rlt, Hfb. Qed.
  Lemma group_sorted d : StronglySorted Rlt (map (position b) (group fb subs d)).
  Proof.
    unfold group. cbn [map]. set (x := (inject_Z d * fb)%Q).
    assert (P : forall l, Forall (fun s => 2 <= s < b)%Z l -> StronglySorted Z.lt l -> StronglySorted Rlt (map (position b) (map (fun s => (x, s)) l))).
    { intros l F S. induction S as [|a l S IH G]; cbn [map]; [constructor|]. inversion F as [|? ? F1 F2]; subst. constructor; [apply IH, F2|].
      apply Forall_forall. intros y Hy. rewrite map_map in Hy. apply in_map_iff in Hy as (s & <- & I).
      rewrite Forall_forall in G, F2. specialize (G s I). specialize (F2 s I). rewrite !position_sum by lia. apply Rplus_lt_compat_l, logb_lt; [exact Hb| |]; apply IZR_lt; lia. }
    constructor; [apply P; assumption|]. apply Forall_forall. intros y Hy. rewrite map_map in Hy. apply in_map_iff in Hy as (s & <- & I).
    rewrite Forall_forall in Hs. specialize (Hs s I). rewrite !position_sum by lia. apply Rplus_lt_compat_l, logb_lt; [exact Hb|lra|apply IZR_lt; lia].
  Qed.
  Lemma group_before d d' x y : (d + 1 <= d')%Z -> In x (map (position b) (group fb subs d)) -> In y (map (position b) (group fb subs d')) -> x < y.
  Proof.
    intros D Hx Hy. pose proof fb_pos as F.
    assert (Y : Q2R (inject_Z d' * fb) <= y).
    { apply in_map_iff in Hy as ((x' & s) & <- & I). destruct I as [I|I].
      - injection I as <- <-. rewrite position_sum by lia. rewrite logb_one. lra.
      - apply in_map_iff in I as (s' & E & I). injection E as <- <-. rewrite Forall_forall in Hs. specialize (Hs s' I). rewrite position_sum by lia.
        assert (logb b 1 < logb b (IZR s')) by (apply logb_lt; [exact Hb|lra|apply IZR_lt; lia]). rewrite logb_one in *. lra. }
    assert (X : x < Q2R (inject_Z (d + 1) * fb)).
    { assert (E : Q2R (inject_Z (d + 1) * fb) = Q2R (inject_Z d * fb) + Q2R fb) by (rewrite !Q2R_mult, !Q2R_int, plus_IZR; ring).
      apply in_map_iff in Hx as ((x' & s) & <- & I). destruct I as [I|I].
      - injection I as <- <-. rewrite position_sum, logb_one, E by lia. lra.
      - apply in_map_iff in I as (s' & Es & I). injection Es as <- <-.
        assert (N : subs <> []) by (intros C; rewrite C in I; destruct I). specialize (Hk N). apply Qeq_eqR in Hk. rewrite RMicromega.Q2R_1 in Hk.
        rewrite Forall_forall in Hs. specialize (Hs s' I). rewrite position_sum, E by lia.
        assert (logb b (IZR s') < logb b (IZR b)) by (apply logb_lt; [exact Hb| |]; apply IZR_lt; lia). rewrite logb_base in * by exact Hb. lra. }
    assert (Z : Q2R (inject_Z (d + 1) * fb) <= Q2R (inject_Z d' * fb)).
    { rewrite !Q2R_mult, !Q2R_int. apply Rmult_le_compat_r; [lra|apply IZR_le; exact D]. }
    lra.
  Qed.
  Lemma ticks_sorted a n : forall i, StronglySorted Rlt (map (position b) (flat_map (group fb subs) (map (fun x => a + Z.of_nat x * dv)%Z (seq i n)))).
  Proof.
    induction n as [|n IH]; intros i; cbn [seq map flat_map]; [constructor|]. rewrite map_app. apply sorted_app; [apply group_sorted|apply IH|].
    intros x y Hx Hy. apply in_map_iff in Hy as (t & <- & I). apply in_flat_map in I as (d' & I1 & I2). apply in_map_iff in I1 as (j & <- & J). apply in_seq in J.
    apply (group_before (a + Z.of_nat i * dv) (a + Z.of_nat j * dv) x); [nia|exact Hx|apply in_map, I2].
  Qed.
  Lemma ticks_majors ds : majors (flat_map (group fb subs) ds) = map (fun d => (inject_Z d * fb)%Q) ds.
  Proof.
    induction ds as [|d r IH]; cbn [flat_map map]; [reflexivity|]. unfold majors in *. rewrite filter_app, map_app, IH.
    unfold group. cbn [filter snd]. rewrite Z.eqb_refl. cbn [map fst].
    assert (E : filter (fun t : Q * Z => (snd t =? 1)%Z) (map (fun s => ((inject_Z d * fb)%Q, s)) subs) = []).
    { clear - Hs. induction Hs as [|s l H F IH]; cbn [map filter snd]; [reflexivity|]. rewrite (proj2 (Z.eqb_neq s 1)) by lia. exact (IH F). }
    rewrite E. reflexivity.
  Qed.
End Order.

(** ** the whole *)
Local Open Scope Z_scope.
Lemma shrink_cases r : forall f n, shrink f n r = n \/ ((3 # 2) * r < inject_Z (Z.abs n))%Q /\ 0 < n /\ shrink f n r < n.
Proof.
  induction f as [|f IH]; intros n; cbn [shrink]; [auto|].
  destruct (q_lt ((3 # 2) * r) (inject_Z (Z.abs n)) && (0 <? n)) eqn:E; [|auto]. apply andb_prop in E as [E1 E2]. apply q_lt_iff in E1. apply Z.ltb_lt in E2.
  right. split; [exact E1|]. split; [exact E2|]. destruct (IH (n - 1)) as [H|(_ & _ & H)]; lia.
Qed.
Lemma shrink_nonneg r : forall f n, 0 <= n -> 0 <= shrink f n r.
Proof.
  induction f as [|f IH]; intros n H; cbn [shrink]; [exact H|].
  destruct (q_lt ((3 # 2) * r) (inject_Z (Z.abs n)) && (0 <? n)) eqn:E; [|exact H]. apply andb_prop in E as [_ E]. apply Z.ltb_lt in E. apply IH. lia.
Qed.
Lemma shrink_zero : forall f n, 0 <= n -> (Z.to_nat n <= f)%nat -> shrink f n 0 = 0.
Proof.
  induction f as [|f IH]; intros n H F; cbn [shrink]; [lia|].
  destruct (Z.ltb_spec 0 n) as [L|L]; [|rewrite andb_false_r; lia].
  assert (X : q_lt ((3 # 2) * 0) (inject_Z (Z.abs n)) = true). { apply q_lt_iff. rewrite Qmult_0_r. change 0%Q with (inject_Z 0). rewrite <- Zlt_Qlt. lia. }
  rewrite X. apply IH; lia.
Qed.
Lemma shrink_comp f : forall n r r', (r == r')%Q -> shrink f n r = shrink f n r'.
Proof.
  induction f as [|f IH]; intros n r r' E; cbn [shrink]; [reflexivity|].
  rewrite (q_lt_comp ((3 # 2) * r) ((3 # 2) * r') (inject_Z (Z.abs n)) (inject_Z (Z.abs n))) by (rewrite ?E; reflexivity). rewrite (IH (n - 1) r r' E). reflexivity.
Qed.

Record parts (base : Z) (flog digit : Q -> Z) (pw : Q -> Q) (low high : Q) (t : Z) (r : log_ticks) (k mn mx nd : Z) (subs : list Z) : Prop := Parts {
  p_k : k = factor_exp base flog (Qabs (high - low)) t;
  p_mn : mn = Qfloor (low / Qpower (inject_Z base) k);
  p_mx : mx = Z.max (Qceiling (high / Qpower (inject_Z base) k)) (mn + 1);
  p_nd : nd = if k =? 0 then shrink (Z.to_nat (mx - mn)) (mx - mn) (Qabs (high - low)) else mx - mn;
  p_div : t_division r = Z.max ((nd + 1) / t) 1;
  p_subs : exists ns, subs = sub_ticks base k ns;
  p_values : t_values r = flat_map (group (Qpower (inject_Z base) k) subs) (int_arange mn (mx + t_division r) (t_division r));
  p_minor : Forall (fun s => s <> 1) subs -> minors_are (t_values r) (t_minor r);
  p_labels : t_labels r = map (log_label pw (Z.abs k)) (t_values r);
  p_prec : t_precision r = Z.abs k;
  p_top : t_max r =
    let m := if k =? 0 then mn + nd else mx in
    let top := match subs with [] => LV (inject_Z m) 0 1
                             | _ => if q_le (inject_Z m) high then LV (inject_Z (Qfloor high)) 1 (digit (high - inject_Z (Qfloor high))%Q + 1) else LV (inject_Z m) 0 1 end in
    LV (rat top * Qpower (inject_Z base) k)%Q (coef top * Qpower (inject_Z base) k)%Q (arg top);
  p_bottom : t_min r = LV (low - (rat (t_max r) - low) * (1 # 100))%Q (- coef (t_max r) * (1 # 100))%Q (arg (t_max r))
}.
Lemma log_parts base flog digit pw low high t r : log_ticker base flog digit pw low high t = Ok r ->
  exists k mn mx nd subs, parts base flog digit pw low high t r k mn mx nd subs.
Proof.
  intros H. unfold log_ticker in H.
  set (k := factor_exp base flog (Qabs (high - low)) t) in *. set (fb := Qpower (inject_Z base) k) in *. set (mn := Qfloor (low / fb)) in *.
  set (mx := Z.max (Qceiling (high / fb)) (mn + 1)) in *. set (nd := if k =? 0 then shrink (Z.to_nat (mx - mn)) (mx - mn) (Qabs (high - low)) else mx - mn) in *.
  destruct (t =? 0); [discriminate|]. set (dv := Z.max ((nd + 1) / t) 1) in *.
  set (ns := if q_lt 0 (Qabs (high - low)) then _ else 0%Q) in *. set (subs := sub_ticks base k ns) in *.
  pose proof (add_decades_values fb subs (int_arange mn (mx + dv) dv) [] []) as V.
  pose proof (fun F => add_decades_minors fb subs (int_arange mn (mx + dv) dv) F [] []) as M.
  destruct (add_decades fb subs (int_arange mn (mx + dv) dv) [] []) as [vs ix]. cbn [fst snd app] in V, M.
  exists k, mn, mx, nd, subs. injection H as <-. constructor; try reflexivity.
  - exists ns. reflexivity.
  - exact V.
  - intros F. apply M; [exact F|]. split; [constructor|]. intros i. split; [intros []|]. intros (x & s & E & _). destruct i; discriminate.
Qed.
Lemma power_pos base k : 2 <= base -> (0 < Qpower (inject_Z base) k)%Q.
Proof. intros H. apply Qpower_0_lt. change 0%Q with (inject_Z 0). rewrite <- Zlt_Qlt. lia. Qed.
