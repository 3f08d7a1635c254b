From Coq Require Import String Ascii List ZArith Bool Lia QArith Qround Lqa.
From Verif Require Import PyBase Text_Model Text_Proofs ConvNum_Model ConvNum_Spec.
Import ListNotations.
Local Open Scope Z_scope.

Lemma a_digit_iff c : a_digit c <-> is_digit c = true.
Proof.
  unfold a_digit, is_digit. change (code "0") with 48. change (code "9") with 57.
  rewrite andb_true_iff, !Z.leb_le. reflexivity.
Qed.
Lemma c_space_iff c : c_space c <-> is_cspace c = true.
Proof. unfold c_space, is_cspace. rewrite orb_true_iff, andb_true_iff, !Z.leb_le, Z.eqb_eq. reflexivity. Qed.
Lemma c_spaces_iff s : Forall c_space s <-> forallb is_cspace s = true.
Proof. rewrite Forall_forall, forallb_forall. split; intros H c Hc; apply c_space_iff, H, Hc. Qed.

Lemma positional_value ds : dec_value ds = positional ds.
Proof.
  unfold dec_value. induction ds as [|c ds IH]; [reflexivity|]. cbn [horner positional].
  rewrite horner_shift, IH. unfold digit_val. change (code "0") with 48. ring.
Qed.

Lemma grouped_head t ds : grouped t ds -> exists c t', t = c :: t' /\ is_digit c = true.
Proof. destruct 1 as [c H|c t ds H _|c t ds H _]; apply a_digit_iff in H; eauto. Qed.

Lemma digit_not_underscore c : is_digit c = true -> c <> "_"%char.
Proof. intros H ->. discriminate H. Qed.

Lemma int_rest_complete t ds : grouped t ds -> forall c, is_digit c = true -> forall acc,
  int_rest t acc = Some (horner 10 digit_val acc ds).
Proof.
  assert (G : forall t ds, grouped t ds -> forall acc, int_rest t acc = Some (horner 10 digit_val acc ds)).
  { induction 1 as [c H|c t0 ds0 H Hg IH|c t0 ds0 H Hg IH]; intros acc; apply a_digit_iff in H.
    - simpl. rewrite H. reflexivity.
    - cbn [int_rest horner]. rewrite H. apply IH.
    - cbn [int_rest horner]. rewrite H. destruct (grouped_head _ _ Hg) as (d & t' & -> & Hd).
      specialize (IH (acc * 10 + digit_val c)). cbn [int_rest] in IH. rewrite Hd in IH.
      change (is_digit "_") with false. destruct (ascii_dec "_" "_"); [|congruence]. rewrite Hd. exact IH. }
  intros H c _ acc. apply G, H.
Qed.

Lemma int_rest_sound : forall (n : nat) s acc r, (length s <= n)%nat -> int_rest s acc = Some r -> forall c, is_digit c = true ->
  exists ds, grouped (c :: s) (c :: ds) /\ r = horner 10 digit_val acc ds.
Proof.
  induction n as [|n IH]; intros [|d s] acc r Hl H c Hc; cbn [int_rest] in H; try (simpl in Hl; lia).
  - injection H as <-. exists []. split; [constructor; apply a_digit_iff, Hc|reflexivity].
  - injection H as <-. exists []. split; [constructor; apply a_digit_iff, Hc|reflexivity].
  - destruct (is_digit d) eqn:Ed.
    + destruct (IH s _ _ ltac:(simpl in Hl; lia) H d Ed) as (ds & Hg & Hr). exists (d :: ds). split; [|exact Hr].
      apply grouped_next; [apply a_digit_iff, Hc|exact Hg].
    + destruct (ascii_dec d "_") as [->|]; [|discriminate]. destruct s as [|e s]; [discriminate|].
      destruct (is_digit e) eqn:Ee; [|discriminate].
      destruct (IH s _ _ ltac:(simpl in Hl; lia) H e Ee) as (ds & Hg & Hr). exists (e :: ds). split; [|exact Hr].
      apply grouped_under; [apply a_digit_iff, Hc|exact Hg].
Qed.

Lemma int_digits_iff s n : int_digits s = Some n <-> exists ds, grouped s ds /\ n = positional ds.
Proof.
  split.
  - destruct s as [|c s]; [discriminate|]. cbn [int_digits]. destruct (is_digit c) eqn:Ec; [|discriminate]. intros H.
    destruct (int_rest_sound _ s _ _ (le_n _) H c Ec) as (ds & Hg & ->). exists (c :: ds). split; [exact Hg|].
    rewrite <- positional_value. unfold dec_value. cbn [horner]. rewrite Z.mul_0_l, Z.add_0_l. reflexivity.
  - intros (ds & Hg & ->). rewrite <- positional_value. destruct (grouped_head _ _ Hg) as (c & t & -> & Hc). cbn [int_digits].
    rewrite Hc. pose proof (int_rest_complete _ _ Hg c Hc 0) as G. cbn [int_rest] in G. rewrite Hc in G. exact G.
Qed.

Lemma grouped_last t ds : grouped t ds -> forall c t', t = t' ++ [c] -> is_digit c = true.
Proof.
  induction 1 as [c H|c t ds H Hg IH|c t ds H Hg IH]; intros d t' E; apply a_digit_iff in H.
  - destruct t' as [|? [|? ?]]; simpl in E; try discriminate. injection E as <-. exact H.
  - destruct t' as [|x t']; simpl in E; injection E as E1 E2.
    + subst. inversion Hg.
    + eapply IH. exact E2.
  - destruct t' as [|x [|y t']]; simpl in E.
    + discriminate.
    + injection E as E1 E2 E3. subst. inversion Hg.
    + injection E as E1 E2 E3. eapply IH. exact E3.
Qed.

Lemma int_literal_trim sg t ds : grouped t ds -> sg = [] \/ sg = lit "+" \/ sg = lit "-" -> trimmed is_cspace (sg ++ t).
Proof.
  intros Hg Hs. destruct (grouped_head _ _ Hg) as (c & t' & Et & Hc). split.
  - intros d r E. destruct Hs as [->|[->| ->]]; simpl in E.
    + rewrite Et in E. injection E as <- <-. apply digit_not_cspace, Hc.
    + injection E as <- <-. reflexivity.
    + injection E as <- <-. reflexivity.
  - intros d r E. apply digit_not_cspace. destruct (exists_last (l := t)) as (t0 & d' & E'); [rewrite Et; discriminate|].
    rewrite E', app_assoc in E. apply app_inj_tail in E as [_ <-]. eapply grouped_last; [exact Hg|exact E'].
Qed.

Lemma int_literal_lemma s n : py_int s = Ok n <-> int_literal s n.
Proof.
  unfold py_int, int_literal. split.
  - intros H. destruct (strip_decompose is_cspace s) as (pre & post & E & H1 & H2 & _).
    set (u := strip_by is_cspace s) in *. destruct u as [|c t]; [discriminate|].
    apply c_spaces_iff in H1, H2.
    destruct (ascii_dec c "-") as [->|Hm].
    + destruct (int_digits t) as [k|] eqn:Ek; [|discriminate]. injection H as <-. apply int_digits_iff in Ek as (ds & Hg & ->).
      exists pre, (lit "-"), t, ds, post. split; [exact E|]. auto 6.
    + destruct (ascii_dec c "+") as [->|Hp].
      * destruct (int_digits t) as [k|] eqn:Ek; [|discriminate]. injection H as <-. apply int_digits_iff in Ek as (ds & Hg & ->).
        exists pre, (lit "+"), t, ds, post. split; [exact E|]. auto 7.
      * destruct (int_digits (c :: t)) as [k|] eqn:Ek; [|discriminate]. injection H as <-. apply int_digits_iff in Ek as (ds & Hg & ->).
        exists pre, [], (c :: t), ds, post. split; [exact E|]. auto 7.
  - intros (pre & sg & t & ds & post & -> & H1 & H2 & Hg & Hn). apply c_spaces_iff in H1, H2.
    assert (Hsg : sg = [] \/ sg = lit "+" \/ sg = lit "-") by tauto.
    assert (Es : strip_by is_cspace (pre ++ sg ++ t ++ post) = sg ++ t).
    { rewrite (app_assoc sg). apply strip_sandwich; [exact H1|exact H2|]. eapply int_literal_trim; eassumption. }
    rewrite Es. destruct (grouped_head _ _ Hg) as (c & t' & Et & Hc).
    assert (Hd : int_digits t = Some (positional ds)) by (apply int_digits_iff; eauto).
    destruct Hn as [[[->| ->] ->]|[-> ->]]; cbn [app lit list_ascii_of_string].
    + rewrite Et in *. destruct (ascii_dec c "-") as [->|_]; [discriminate Hc|].
      destruct (ascii_dec c "+") as [->|_]; [discriminate Hc|]. rewrite Hd. reflexivity.
    + destruct (ascii_dec "+" "-"); [discriminate|]. destruct (ascii_dec "+" "+"); [|congruence]. rewrite Hd. reflexivity.
    + destruct (ascii_dec "-" "-"); [|congruence]. rewrite Hd. reflexivity.
Qed.

Lemma digits_grouped s : s <> [] -> forallb is_digit s = true -> grouped s s.
Proof.
  induction s as [|c s IH]; [congruence|]. intros _ H. cbn [forallb] in H. apply andb_prop in H as [Hc H]. apply a_digit_iff in Hc.
  destruct s as [|d s]; [constructor; exact Hc|]. apply grouped_next; [exact Hc|]. apply IH; [discriminate|exact H].
Qed.

Lemma int_roundtrip n : py_int (str_of_int n) = Ok n.
Proof.
  apply int_literal_lemma. unfold str_of_int. destruct (Z.ltb_spec n 0) as [Hn|Hn].
  - destruct (dec_spec (- n) ltac:(lia)) as (H1 & H2 & H3 & _).
    exists [], (lit "-"), (dec (- n)), (dec (- n)), []. rewrite app_nil_r. split; [reflexivity|].
    split; [constructor|]. split; [constructor|]. split; [apply digits_grouped; assumption|]. right. split; [reflexivity|].
    rewrite <- positional_value, H1. lia.
  - destruct (dec_spec n Hn) as (H1 & H2 & H3 & _).
    exists [], [], (dec n), (dec n), []. rewrite app_nil_r. split; [reflexivity|].
    split; [constructor|]. split; [constructor|]. split; [apply digits_grouped; assumption|]. left. split; [auto|].
    rewrite <- positional_value, H1. reflexivity.
Qed.

(** * Scaled integers *)
Local Open Scope Q_scope.

Lemma q_trunc_floor q : 0 <= q -> q_trunc q = Qfloor q.
Proof.
  destruct q as [a b]. unfold Qle, q_trunc, Qfloor. simpl. intros H. apply Z.quot_div_nonneg; lia.
Qed.
Lemma q_trunc_comp p q : p == q -> q_trunc p = q_trunc q.
Proof.
  intros E. destruct (Qlt_le_dec p 0) as [Hp|Hp].
  - assert (Hq : q <= 0) by lra. assert (Ho : forall r, q_trunc r = (- q_trunc (- r))%Z).
    { intros [a b]. unfold q_trunc. simpl. rewrite Z.quot_opp_l by discriminate. lia. }
    rewrite (Ho p), (Ho q). rewrite !q_trunc_floor by lra. f_equal. apply Qfloor_comp. rewrite E. reflexivity.
  - rewrite !q_trunc_floor by lra. apply Qfloor_comp. exact E.
Qed.
Lemma q_trunc_inject k : q_trunc (inject_Z k) = k.
Proof. unfold q_trunc. simpl. apply Z.quot_1_r. Qed.

Lemma not_zero mn mx : mn < mx -> Qeq_bool (mx - mn) 0 = false.
Proof.
  intros H. destruct (Qeq_bool (mx - mn) 0) eqn:E; [|reflexivity]. apply Qeq_bool_iff in E. lra.
Qed.

Lemma scaled_roundtrip_int n mn mx k v :
  mn < mx -> scaled_convert_back n mn mx k = Ok v -> scaled_convert n mn mx v = Ok k.
Proof.
  intros Hm Hb. unfold scaled_convert_back in Hb. destruct (Z.eqb_spec n 0) as [|Hn]; [discriminate|]. injection Hb as <-.
  unfold scaled_convert. rewrite (not_zero _ _ Hm). f_equal. rewrite <- (q_trunc_inject k) at 2. apply q_trunc_comp.
  assert (~ inject_Z n == 0). { intros H. apply Hn. unfold Qeq, inject_Z in H. simpl in H. lia. }
  field. split; [assumption|lra].
Qed.

Lemma scaled_range n mn mx v :
  (0 < n)%Z -> mn < mx -> mn <= v <= mx ->
  exists k, scaled_convert n mn mx v = Ok k /\ (0 <= k <= n)%Z /\
    exists w, scaled_convert_back n mn mx k = Ok w /\ w <= v /\ v < w + (mx - mn) / inject_Z n.
Proof.
  intros Hn Hm Hv. unfold scaled_convert, scaled_convert_back. rewrite (not_zero _ _ Hm).
  assert (Hn' : 0 < inject_Z n) by (unfold Qlt; simpl; lia).
  assert (HD : 0 < mx - mn) by lra.
  set (x := inject_Z n * (v - mn) / (mx - mn)).
  assert (Ex : x * (mx - mn) == inject_Z n * (v - mn)) by (unfold x; field; lra).
  assert (Hx0 : 0 <= x).
  { unfold x. apply Qle_shift_div_l; [exact HD|]. rewrite Qmult_0_l. apply Qmult_le_0_compat; lra. }
  assert (Hx1 : x <= inject_Z n).
  { unfold x. apply Qle_shift_div_r; [exact HD|]. apply Qmult_le_l; lra. }
  exists (q_trunc x). split; [reflexivity|]. rewrite q_trunc_floor by exact Hx0.
  pose proof (Qfloor_le x) as F1. pose proof (Qlt_floor x) as F2.
  split.
  { split.
    - rewrite <- (Qfloor_Z 0). apply Qfloor_resp_le. exact Hx0.
    - rewrite <- (Qfloor_Z n). apply Qfloor_resp_le. exact Hx1. }
  destruct (Z.eqb_spec n 0) as [|_]; [lia|]. eexists. split; [reflexivity|].
  rewrite inject_Z_plus in F2. change (inject_Z 1) with 1 in F2. set (f := inject_Z (Qfloor x)) in *.
  assert (Ev : v == x * (mx - mn) / inject_Z n + mn) by (rewrite Ex; field; lra).
  split.
  - rewrite Ev. apply Qplus_le_l. apply Qle_shift_div_l; [exact Hn'|].
    setoid_replace (f * (mx - mn) / inject_Z n * inject_Z n) with (f * (mx - mn)) by (field; lra).
    apply Qmult_le_r; assumption.
  - setoid_replace (f * (mx - mn) / inject_Z n + mn + (mx - mn) / inject_Z n) with ((f + 1) * (mx - mn) / inject_Z n + mn) by (field; lra).
    rewrite Ev. apply Qplus_lt_l. apply Qlt_shift_div_l; [exact Hn'|].
    setoid_replace (x * (mx - mn) / inject_Z n * inject_Z n) with (x * (mx - mn)) by (field; lra).
    apply Qmult_lt_r; assumption.
Qed.

Lemma scaled_back_in_range n mn mx k :
  (0 < n)%Z -> mn < mx -> (0 <= k <= n)%Z -> exists v, scaled_convert_back n mn mx k = Ok v /\ mn <= v <= mx.
Proof.
  intros Hn Hm Hk. unfold scaled_convert_back. destruct (Z.eqb_spec n 0) as [|_]; [lia|]. eexists. split; [reflexivity|].
  assert (Hn' : 0 < inject_Z n) by (unfold Qlt; simpl; lia).
  assert (Hk0 : 0 <= inject_Z k) by (unfold Qle; simpl; lia).
  assert (Hk1 : inject_Z k <= inject_Z n) by (unfold Qle; simpl; lia).
  assert (A : 0 <= inject_Z k * (mx - mn) / inject_Z n).
  { apply Qle_shift_div_l; [exact Hn'|]. rewrite Qmult_0_l. apply Qmult_le_0_compat; lra. }
  assert (B : inject_Z k * (mx - mn) / inject_Z n <= mx - mn).
  { apply Qle_shift_div_r; [exact Hn'|]. rewrite (Qmult_comm (mx - mn)). apply Qmult_le_r; lra. }
  split; lra.
Qed.
