(** Property C85: the labels of a LinearTicker. *)
From Coq Require Import String Ascii List ZArith Bool QArith Qabs Qround Qpower Lia Lqa.
From Verif Require Import PyBase Text_Model Float53_Model ConvFloat_Model ConvFloat_Spec ConvFloat_Proofs GeomPretty_Model GeomPretty_Spec GeomPretty_Proofs GeomPretty_Props.
From Verif Require Import Fmt_Model Fmt_Spec Fmt_Proofs Ticker_Model Ticker_Spec Ticker_Proofs.
Import ListNotations.
Local Open Scope Z_scope.

Lemma ticker_range lg a b t g ls : linear_ticker exact lg a b t = Ok (g, ls) ->
  make_pretty_range2 exact lg a b t = Ok g /\ ls = map (value_label lg g) (g_ticks g).
Proof. unfold linear_ticker. destruct (make_pretty_range2 exact lg a b t); intros H; [|discriminate]. injection H as <- <-. auto. Qed.

(** C85: a label for every tick, and it says the value of the tick; not so for negative ticks in exponent notation, which are
    shown with one digit *)
Theorem ticker_labels lg a b t : exact_log lg -> ~ (a == b)%Q -> 2 <= t ->
  exists g ls, linear_ticker exact lg a b t = Ok (g, ls) /\ length ls = length (g_ticks g) /\
    forall i x l, nth_error (g_ticks g) i = Some x -> nth_error ls i = Some l ->
      (~ exponent_notation (g_factor10 g) \/ (0 <= x)%Q -> says l x) /\
      (exponent_notation (g_factor10 g) -> (x < 0)%Q -> exists q, says l q /\ rounded_digits 1 x q).
Proof.
  intros L N T. destruct (pretty_range_covers lg a b t L N T) as (g & R & _).
  exists g, (map (value_label lg g) (g_ticks g)). split; [unfold linear_ticker; rewrite R; reflexivity|]. split; [apply map_length|].
  destruct (range_parts lg a b t g L N T R) as (k & d & F & E & D & P & _ & M & _ & Hd).
  intros i x l Hx Hl. rewrite nth_error_map, Hx in Hl. injection Hl as <-. destruct (M x (nth_error_In _ _ Hx)) as (n & Xn). split.
  - intros H. destruct (notation_iff lg g k F) as [I1 I2]. destruct (Z.lt_ge_cases 5 (Z.abs k)) as [C|C].
    + specialize (I2 C). destruct H as [H|H]; [contradiction|]. apply (exponent_label lg L g k d F E D x n I2 Xn H).
    + assert (NE : ~ exponent_notation (g_factor10 g)) by (intros X; apply I1 in X; lia). apply (fixed_label lg L g k d F E D P Hd x n NE Xn).
  - intros H Px. apply (negative_label lg L g k F x H Px).
Qed.
(** C85: hence labels of different ticks differ *)
Theorem ticker_labels_distinct lg a b t g ls : exact_log lg -> ~ (a == b)%Q -> 2 <= t -> linear_ticker exact lg a b t = Ok (g, ls) ->
  (~ exponent_notation (g_factor10 g) \/ (0 <= g_min g)%Q) -> NoDup ls.
Proof.
  intros L N T E H. destruct (ticker_range _ _ _ _ _ _ E) as [R ->].
  destruct (range_parts lg a b t g L N T R) as (k & d & F & Ed & D & P & _ & M & Sp & Hd).
  apply NoDup_nth_error. intros i j Hi Hij.
  rewrite map_length in Hi. destruct (nth_error (g_ticks g) i) as [x|] eqn:Xi; [|apply nth_error_None in Xi; lia].
  rewrite !nth_error_map, Xi in Hij. destruct (nth_error (g_ticks g) j) as [y|] eqn:Yj; [|discriminate]. cbn in Hij. injection Hij as Hij.
  destruct (ticker_labels lg a b t L N T) as (g' & ls' & E' & _ & S). rewrite E in E'. injection E' as <- <-.
  pose proof (Sp i x Xi) as Sx. pose proof (Sp j y Yj) as Sy.
  assert (NN : forall i x, (x == g_min g + inject_Z (Z.of_nat i) * g_division g)%Q -> ~ exponent_notation (g_factor10 g) \/ (0 <= x)%Q).
  { intros i0 x0 X0. destruct H as [H|H]; [left; exact H|right]. rewrite X0. assert (0 <= inject_Z (Z.of_nat i0))%Q by (change 0%Q with (inject_Z 0); rewrite <- Zle_Qle; lia). nra. }
  destruct (S i x (value_label lg g x) Xi) as [Lx _]; [rewrite nth_error_map, Xi; reflexivity|].
  destruct (S j y (value_label lg g y) Yj) as [Ly _]; [rewrite nth_error_map, Yj; reflexivity|].
  specialize (Lx (NN i x Sx)). specialize (Ly (NN j y Sy)). rewrite <- Hij in Ly.
  pose proof (numeral_value _ _ _ Lx Ly) as XY. rewrite Sx, Sy in XY.
  assert (Z0 : (inject_Z (Z.of_nat i) * g_division g == inject_Z (Z.of_nat j) * g_division g)%Q) by lra.
  assert (NZ : ~ (g_division g == 0)%Q) by (intros C0; rewrite C0 in Hd; discriminate Hd).
  apply (proj1 (Qmult_inj_r _ _ _ NZ)) in Z0.
  unfold Qeq, inject_Z in Z0. cbn in Z0. lia.
Qed.
(** C85: the label of any other value, in fixed notation, is the value rounded to the precision *)
Theorem ticker_value_label lg a b t g ls v : exact_log lg -> ~ (a == b)%Q -> 2 <= t -> linear_ticker exact lg a b t = Ok (g, ls) ->
  ~ exponent_notation (g_factor10 g) ->
  exists q, says (value_label lg g v) q /\ rounded_to (Qpower (10 # 1) (- g_precision g)) v q.
Proof.
  intros L N T E H. destruct (ticker_range _ _ _ _ _ _ E) as [R _].
  destruct (range_parts lg a b t g L N T R) as (k & d & F & Ed & D & P & _).
  unfold value_label, nice_label. rewrite (f10_is lg L g k F). rewrite (notation_iff lg g k F) in H.
  destruct (Z.ltb_spec 5 (Z.abs k)) as [C|C]; [contradiction|]. destruct (f_reads (Z.to_nat (g_precision g)) v) as (q & A & B).
  exists q. split; [exact A|]. rewrite Z2Nat.id in B by (rewrite P; lia). exact B.
Qed.
(** C85: in exponent notation the label of any positive value is the value rounded to the decade of the ticks; a value below
    one that is no power of ten gets one digit more *)
Theorem ticker_value_label_exponent lg a b t g ls v e : exact_log lg -> ~ (a == b)%Q -> 2 <= t -> linear_ticker exact lg a b t = Ok (g, ls) ->
  exponent_notation (g_factor10 g) -> (0 < v)%Q -> leading v e ->
  exists k, (g_factor10 g == Qpower (10 # 1) k)%Q /\
    let more := if Qlt_le_dec v 1 then if Qeq_dec v (Qpower (10 # 1) e) then 0 else 1 else 0 in
    exists q, says (value_label lg g v) q /\ rounded_digits (Z.max 0 (e + more - k) + 1) v q.
Proof.
  intros L N T E H Hv Le. destruct (ticker_range _ _ _ _ _ _ E) as [R _].
  destruct (range_parts lg a b t g L N T R) as (k & d & F & Ed & D & P & _). exists k. split; [rewrite F; reflexivity|].
  unfold value_label, nice_label. rewrite (f10_is lg L g k F). rewrite (notation_iff lg g k F) in H.
  destruct (Z.ltb_spec 5 (Z.abs k)) as [C|C]; [|lia]. rewrite (proj2 (q_lt_iff 0 v) Hv).
  pose proof (L v Hv) as [La Lb]. assert (Ee : lg v = e) by (apply (leading_unique v); [apply leading_decade; [exact Hv|split; assumption]|exact Le]).
  assert (Ei : int_log lg v = e + (if Qlt_le_dec v 1 then if Qeq_dec v (Qpower (10 # 1) e) then 0 else 1 else 0)).
  { unfold int_log. rewrite Ee. change (pow10 e) with (ten e). change (Qpower (10 # 1) e) with (ten e).
    rewrite Ee in La, Lb. change (Qpower (10 # 1)) with ten in *. destruct (Qlt_le_dec v 1) as [O|O].
    - assert (~ 0 <= e) by (intros X; apply ten_le in X; change (ten 0) with 1%Q in X; lra). rewrite (proj2 (Z.leb_gt 0 e)) by lia.
      destruct (Qeq_dec v (ten e)) as [Q|Q]; [rewrite (proj2 (Qeq_bool_iff _ _) Q); simpl; lia|].
      destruct (Qeq_bool v (ten e)) eqn:B; [apply Qeq_bool_iff in B; contradiction|]. simpl. reflexivity.
    - assert (~ e + 1 <= 0) by (intros X; apply ten_le in X; change (ten 0) with 1%Q in X; lra). rewrite (proj2 (Z.leb_le 0 e)) by lia. simpl. lia. }
  cbv zeta. rewrite Ei. set (p := Z.max 0 _). destruct (e_reads (Z.to_nat p) v) as (q & A & B). exists q. split; [exact A|].
  rewrite Z2Nat.id in B by (unfold p; lia). exact B.
Qed.
Print Assumptions ticker_value_label_exponent.
(** C85, finding: three ticks with the same label *)
Theorem ticker_negative_refuted :
  exists g, linear_ticker exact log10_floor (inject_Z (-12000000)) (inject_Z (-8000000)) 5 =
    Ok (g, [lit "-1e+07"; lit "-1e+07"; lit "-1e+07"; lit "-9e+06"; lit "-8e+06"]) /\ NoDup (g_ticks g).
Proof.
  eexists. split; [vm_compute; reflexivity|]. cbn [g_ticks].
  repeat (constructor; [simpl; intuition discriminate|]). constructor.
Qed.
(** C85, finding: with equal limits the one label has no digits after the point *)
Theorem ticker_equal_refuted lg : linear_ticker exact lg (1 # 4) (1 # 4) 5 = Ok (Range (1 # 4) (1 # 4) [1 # 4] 0 0 0, [lit "0"]).
Proof. reflexivity. Qed.

Print Assumptions ticker_labels.
Print Assumptions ticker_labels_distinct.
Print Assumptions ticker_value_label.
Print Assumptions ticker_negative_refuted.
Print Assumptions ticker_equal_refuted.

Example ticker_fixed : exists g, linear_ticker exact log10_floor (- (3 # 10)) (1 # 2) 5 =
  Ok (g, [lit "-0.4"; lit "-0.2"; lit "0.0"; lit "0.2"; lit "0.4"; lit "0.6"]).
Proof. eexists. vm_compute. reflexivity. Qed.
Example ticker_big : exists g, linear_ticker exact log10_floor (inject_Z 8000000) (inject_Z 12000000) 5 =
  Ok (g, [lit "8e+06"; lit "9e+06"; lit "1.0e+07"; lit "1.1e+07"; lit "1.2e+07"]).
Proof. eexists. vm_compute. reflexivity. Qed.
Example ticker_small : exists g ls, linear_ticker exact log10_floor 0 (35 # 10000000000) 8 = Ok (g, ls) /\
  hd_error ls = Some (lit "0e+00") /\ nth_error ls 3 = Some (lit "3.00e-09") /\ exponent_notation (g_factor10 g).
Proof. eexists. eexists. split; [vm_compute; reflexivity|]. repeat split; try (vm_compute; reflexivity). left. vm_compute. congruence. Qed.
