(** Property C87: the scaled integer converter in double arithmetic. *)
From Coq Require Import String Ascii ZArith QArith Qabs List Lia Lqa.
From Verif Require Import PyBase Text_Model ConvNum_Model ConvNum_Proofs ConvFloat_Model ConvFloat_Props Float53_Model ConvDbl_Model ConvDbl_Spec ConvDbl_Proofs ConvDbl_Proofs2.
Import ListNotations.
Local Open Scope Z_scope.

(** C87: a position comes back unchanged or one lower *)
Theorem convdbl_trip n mn mx k : resolvable n mn mx -> 0 <= k <= n ->
  dbl_trip n mn mx k = Ok k \/ (0 < k /\ dbl_trip n mn mx k = Ok (k - 1)).
Proof.
  intros R Hk. destruct (trip_near n mn mx k R Hk) as (k' & E & B & P). rewrite E.
  assert (k' = k \/ k' = k - 1) as [->| ->] by lia; [left; reflexivity|right; split; [lia|reflexivity]].
Qed.
(** C87: repeated trips only go down, by at most one each, and come to rest *)
Theorem convdbl_repeated n mn mx : resolvable n mn mx -> forall m k k', 0 <= k <= n ->
  repeated (dbl_trip n mn mx) m k k' -> 0 <= k' <= k /\ k - Z.of_nat m <= k'.
Proof.
  intros R m k k' Hk H. revert Hk. induction H as [k|m k k1 k' E H IH]; intros Hk; [lia|].
  destruct (convdbl_trip n mn mx k R Hk) as [T|[P T]]; rewrite T in E; injection E as <-; destruct IH; lia.
Qed.
Theorem convdbl_rest n mn mx : resolvable n mn mx -> forall k, 0 <= k <= n ->
  exists m r, repeated (dbl_trip n mn mx) m k r /\ Z.of_nat m = k - r /\ dbl_trip n mn mx r = Ok r.
Proof.
  intros R k Hk. assert (G : forall j, (Z.of_nat j <= n -> exists m r, repeated (dbl_trip n mn mx) m (Z.of_nat j) r /\ Z.of_nat m = Z.of_nat j - r /\ dbl_trip n mn mx r = Ok r)).
  { intros j. induction j as [|j IH]; intros Hj.
    - exists 0%nat, 0. destruct (convdbl_trip n mn mx 0 R ltac:(lia)) as [T|[P _]]; [|lia]. split; [constructor|]. split; [reflexivity|exact T].
    - destruct (convdbl_trip n mn mx (Z.of_nat (S j)) R ltac:(lia)) as [T|[P T]].
      + exists 0%nat, (Z.of_nat (S j)). split; [constructor|]. split; [lia|exact T].
      + destruct (IH ltac:(lia)) as (m & r & Hr & Hm & Ht). exists (S m), r. split; [|split; [lia|exact Ht]].
        econstructor; [exact T|]. replace (Z.of_nat (S j) - 1) with (Z.of_nat j) by lia. exact Hr. }
  destruct (G (Z.to_nat k)) as (m & r & H); [lia|]. rewrite Z2Nat.id in H by lia. exists m, r. exact H.
Qed.
Print Assumptions convdbl_trip.
Print Assumptions convdbl_repeated.
Print Assumptions convdbl_rest.
Example convdbl_range_case : resolvable 100 (-5 # 2) (15 # 2) /\ dbl_trip 100 (-5 # 2) (15 # 2) 37 = Ok 37.
Proof. split; [|vm_compute; reflexivity]. split; [lia|]. split; [reflexivity|]. vm_compute. discriminate. Qed.
(** with a range far from zero the hypothesis fails, and so does the conclusion *)
Example convdbl_narrow_case :
  ~ resolvable 100 (inject_Z (2 ^ 52)) (inject_Z (2 ^ 52 + 1)) /\ dbl_trip 100 (inject_Z (2 ^ 52)) (inject_Z (2 ^ 52 + 1)) 50 = Ok 0.
Proof. split; [|vm_compute; reflexivity]. intros (_ & _ & H). vm_compute in H. apply H. reflexivity. Qed.

(** C87: a number of steps that is a power of two is exact on the unit interval *)
Theorem convdbl_binary_steps j k : 0 <= j <= 53 -> 0 <= k <= 2 ^ j ->
  dbl_trip (2 ^ j) 0 1 k = Ok k /\ exists v, dbl_convert_back (2 ^ j) 0 1 k = Ok v /\ (v == inject_Z k / inject_Z (2 ^ j))%Q.
Proof.
  intros Hj Hk. assert (B : 2 ^ j <= 2 ^ 53) by (apply Z.pow_le_mono_r; lia). assert (P : 0 < 2 ^ j) by (apply Z.pow_pos_nonneg; lia).
  split; [apply unit_trip; lia|]. destruct (unit_back j k Hj ltac:(lia)) as (v & Ev & Hv). exists v. split; [exact Ev|]. rewrite Hv.
  destruct (2 ^ j) as [|p|p] eqn:X; try lia. unfold Qdiv, Qinv, inject_Z, Qmult, Qeq. cbn. lia.
Qed.
Print Assumptions convdbl_binary_steps.
Example convdbl_binary_case : dbl_trip 1024 0 1 777 = Ok 777.
Proof. exact (proj1 (convdbl_binary_steps 10 777 ltac:(lia) ltac:(lia))). Qed.

(** C87: positions of values of the range, the lower end exactly and the upper end within one *)
Theorem convdbl_positions n mn mx : 0 < n <= 2 ^ 50 -> (mn < mx)%Q ->
  dbl_convert n mn mx mn = Ok 0 /\
  (dbl_convert n mn mx mx = Ok n \/ dbl_convert n mn mx mx = Ok (n - 1)) /\
  forall v, (mn <= v <= mx)%Q -> exists k, dbl_convert n mn mx v = Ok k /\ 0 <= k <= n.
Proof.
  intros Hn Hw. destruct (convert_ends n mn mx Hn Hw) as (A & k & E & B). split; [exact A|]. split.
  - rewrite E. assert (k = n \/ k = n - 1) as [-> | ->] by lia; auto.
  - intros v Hv. exact (convert_bounds n mn mx v Hn Hw Hv).
Qed.
Theorem convdbl_monotone n mn mx v v' k k' : 0 < n -> (mn < mx)%Q -> (v <= v')%Q ->
  dbl_convert n mn mx v = Ok k -> dbl_convert n mn mx v' = Ok k' -> k <= k'.
Proof. intros Hn. apply convert_mono. lia. Qed.
Theorem convdbl_back_monotone n mn mx k k' v v' : 0 < n -> (mn < mx)%Q -> k <= k' ->
  dbl_convert_back n mn mx k = Ok v -> dbl_convert_back n mn mx k' = Ok v' -> (v <= v')%Q.
Proof. exact (back_mono n mn mx k k' v v'). Qed.
(** C87: a value written as a position and read back is at most a step lower, up to the rounding of the range *)
Theorem convdbl_value n mn mx v : resolvable n mn mx -> (mn <= v <= mx)%Q ->
  exists k w, dbl_convert n mn mx v = Ok k /\ dbl_convert_back n mn mx k = Ok w /\
    (v - (mx - mn) / inject_Z n - ((mx - mn) + Qabs mn) / inject_Z (2 ^ 49) < w /\
     w <= v + ((mx - mn) + Qabs mn) / inject_Z (2 ^ 49))%Q.
Proof. exact (value_trip n mn mx v). Qed.
Theorem convdbl_errors n mn mx : 0 < n -> (mn < mx)%Q ->
  (forall v, dbl_convert n mn mn v = Err ZeroDivisionError) /\ (forall k, dbl_convert_back 0 mn mx k = Err ZeroDivisionError) /\
  (forall v, exists k, dbl_convert n mn mx v = Ok k) /\ (forall k, exists v, dbl_convert_back n mn mx k = Ok v).
Proof.
  intros Hn Hw. repeat split.
  - intros v. unfold dbl_convert. rewrite (Float53_Proofs.fl_comp (mn - mn) 0) by ring. reflexivity.
  - intros v. unfold dbl_convert. cbv zeta. destruct (width_pos mn mx Hw) as (_ & _ & _ & P0 & _).
    destruct (Qeq_bool (fl (mx - mn)) 0) eqn:Z; [apply Qeq_bool_eq in Z; lra|]. eexists. reflexivity.
  - intros k. unfold dbl_convert_back. destruct (n =? 0) eqn:Z; [apply Z.eqb_eq in Z; lia|]. eexists. reflexivity.
Qed.
Print Assumptions convdbl_positions.
Print Assumptions convdbl_monotone.
Print Assumptions convdbl_back_monotone.
Print Assumptions convdbl_value.
Print Assumptions convdbl_errors.
Example convdbl_value_case : dbl_convert 100 0 1 (1 # 3) = Ok 33 /\ dbl_convert 100 0 1 1 = Ok 100 /\ dbl_convert 100 0 1 0 = Ok 0.
Proof. vm_compute. repeat split. Qed.

(** Finding: each trip through the default range may lose a step again: a slider at 58 of 100 goes to 57 and then 56, one
    at 192 of 321 goes down 32 steps to 160 *)
Fixpoint iterate (trip : Z -> res Z) (m : nat) (k : Z) : res Z :=
  match m with O => Ok k | S m' => match trip k with Ok k1 => iterate trip m' k1 | Err e => Err e end end.
Lemma iterate_repeated trip m : forall k k', iterate trip m k = Ok k' -> repeated trip m k k'.
Proof.
  induction m as [|m IH]; intros k k' H; [injection H as <-; constructor|]. simpl in H.
  destruct (trip k) as [k1|e] eqn:E; [|discriminate]. econstructor; [exact E|]. apply IH, H.
Qed.
Theorem convdbl_drift_refuted :
  repeated (dbl_trip 100 0 1) 2 58 56 /\ dbl_trip 100 0 1 56 = Ok 56 /\
  repeated (dbl_trip 321 0 1) 32 192 160 /\ dbl_trip 321 0 1 160 = Ok 160.
Proof. repeat split; try (apply iterate_repeated); vm_compute; reflexivity. Qed.
(** Finding: the top of the range need not be the last position: 100 steps on [0, 0.17] end at 99 *)
Theorem convdbl_top_refuted :
  let top := 6124895493223875 # 36028797018963968 in
  (fl (17 # 100) == top)%Q /\ resolvable 100 0 top /\ dbl_convert 100 0 top top = Ok 99.
Proof.
  cbv zeta. split; [vm_compute; reflexivity|]. split; [|vm_compute; reflexivity]. split; [lia|]. split; [reflexivity|]. vm_compute. discriminate.
Qed.
Print Assumptions convdbl_drift_refuted.
Print Assumptions convdbl_top_refuted.

(** C87: a percentage text comes back with its number unchanged or one closer to zero *)
Theorem convdbl_percent k : Z.abs k <= 2 ^ 49 ->
  exists v, dbl_percent_back (str_of_int k ++ lit "%") = Ok v /\
    (dbl_percent_convert v = str_of_int k ++ lit "%" \/ dbl_percent_convert v = str_of_int (k - Z.sgn k) ++ lit "%").
Proof.
  intros Hk. unfold dbl_percent_back. rewrite percent_strip. destruct (float_of_int k) as (q & -> & Hq). eexists. split; [reflexivity|].
  unfold dbl_percent_convert. rewrite (Float53_Proofs.fl_comp q _ Hq). destruct (percent_trip k Hk) as [-> | ->]; auto.
Qed.
Print Assumptions convdbl_percent.
Example convdbl_percent_case :
  match dbl_percent_back (lit "-57%") with Ok v => dbl_percent_convert v | Err _ => [] end = lit "-56%" /\
  match dbl_percent_back (lit "42%") with Ok v => dbl_percent_convert v | Err _ => [] end = lit "42%" /\
  dbl_percent_back (lit "12 %%") = Ok (fl (12 # 100)) /\ dbl_percent_back (lit "1%2") = Err ValueError.
Proof. vm_compute. repeat split. Qed.
