(** Properties C35, C36 and C41 of the converters. *)
From Coq Require Import String Ascii List ZArith Bool Lia QArith.
From Verif Require Import PyBase Text_Model Text_Proofs ConvNum_Model ConvNum_Spec ConvNum_Proofs.
Import ListNotations.
Local Open Scope Z_scope.

(** C35 *)
Theorem conv_int_roundtrip n : int_convert_back (int_convert n) = Ok n.
Proof. exact (int_roundtrip n). Qed.
Theorem conv_int_accepts s n : int_convert_back s = Ok n <-> int_literal s n.
Proof. exact (int_literal_lemma s n). Qed.
Theorem conv_int_rejects s : (forall n, ~ int_literal s n) -> int_convert_back s = Err ValueError.
Proof.
  intros H. unfold int_convert_back. destruct (py_int s) as [n|e] eqn:E.
  - exfalso. apply (H n), int_literal_lemma, E.
  - revert E. unfold py_int. match goal with |- match ?r with _ => _ end = _ -> _ => destruct r end; congruence.
Qed.
(** the text produced is canonical: minus sign only for negative numbers, no leading zero, digits only *)
Theorem conv_int_text_canonical n :
  exists ds, int_convert n = (if n <? 0 then lit "-" else []) ++ ds /\ ds <> [] /\ Forall a_digit ds /\
    positional ds = Z.abs n /\ (hd_error ds = Some "0"%char -> n = 0).
Proof.
  assert (G : forall m, 0 <= m -> dec m <> [] /\ Forall a_digit (dec m) /\ positional (dec m) = m /\ (hd_error (dec m) = Some "0"%char -> m = 0)).
  { intros m Hm. destruct (dec_spec m Hm) as (H1 & H2 & H3 & H4). split; [exact H3|]. split.
    - apply Forall_forall. intros c Hc. apply a_digit_iff. rewrite forallb_forall in H2. auto.
    - split; [rewrite <- positional_value; exact H1|]. intros H. destruct (Z.eq_dec m 0); [assumption|]. exfalso. apply H4; assumption. }
  unfold int_convert, str_of_int. destruct (Z.ltb_spec n 0) as [Hn|Hn].
  - exists (dec (- n)). destruct (G (- n) ltac:(lia)) as (G1 & G2 & G3 & G4). split; [reflexivity|]. repeat split; try assumption.
    + rewrite G3. lia.
    + intros H. specialize (G4 H). lia.
  - exists (dec n). destruct (G n Hn) as (G1 & G2 & G3 & G4). split; [reflexivity|]. repeat split; try assumption. rewrite G3. lia.
Qed.
Print Assumptions conv_int_roundtrip.
Print Assumptions conv_int_accepts.
Print Assumptions conv_int_rejects.
Print Assumptions conv_int_text_canonical.
Example conv_c35_case :
  int_convert (-1207) = lit "-1207" /\ int_convert 0 = lit "0" /\ int_convert_back (lit " +1_000 ") = Ok 1000 /\
  int_convert_back (lit "-") = Err ValueError /\ int_convert_back (lit "1__0") = Err ValueError /\ int_convert_back (lit "- 5") = Err ValueError.
Proof. vm_compute. auto 10. Qed.

(** C36 *)
Theorem conv_scaled_position_roundtrip n mn mx k v :
  (mn < mx)%Q -> scaled_convert_back n mn mx k = Ok v -> scaled_convert n mn mx v = Ok k.
Proof. exact (scaled_roundtrip_int n mn mx k v). Qed.
Theorem conv_scaled_value_within_step n mn mx v :
  0 < n -> (mn < mx)%Q -> (mn <= v <= mx)%Q ->
  exists k, scaled_convert n mn mx v = Ok k /\ 0 <= k <= n /\
    exists w, scaled_convert_back n mn mx k = Ok w /\ (w <= v)%Q /\ (v < w + (mx - mn) / inject_Z n)%Q.
Proof. exact (scaled_range n mn mx v). Qed.
Theorem conv_scaled_onto n mn mx k :
  0 < n -> (mn < mx)%Q -> 0 <= k <= n ->
  exists v, (mn <= v <= mx)%Q /\ scaled_convert n mn mx v = Ok k.
Proof.
  intros Hn Hm Hk. destruct (scaled_back_in_range n mn mx k Hn Hm Hk) as (v & E & Hv). exists v. split; [exact Hv|].
  eapply scaled_roundtrip_int; eassumption.
Qed.
Print Assumptions conv_scaled_position_roundtrip.
Print Assumptions conv_scaled_value_within_step.
Print Assumptions conv_scaled_onto.
Example conv_c36_case :
  scaled_convert_back 100 (-1) 3 29 = Ok (4 * 29 / 100 - 1)%Q /\ scaled_convert 100 (-1) 3 (4 * 29 / 100 - 1) = Ok 29 /\
  scaled_convert 100 (-1) 3 (1 # 7) = Ok 28.
Proof. vm_compute. auto. Qed.

(** Finding: in doubles, with n = 100 on [0, 1], exactly the positions 29, 57 and 58 come back one lower *)
Theorem conv_scaled_double_refuted :
  fl_convert 100 (fl_convert_back 100 29) = 28 /\
  filter (fun k => negb (fl_convert 100 (fl_convert_back 100 k) =? k)) (map Z.of_nat (seq 0 101)) = [29; 57; 58].
Proof. vm_compute. auto. Qed.
Print Assumptions conv_scaled_double_refuted.

(** C41 *)
Theorem conv_check_roundtrip b : check_convert_back (check_convert b) = b.
Proof. destruct b; reflexivity. Qed.
Theorem conv_check_back_true s : check_convert_back s = true <-> s = check_convert true.
Proof. unfold check_convert_back. destruct (list_eq_dec ascii_dec s (lit "checked")); simpl; intuition congruence. Qed.
Print Assumptions conv_check_roundtrip.
Print Assumptions conv_check_back_true.
Example conv_c41_case : check_convert_back (lit "Checked") = false /\ check_convert_back (lit "checked") = true.
Proof. vm_compute. auto. Qed.
