(** Property C39 of DatetimeToStringConverter. *)
From Coq Require Import String Ascii List ZArith Bool Lia.
From Verif Require Import PyBase Text_Model Text_Proofs ConvNum_Spec ConvNum_Proofs ConvDate_Model ConvDate_Spec ConvDate_Proofs.
Import ListNotations.
Local Open Scope Z_scope.

(** every valid datetime without UTC offset comes back *)
Theorem conv_date_roundtrip d : valid_datetime d -> date_convert_back (date_convert d None) = Some d.
Proof.
  intros V. pose proof V as (VY & VD & VH & VM & VS & VU). apply days_iff in VD as (Vm & Vd1 & Vd2).
  assert (Vd3 : dt_day d <= 31).
  { destruct (proj1 (days_iff (dt_year d) (dt_month d) (dt_day d)) (conj Vm (conj Vd1 Vd2))) as (_ & [[_ ?]|[[_ ?]|[[_ ?]|(_ & ? & _)]]]); lia. }
  unfold date_convert. rewrite app_nil_r. set (frac := negb (dt_micro d =? 0)).
  set (tail := if dt_micro d =? 0 then [] else "."%char :: pad 6 (dt_micro d)).
  assert (Hf : frac_text frac (dt_micro d) tail).
  { unfold frac_text, frac, tail. destruct (dt_micro d =? 0) eqn:E; simpl.
    - apply Z.eqb_eq in E. auto.
    - eexists. split; [reflexivity|]. apply field_pad. change (10 ^ Z.of_nat 6) with 1000000. lia. }
  assert (Ht : date_text d "T" tail (iso_naive d)).
  { unfold date_text, iso_naive. fold tail. exists (pad 4 (dt_year d)), (pad 2 (dt_month d)), (pad 2 (dt_day d)), (pad 2 (dt_hour d)), (pad 2 (dt_minute d)), (pad 2 (dt_second d)).
    split; [reflexivity|]. split; [apply field_pad; change (10 ^ Z.of_nat 4) with 10000; lia|].
    split; [apply field_pad; change (10 ^ Z.of_nat 2) with 100; lia|]. split; [left; apply field_pad; change (10 ^ Z.of_nat 2) with 100; lia|].
    repeat split; try apply field_pad; change (10 ^ Z.of_nat 2) with 100; lia. }
  pose proof (date_text_length frac d "T"%char tail _ Hf Ht) as L.
  assert (G : strptime frac (iso_naive d) = Ok d) by (apply strptime_iff; [exact L|]; split; [exact V|]; exists "T"%char, tail; auto).
  unfold date_convert_back. rewrite L. destruct frac; simpl; rewrite G; reflexivity.
Qed.

(** the accepted texts: exactly YYYY-MM-DDTHH:MM:SS and YYYY-MM-DDTHH:MM:SS.ffffff of valid datetimes; the T may be a
    small letter and the day may have a space in place of a leading zero *)
Theorem conv_date_back_iff s d :
  date_convert_back s = Some d <->
  valid_datetime d /\ exists sep frac, (sep = "T"%char \/ sep = "t"%char) /\ date_text d sep frac s /\
    ((frac = [] /\ dt_micro d = 0) \/ exists ds, frac = "."%char :: ds /\ field 6 (dt_micro d) ds).
Proof.
  unfold date_convert_back. split.
  - destruct (length s =? 26)%nat eqn:E1; [|destruct (length s =? 19)%nat eqn:E2; [|discriminate]].
    + apply Nat.eqb_eq in E1. destruct (strptime true s) as [e|] eqn:E; [|discriminate]. intros [= ->].
      apply (strptime_iff true s d E1) in E as (V & sep & tail & Hs & Hf & Ht). split; [exact V|]. exists sep, tail. auto.
    + apply Nat.eqb_eq in E2. destruct (strptime false s) as [e|] eqn:E; [|discriminate]. intros [= ->].
      apply (strptime_iff false s d E2) in E as (V & sep & tail & Hs & Hf & Ht). split; [exact V|]. exists sep, tail. auto.
  - intros (V & sep & tail & Hs & Ht & Hf). destruct Hf as [Hf|Hf].
    + pose proof (date_text_length false d sep tail s Hf Ht) as L. rewrite L. simpl.
      rewrite (proj2 (strptime_iff false s d L)); [reflexivity|]. split; [exact V|]. exists sep, tail. auto.
    + pose proof (date_text_length true d sep tail s Hf Ht) as L. rewrite L. simpl.
      rewrite (proj2 (strptime_iff true s d L)); [reflexivity|]. split; [exact V|]. exists sep, tail. auto.
Qed.

(** no datetime with a UTC offset comes back, whatever its offset, and no text of another length is accepted *)
Theorem conv_date_offset_lost d off : date_convert_back (date_convert d (Some off)) = None.
Proof.
  unfold date_convert_back, date_convert.
  assert (L1 : length (iso_naive d) = 19%nat \/ length (iso_naive d) = 26%nat).
  { unfold iso_naive. repeat (rewrite app_length || cbn [length] || rewrite pad_length).
    destruct (dt_micro d =? 0); [left|right]; cbn [length]; rewrite ?pad_length; reflexivity. }
  assert (L2 : length (iso_offset off) = 6%nat \/ length (iso_offset off) = 9%nat \/ length (iso_offset off) = 16%nat).
  { unfold iso_offset. cbv zeta. repeat (rewrite app_length || cbn [length] || rewrite pad_length).
    destruct (_ && _); [left; reflexivity|right]. cbn [length]. rewrite app_length, pad_length.
    destruct (_ =? 0); [left; reflexivity|right]. cbn [length]. rewrite pad_length. reflexivity. }
  rewrite app_length. destruct L1 as [->| ->], L2 as [->|[->| ->]]; reflexivity.
Qed.
Theorem conv_date_other_length s : length s <> 19%nat -> length s <> 26%nat -> date_convert_back s = None.
Proof.
  intros H1 H2. unfold date_convert_back. apply Nat.eqb_neq in H1, H2. rewrite H1, H2. reflexivity.
Qed.
Print Assumptions conv_date_roundtrip.
Print Assumptions conv_date_back_iff.
Print Assumptions conv_date_offset_lost.
Print Assumptions conv_date_other_length.

Example conv_c39_case :
  let d := DT 2024 2 29 23 59 58 1234 in
  date_convert d None = lit "2024-02-29T23:59:58.001234" /\ date_convert_back (date_convert d None) = Some d /\
  date_convert_back (lit "2023-02-29T23:59:58") = None /\
  date_convert_back (lit "2024-02- 9t23:59:58") = Some (DT 2024 2 9 23 59 58 0) /\
  date_convert (DT 2024 2 29 23 59 58 0) (Some 19800000000) = lit "2024-02-29T23:59:58+05:30" /\
  date_convert_back (lit "2024-02-29T23:59:58+05:30") = None.
Proof. vm_compute. auto 10. Qed.
Example conv_c39_valid : valid_datetime (DT 2024 2 29 23 59 58 1234).
Proof.
  repeat split; simpl; try lia. right. right. right. repeat split; [exists 506; reflexivity|].
  intros [k H]. lia.
Qed.
