(** Properties C37 and C40 of the float, physical value and percent converters. *)
From Coq Require Import String Ascii List ZArith Bool Lia QArith Qround Lqa SpecFloat.
From Verif Require Import PyBase Text_Model Text_Proofs ConvNum_Model ConvNum_Spec ConvNum_Proofs ConvDate_Model ConvDate_Proofs.
From Verif Require Import ConvUuid_Spec ConvUuid_Proofs ConvFloat_Model ConvFloat_Spec ConvFloat_Proofs.
Import ListNotations.
Local Open Scope Z_scope.

(** a thousands separator that is no digit, sign, exponent letter and not the decimal mark *)
Definition sane_sep (l : loc) : Prop := forall c, thousands_sep l = Some c ->
  ~ a_digit c /\ ~ In c (lit "+-eE") /\ c <> decimal_point l.

Lemma sane_plain l c : sane_sep l -> thousands_sep l = Some c -> plain c.
Proof.
  intros H E. destruct (H c E) as (H1 & H2 & _). repeat split.
  - destruct (is_digit c) eqn:X; [|reflexivity]. destruct H1. apply a_digit_iff, X.
  - destruct (is_sign c) eqn:X; [|reflexivity]. destruct H2. apply is_sign_iff in X as [->| ->]; simpl; tauto.
  - destruct (is_exp c) eqn:X; [|reflexivity]. destruct H2. apply is_exp_iff in X as [->| ->]; simpl; tauto.
Qed.

(** C40: text without a leading numeral is 0.0, in every locale *)
Theorem conv_fuzzy_no_number l s core :
  stripped s core -> (forall t, prefix_of t core -> ~ a_numeral t) -> fuzzy_back l s = Ok 0%Q.
Proof.
  intros Hs H. apply stripped_iff in Hs. unfold fuzzy_back. rewrite Hs, (proj2 (number_match_none core) H). reflexivity.
Qed.

(** C40: in a locale with decimal point '.', the longest leading numeral without a comma is what is returned *)
Theorem conv_fuzzy_point_locale l s core t q :
  decimal_point l = "."%char -> sane_sep l -> stripped s core -> leading_numeral core t -> numeral "." t q ->
  exists q', fuzzy_back l s = Ok q' /\ (q' == q)%Q.
Proof.
  intros Hd Hsep Hs Hl Hn. apply stripped_iff in Hs. unfold fuzzy_back. rewrite Hs, (proj2 (number_match_leading core t) Hl), Hd. simpl.
  unfold atof, delocalize. rewrite Hd, replace_self.
  assert (E : match thousands_sep l with Some c => remove_c c t | None => t end = t).
  { destruct (thousands_sep l) as [c|] eqn:Ec; [|reflexivity]. apply remove_id. apply (numeral_chars "." t q c); [apply (sane_plain l c Hsep Ec)| |exact Hn].
    destruct (Hsep c Ec) as (_ & _ & X). congruence. }
  rewrite E. apply py_float_complete, Hn.
Qed.

(** C40, finding: a comma in it raises ValueError, unless the comma is the thousands separator, and then it is dropped *)
Theorem conv_fuzzy_comma_raises l s core t :
  decimal_point l = "."%char -> sane_sep l -> stripped s core -> leading_numeral core t -> In ","%char t ->
  (thousands_sep l <> Some ","%char -> fuzzy_back l s = Err ValueError) /\
  (thousands_sep l = Some ","%char -> exists q, numeral "." (without "," t) q /\ exists q', fuzzy_back l s = Ok q' /\ (q' == q)%Q).
Proof.
  intros Hd Hsep Hs Hl Hc. apply stripped_iff in Hs. unfold fuzzy_back. rewrite Hs, (proj2 (number_match_leading core t) Hl), Hd. simpl.
  unfold atof, delocalize. rewrite Hd, replace_self. destruct Hl as (_ & (mark & q & Hm & Hn) & _).
  assert (Hn2 : numeral "," t q).
  { destruct Hm as [->| ->]; [|exact Hn]. destruct (numeral_chars "." t q ","%char plain_comma ltac:(discriminate) Hn Hc). }
  split.
  - intros Ht.
    assert (E : match thousands_sep l with Some c => remove_c c t | None => t end = t).
    { destruct (thousands_sep l) as [c|] eqn:Ec; [|reflexivity]. apply remove_id. apply (numeral_chars "," t q c); [apply (sane_plain l c Hsep Ec)|congruence|exact Hn2]. }
    rewrite E. destruct (py_float t) as [v|e] eqn:Ef.
    + apply py_float_sound in Ef. destruct (numeral_chars "." t v ","%char plain_comma ltac:(discriminate) Ef Hc).
    + unfold py_float in Ef. destruct (match t with [] => None | c :: r => _ end); congruence.
  - intros Ht. rewrite Ht. destruct (numeral_without "," "." t q plain_comma Hn2) as [v Hv]. exists v. split; [exact Hv|].
    rewrite remove_without. apply py_float_complete, Hv.
Qed.

(** C40: in a locale with decimal comma both marks are understood *)
Theorem conv_fuzzy_comma_locale l s core t mark q :
  decimal_point l = ","%char -> sane_sep l -> stripped s core -> leading_numeral core t ->
  (mark = "."%char \/ mark = ","%char) -> numeral mark t q ->
  exists q', fuzzy_back l s = Ok q' /\ (q' == q)%Q.
Proof.
  intros Hd Hsep Hs Hl Hm Hn. apply stripped_iff in Hs. unfold fuzzy_back. rewrite Hs, (proj2 (number_match_leading core t) Hl), Hd. simpl.
  assert (Hn2 : numeral "," (replace_c "." "," t) q).
  { destruct Hm as [->| ->]; [apply numeral_replace; [exact plain_dot|exact Hn]|].
    rewrite replace_id; [exact Hn|]. apply (numeral_chars "," t q "."%char plain_dot ltac:(discriminate) Hn). }
  unfold atof, delocalize. rewrite Hd.
  assert (E : match thousands_sep l with Some c => remove_c c (replace_c "." "," t) | None => replace_c "." "," t end = replace_c "." "," t).
  { destruct (thousands_sep l) as [c|] eqn:Ec; [|reflexivity]. apply remove_id. apply (numeral_chars "," _ q c); [apply (sane_plain l c Hsep Ec)| |exact Hn2].
    destruct (Hsep c Ec) as (_ & _ & X). congruence. }
  rewrite E. apply py_float_complete. apply numeral_replace; [exact plain_comma|exact Hn2].
Qed.

(** C40: physical values are the parsed number divided by the multiplier; pass_none only works in one direction *)
Theorem conv_physical_back l mult pn s q :
  ~ (mult == 0)%Q -> fuzzy_back l s = Ok q -> exists v, physical_back l mult pn (Some s) = Ok v /\ (v * mult == q)%Q.
Proof.
  intros Hm Hq. unfold physical_back, float_back. rewrite Hq. simpl.
  destruct (Qeq_bool mult 0) eqn:E; [apply Qeq_bool_iff in E; contradiction|]. eexists. split; [reflexivity|]. field. exact Hm.
Qed.
Theorem conv_physical_none_refuted l mult : physical_back l mult true None = Err AttributeError.
Proof. reflexivity. Qed.

(** C37: percent texts, exact arithmetic *)
Lemma percent_strip k : strip_by (eq_c "%") (str_of_int k ++ lit "%") = str_of_int k.
Proof.
  apply (strip_sandwich (eq_c "%") [] (str_of_int k) (lit "%")); [reflexivity|reflexivity|].
  assert (D : forall c, In c (str_of_int k) -> eq_c "%" c = false).
  { unfold str_of_int. intros c Hc. assert (G : forall n, 0 <= n -> In c (dec n) -> eq_c "%" c = false).
    { intros n Hn H. destruct (dec_spec n Hn) as (_ & Dn & _). rewrite forallb_forall in Dn. specialize (Dn c H). revert Dn. chars_up c; vm_compute; congruence. }
    destruct (k <? 0) eqn:E.
    - destruct Hc as [<-|Hc]; [reflexivity|]. apply Z.ltb_lt in E. apply (G (- k)); [lia|exact Hc].
    - apply Z.ltb_ge in E. apply (G k); [lia|exact Hc]. }
  split; intros c t E; apply D; rewrite E; [left; reflexivity|apply in_or_app; right; left; reflexivity].
Qed.
Lemma float_of_int k : exists q, float_call (str_of_int k) = Ok q /\ (q == inject_Z k)%Q.
Proof.
  assert (S : strip_by is_cspace (str_of_int k) = str_of_int k).
  { rewrite <- (app_nil_r (str_of_int k)) at 1. apply (strip_sandwich is_cspace [] (str_of_int k) []); [reflexivity|reflexivity|].
    assert (D : forall c, In c (str_of_int k) -> is_cspace c = false).
    { unfold str_of_int. intros c Hc. assert (G : forall n, 0 <= n -> In c (dec n) -> is_cspace c = false).
      { intros n Hn H. destruct (dec_spec n Hn) as (_ & Dn & _). rewrite forallb_forall in Dn. apply digit_not_cspace, Dn, H. }
      destruct (k <? 0) eqn:E; [destruct Hc as [<-|Hc]; [reflexivity|]; apply Z.ltb_lt in E; apply (G (- k)); [lia|exact Hc]|].
      apply Z.ltb_ge in E. apply (G k); [lia|exact Hc]. }
    split; intros c t E; apply D; rewrite E; [left; reflexivity|apply in_or_app; right; left; reflexivity]. }
  unfold float_call. rewrite S. clear S. apply py_float_complete. unfold str_of_int. destruct (k <? 0) eqn:E.
  - apply Z.ltb_lt in E. destruct (dec_spec (- k) ltac:(lia)) as (V & D & N & _).
    exists (lit "-"), (-1), (dec (- k)), [], [], [], 0. rewrite !app_nil_r. repeat split; try constructor; try (apply digits_iff; exact D); try exact N.
    rewrite <- positional_value, V. replace (-1 * - k) with k by lia. change (Qpower _ _) with 1%Q. rewrite Qmult_1_r. reflexivity.
  - apply Z.ltb_ge in E. destruct (dec_spec k ltac:(lia)) as (V & D & N & _).
    exists [], 1, (dec k), [], [], [], 0. rewrite !app_nil_r. repeat split; try constructor; try (apply digits_iff; exact D); try exact N.
    rewrite <- positional_value, V. replace (1 * k) with k by lia. change (Qpower _ _) with 1%Q. rewrite Qmult_1_r. reflexivity.
Qed.
Theorem conv_percent_roundtrip k :
  exists v, percent_back (str_of_int k ++ lit "%") = Ok v /\ (v == inject_Z k / 100)%Q /\ percent_convert v = str_of_int k ++ lit "%".
Proof.
  unfold percent_back. rewrite percent_strip. destruct (float_of_int k) as (q & -> & Hq). eexists. split; [reflexivity|]. split; [rewrite Hq; reflexivity|].
  unfold percent_convert. f_equal. f_equal. rewrite (q_trunc_comp _ (inject_Z k)); [apply q_trunc_inject|]. rewrite Hq. field.
Qed.
(** C37, finding: in binary64 "29%" comes back as "28%"; of 0..100 percent exactly 29, 57 and 58 are changed *)
Theorem conv_percent_double_refuted :
  fl_percent_convert (fl_percent_back_int 29) = lit "28%" /\
  filter (fun k => if list_eq_dec ascii_dec (fl_percent_convert (fl_percent_back_int k)) (str_of_int k ++ lit "%") then false else true)
    (map Z.of_nat (seq 0 101)) = [29; 57; 58].
Proof. vm_compute. auto. Qed.

Print Assumptions conv_fuzzy_no_number.
Print Assumptions conv_fuzzy_point_locale.
Print Assumptions conv_fuzzy_comma_raises.
Print Assumptions conv_fuzzy_comma_locale.
Print Assumptions conv_physical_back.
Print Assumptions conv_physical_none_refuted.
Print Assumptions conv_percent_roundtrip.
Print Assumptions conv_percent_double_refuted.

Definition c_locale := Loc "." None.
Definition en_locale := Loc "." (Some ","%char).
Definition de_locale := Loc "," (Some "."%char).
Example conv_c40_case :
  fuzzy_back c_locale (lit "  -12.50e-1 nm") = Ok (- (1250 # 1000))%Q /\
  fuzzy_back c_locale (lit "nm 5") = Ok 0%Q /\ fuzzy_back c_locale (lit "1,5") = Err ValueError /\
  (exists q, fuzzy_back en_locale (lit "1,5") = Ok q /\ Qeq_bool q (15 # 1) = true) /\
  (exists q, fuzzy_back de_locale (lit "1.5 kg") = Ok q /\ Qeq_bool q (3 # 2) = true).
Proof. repeat split; try (vm_compute; reflexivity); eexists; (split; [vm_compute; reflexivity|vm_compute; reflexivity]). Qed.
Example conv_c40_leading : leading_numeral (lit "-12.50e-1 nm") (lit "-12.50e-1").
Proof. apply number_match_leading. vm_compute. reflexivity. Qed.
Example conv_c37_case : percent_convert (29 # 100) = lit "29%" /\ percent_back (lit " 7 %%") = Ok (7 * (1 # 1) / 100)%Q /\ percent_back (lit "-7%") = Ok (- inject_Z 7 * (1 # 1) / 100)%Q.
Proof. vm_compute. auto. Qed.
