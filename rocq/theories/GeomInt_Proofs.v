From Coq Require Import ZArith QArith Qround Bool Lia Lqa.
From Verif Require Import PyBase ConvNum_Model ConvNum_Proofs Float53_Model Float53_Proofs GeomInt_Model GeomInt_Spec.
Local Open Scope Z_scope.

Lemma q_trunc_int z : q_trunc (inject_Z z) = z.
Proof. unfold q_trunc. simpl. apply Z.quot_1_r. Qed.
Lemma make_tuple p : ipoint_make (ipoint_tuple p) = p.
Proof. destruct p. unfold ipoint_make, ipoint_of, ipoint_tuple. simpl. rewrite !q_trunc_int. reflexivity. Qed.
Lemma smake_tuple s : isize_make (isize_tuple s) = s.
Proof. destruct s. unfold isize_make, isize_of, isize_tuple. simpl. rewrite !q_trunc_int. reflexivity. Qed.

Lemma q_trunc_truncates q : truncates q (q_trunc q).
Proof.
  destruct q as [n d]. unfold truncates, q_trunc, Qle, Qlt, inject_Z. cbn [Qnum Qden]. split; intros H.
  - rewrite Z.quot_div_nonneg by lia. pose proof (Z.div_mod n (Zpos d) ltac:(lia)). pose proof (Z.mod_pos_bound n (Zpos d) ltac:(lia)). nia.
  - assert (E : Z.quot n (Zpos d) = - (- n / Zpos d)).
    { rewrite <- (Z.opp_involutive n) at 1. rewrite Z.quot_opp_l by discriminate. rewrite Z.quot_div_nonneg by lia. reflexivity. }
    rewrite E. pose proof (Z.div_mod (- n) (Zpos d) ltac:(lia)). pose proof (Z.mod_pos_bound (- n) (Zpos d) ltac:(lia)). nia.
Qed.

Lemma contains_iff r y x : r_contains_point r (inject_Z y, inject_Z x) = true <-> inside r y x.
Proof.
  destruct r as [[t l] [h w]]. unfold r_contains_point, ipoint_make, ipoint_of, inside, r_left, r_right, r_top, r_bottom. cbn [fst snd px py r_origin r_size sh sw].
  rewrite !q_trunc_int, !andb_true_iff, !Z.leb_le, !Z.ltb_lt. lia.
Qed.

(** half sizes *)
Lemma half_size z : Z.abs z <= 2 ^ 53 -> q_trunc (fl (fl (inject_Z z) * (1 # 2))) = Z.quot z 2.
Proof.
  intros Hz. apply fl_quot; [exact Hz|discriminate|]. rewrite (fl_int (inject_Z z) z) by (reflexivity || exact Hz). reflexivity.
Qed.
Lemma from_center_top c s : Z.abs (sh s) <= 2 ^ 53 -> Z.abs (sw s) <= 2 ^ 53 ->
  r_from_center_and_size c s = IRect (IPoint (py c - Z.quot (sh s) 2) (px c - Z.quot (sw s) 2)) s.
Proof.
  intros H1 H2. unfold r_from_center_and_size, ipoint_sub_size, isize_of. cbn [sh sw]. rewrite !half_size by assumption. reflexivity.
Qed.
(** floor and truncated halves differ for negative odd numbers only *)
Definition odd_neg (z : Z) : Z := if (z <? 0) && Z.odd z then 1 else 0.
Lemma half_diff z : z / 2 - Z.quot z 2 = - odd_neg z.
Proof.
  unfold odd_neg. destruct (z <? 0) eqn:E.
  - apply Z.ltb_lt in E. simpl.
    assert (Eq : Z.quot z 2 = - (- z / 2)).
    { rewrite <- (Z.opp_involutive z) at 1. rewrite Z.quot_opp_l by discriminate. rewrite Z.quot_div_nonneg by lia. reflexivity. }
    rewrite Eq. rewrite (Zodd_mod z). pose proof (Z.div_mod z 2 ltac:(lia)). pose proof (Z.mod_pos_bound z 2 ltac:(lia)).
    pose proof (Z.div_mod (- z) 2 ltac:(lia)). pose proof (Z.mod_pos_bound (- z) 2 ltac:(lia)).
    unfold Zeq_bool. destruct (z mod 2 ?= 1) eqn:C.
    + apply Z.compare_eq in C. lia.
    + rewrite Z.compare_lt_iff in C. lia.
    + rewrite Z.compare_gt_iff in C. lia.
  - apply Z.ltb_ge in E. simpl. rewrite Z.quot_div_nonneg by lia. lia.
Qed.
Lemma center_half a h : (a + (a + h)) / 2 = a + h / 2.
Proof. replace (a + (a + h)) with (h + a * 2) by lia. rewrite Z.div_add by lia. lia. Qed.
