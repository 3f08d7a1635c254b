(** Properties C42-C47 of IntPoint, IntSize and IntRect. *)
From Coq Require Import ZArith QArith Bool Lia.
From Verif Require Import PyBase ConvNum_Model Float53_Model Float53_Proofs GeomInt_Model GeomInt_Spec GeomInt_Proofs.
Local Open Scope Z_scope.

Ltac rects := repeat match goal with r : irect |- _ => destruct r as [[?y ?x] [?h ?w]] end.
Ltac geo := unfold r_intersect, r_union, r_from_tlbr, r_top, r_left, r_bottom, r_right, r_height, r_width in *; cbn [r_origin r_size py px sh sw] in *.

Lemma quad_eq (a b c d a' b' c' d' : Z) : a = a' -> b = b' -> c = c' -> d = d' -> (a, b, c, d) = (a', b', c', d').
Proof. congruence. Qed.

(** ** C42 *)
(** coordinates: each operation acts on y and x separately; points and sizes form abelian groups *)
Theorem geom_point_algebra p q r :
  ipoint_add p q = IPoint (py p + py q) (px p + px q) /\ ipoint_add p q = ipoint_add q p /\
  ipoint_add (ipoint_add p q) r = ipoint_add p (ipoint_add q r) /\ ipoint_add p (IPoint 0 0) = p /\
  ipoint_add p (ipoint_neg p) = IPoint 0 0 /\ ipoint_sub p q = ipoint_add p (ipoint_neg q) /\
  (forall s, ipoint_add_size (ipoint_sub_size p s) s = p).
Proof.
  destruct p as [a b], q as [c d], r as [e f]. unfold ipoint_add, ipoint_sub, ipoint_neg, ipoint_add_size, ipoint_sub_size. cbn [py px].
  repeat split; intros; try (destruct s as [h w]); cbn [py px sh sw]; f_equal; lia.
Qed.
Theorem geom_size_algebra s u v :
  let plus a b := isize_add a (isize_tuple b) in let minus a b := isize_sub a (isize_tuple b) in
  plus s u = ISize (sh s + sh u) (sw s + sw u) /\ plus s u = plus u s /\ plus (plus s u) v = plus s (plus u v) /\
  plus s (ISize 0 0) = s /\ plus s (isize_neg s) = ISize 0 0 /\ minus s u = plus s (isize_neg u).
Proof.
  cbv zeta. unfold isize_add, isize_sub. rewrite !smake_tuple. destruct s as [a b], u as [c d], v as [e f]. unfold isize_neg. cbn [sh sw].
  repeat split; f_equal; lia.
Qed.
(** conversion to a tuple and back; == and != *)
Theorem geom_make_tuple p s : ipoint_make (ipoint_tuple p) = p /\ isize_make (isize_tuple s) = s.
Proof. split; [apply make_tuple|apply smake_tuple]. Qed.
Theorem geom_eq_ne p s o : ipoint_ne p o = negb (ipoint_eq p o) /\ isize_ne s o = negb (isize_eq s o).
Proof. destruct o; split; simpl; rewrite ?negb_andb; reflexivity. Qed.
(** a point equals a tuple iff the coordinates of the tuple truncate to its own; so points compare as expected with each
    other, and (finding) a tuple with fractions compares equal *)
Theorem geom_eq_truncates p y x :
  ipoint_eq p (Some (y, x)) = true <-> exists n m, truncates y n /\ truncates x m /\ p = IPoint n m.
Proof.
  unfold ipoint_eq, ipoint_make, ipoint_of. cbn [fst snd px py]. rewrite andb_true_iff, !Z.eqb_eq. split.
  - intros [Hx Hy]. exists (q_trunc y), (q_trunc x). split; [apply q_trunc_truncates|]. split; [apply q_trunc_truncates|].
    destruct p as [a b]. cbn [px py] in *. congruence.
  - assert (U : forall q n m, truncates q n -> truncates q m -> n = m).
    { intros q n m [A B] [A' B']. destruct (Qlt_le_dec q 0) as [L|L].
      - destruct (B (Qlt_le_weak _ _ L)) as [B1 B2]. destruct (B' (Qlt_le_weak _ _ L)) as [B3 B4].
        assert (inject_Z (n - 1) < inject_Z m)%Q by (eapply Qlt_le_trans; eassumption). assert (inject_Z (m - 1) < inject_Z n)%Q by (eapply Qlt_le_trans; eassumption).
        rewrite <- Zlt_Qlt in *. lia.
      - destruct (A L) as [B1 B2]. destruct (A' L) as [B3 B4].
        assert (inject_Z n < inject_Z (m + 1))%Q by (eapply Qle_lt_trans; eassumption). assert (inject_Z m < inject_Z (n + 1))%Q by (eapply Qle_lt_trans; eassumption).
        rewrite <- Zlt_Qlt in *. lia. }
    intros (n & m & Hy & Hx & ->). cbn [px py]. split; [apply (U x)|apply (U y)]; auto using q_trunc_truncates.
Qed.
Theorem geom_eq_points p q : ipoint_eq p (Some (ipoint_tuple q)) = true <-> p = q.
Proof.
  unfold ipoint_eq. rewrite make_tuple. cbv zeta. rewrite andb_true_iff, !Z.eqb_eq. destruct p as [a b], q as [c d]. cbn [px py]. split; [intros [-> ->]; reflexivity|intros [= -> ->]; auto].
Qed.
Theorem geom_eq_fraction_refuted : ipoint_eq (IPoint 1 2) (Some (3 # 2, 5 # 2)%Q) = true.
Proof. reflexivity. Qed.

(** ** C43 *)
Theorem geom_contains r y x : r_contains_point r (inject_Z y, inject_Z x) = true <-> inside r y x.
Proof. apply contains_iff. Qed.
Theorem geom_intersect_points a b y x : inside (r_intersect a b) y x <-> inside a y x /\ inside b y x.
Proof. rects. geo. unfold inside. lia. Qed.
Theorem geom_intersect_laws a b c :
  r_intersect a b = r_intersect b a /\ r_intersect (r_intersect a b) c = r_intersect a (r_intersect b c) /\ r_intersect a a = a.
Proof. rects. geo. repeat split; f_equal; f_equal; lia. Qed.
Theorem geom_intersect_edges a b :
  let '(t1, l1, b1, r1) := edges a in let '(t2, l2, b2, r2) := edges b in
  edges (r_intersect a b) = (Z.max t1 t2, Z.max l1 l2, Z.min b1 b2, Z.min r1 r2).
Proof. rects. geo. unfold edges. apply quad_eq; lia. Qed.

(** ** C44 *)
Theorem geom_union_points a b y x : inside a y x \/ inside b y x -> inside (r_union a b) y x.
Proof. rects. geo. unfold inside. lia. Qed.
Theorem geom_union_least a b big : encloses big a -> encloses big b -> encloses big (r_union a b).
Proof. rects. geo. unfold encloses, edges in *. lia. Qed.
Theorem geom_union_encloses a b : encloses (r_union a b) a /\ encloses (r_union a b) b.
Proof. rects. geo. unfold encloses, edges in *. lia. Qed.
Theorem geom_union_laws a b c :
  r_union a b = r_union b a /\ r_union (r_union a b) c = r_union a (r_union b c) /\ r_union a a = a.
Proof. rects. geo. repeat split; f_equal; f_equal; lia. Qed.

(** ** C45 *)
Lemma intersects_char a b : r_intersects_rect a b = true <->
  r_left a <= r_right b /\ r_left b <= r_right a /\ r_top b <= r_bottom a /\ r_top a <= r_bottom b.
Proof.
  unfold r_intersects_rect. rewrite <- !Z.ltb_ge.
  destruct (r_right b <? r_left a), (r_right a <? r_left b), (r_bottom a <? r_top b), (r_bottom b <? r_top a); cbn [orb]; intuition congruence.
Qed.
Theorem geom_intersects_iff a b : nonneg_size a -> nonneg_size b ->
  (r_intersects_rect a b = true <-> exists y x, inside_closed a y x /\ inside_closed b y x).
Proof.
  rewrite intersects_char. destruct a as [[t1 l1] [h1 w1]], b as [[t2 l2] [h2 w2]]. unfold nonneg_size, inside_closed. geo. intros Ha Hb. split.
  - intros H. exists (Z.max t1 t2), (Z.max l1 l2). lia.
  - intros (y & x & H1 & H2). lia.
Qed.
Theorem geom_intersects_common a b y x : inside a y x -> inside b y x -> r_intersects_rect a b = true.
Proof. rewrite intersects_char. rects. unfold inside. geo. lia. Qed.
Theorem geom_intersects_sym a b : r_intersects_rect a b = r_intersects_rect b a.
Proof. unfold r_intersects_rect. rewrite (orb_comm (r_right b <? r_left a)), (orb_comm (r_bottom a <? r_top b)). reflexivity. Qed.
(** finding: two rectangles that only touch count as intersecting *)
Theorem geom_touching_refuted :
  let a := r_from_tlbr 0 0 1 1 in let b := r_from_tlbr 0 1 1 2 in
  r_intersects_rect a b = true /\ forall y x, ~ (inside a y x /\ inside b y x).
Proof. cbv zeta. split; [reflexivity|]. intros y x. unfold inside, r_from_tlbr. lia. Qed.

(** ** C46 *)
Theorem geom_translated r dy dx y x :
  r_size (r_translated r (inject_Z dy, inject_Z dx)) = r_size r /\
  (let '(t, l, b, rr) := edges r in edges (r_translated r (inject_Z dy, inject_Z dx)) = (t + dy, l + dx, b + dy, rr + dx)) /\
  (inside (r_translated r (inject_Z dy, inject_Z dx)) (y + dy) (x + dx) <-> inside r y x).
Proof.
  rects. unfold r_translated, ipoint_make, ipoint_of, ipoint_add. cbn [fst snd r_origin r_size py px]. rewrite !q_trunc_int.
  split; [reflexivity|]. split; [unfold edges; apply quad_eq; lia|unfold inside; lia].
Qed.
Theorem geom_inset_inverse r dx dy :
  r_inset (r_inset r dx (Some dy)) (- dx) (Some (- dy)) = r /\ r_inset (r_inset r dx None) (- dx) None = r.
Proof. rects. unfold r_inset. geo. split; f_equal; f_equal; lia. Qed.
Theorem geom_inset_edges r dx dy :
  let '(t, l, b, rr) := edges r in edges (r_inset r dx (Some dy)) = (t + dy, l + dx, b - dy, rr - dx).
Proof. rects. unfold r_inset. geo. unfold edges. apply quad_eq; lia. Qed.
Theorem geom_from_edges t l b r :
  edges (r_from_tlbr t l b r) = (t, l, b, r) /\ edges (r_from_tlhw t l (b - t) (r - l)) = (t, l, b, r) /\
  (forall q, let '(t', l', b', r') := edges q in r_from_tlbr t' l' b' r' = q).
Proof.
  unfold r_from_tlbr, r_from_tlhw. repeat split; [unfold edges; apply quad_eq; lia..|]. intros [[? ?] [? ?]]. unfold edges. f_equal. f_equal; lia.
Qed.
(** r + p and r - p move the rectangle, except that each negative odd extent is displaced by one more *)
Theorem geom_add_point r p : double_size r ->
  r_size (r_add r p) = r_size r /\
  (let '(t, l, b, rr) := edges r in
   r_origin (r_add r p) = IPoint (t + py p - odd_neg (b - t)) (l + px p - odd_neg (rr - l)) /\
   r_origin (r_sub r p) = IPoint (t - py p - odd_neg (b - t)) (l - px p - odd_neg (rr - l))).
Proof.
  intros [H1 H2]. rects. destruct p as [dy dx]. unfold r_add, r_sub. cbn [r_size r_origin py px sh sw] in *. rewrite !from_center_top by assumption.
  split; [reflexivity|]. unfold edges. cbn [r_origin]. unfold r_center, ipoint_add, ipoint_sub, r_top, r_bottom, r_left, r_right. cbn [r_origin r_size py px sh sw].
  rewrite !center_half. replace (y + h - y) with h by lia. replace (x + w - x) with w by lia.
  pose proof (half_diff h). pose proof (half_diff w). split; f_equal; lia.
Qed.
Theorem geom_add_is_translated r p : double_size r -> nonneg_size r ->
  r_add r p = r_translated r (ipoint_tuple p) /\ r_sub r p = r_translated r (ipoint_tuple (ipoint_neg p)) /\ r_sub (r_add r p) p = r.
Proof.
  intros H N.
  assert (G : forall r p, double_size r -> nonneg_size r -> r_add r p = r_translated r (ipoint_tuple p) /\ r_sub r p = r_translated r (ipoint_tuple (ipoint_neg p))).
  { clear. intros r p [H1 H2] [N1 N2]. rects. destruct p as [dy dx]. unfold r_add, r_sub. cbn [r_size r_origin py px sh sw] in *. rewrite !from_center_top by assumption.
    unfold r_translated. rewrite !make_tuple. unfold r_center, ipoint_add, ipoint_sub, ipoint_neg, r_top, r_bottom, r_left, r_right. cbn [r_origin r_size py px sh sw].
    rewrite !center_half, !Z.quot_div_nonneg by lia. split; f_equal; f_equal; lia. }
  destruct (G r p H N) as [G1 G2]. split; [exact G1|]. split; [exact G2|]. rewrite G1.
  assert (H' : double_size (r_translated r (ipoint_tuple p))) by exact H. assert (N' : nonneg_size (r_translated r (ipoint_tuple p))) by exact N.
  destruct (G _ p H' N') as [_ ->]. unfold r_translated. rewrite !make_tuple. rects. destruct p as [dy dx]. unfold ipoint_add, ipoint_neg. cbn [r_origin r_size py px]. f_equal. f_equal; lia.
Qed.
(** finding: adding the zero point moves a rectangle of height -1 *)
Theorem geom_add_negative_refuted : r_add (r_from_tlhw 0 0 (-1) 4) (IPoint 0 0) <> r_from_tlhw 0 0 (-1) 4.
Proof. vm_compute. discriminate. Qed.

(** ** C47 *)
Theorem geom_floordiv_truncates s k : Z.abs (sh s) <= 2 ^ 53 -> Z.abs (sw s) <= 2 ^ 53 -> k <> 0 ->
  isize_floordiv s k = Ok (ISize (Z.quot (sh s) k) (Z.quot (sw s) k)).
Proof.
  intros H1 H2 Hk. unfold isize_floordiv, isize_of. destruct (k =? 0) eqn:E; [apply Z.eqb_eq in E; congruence|].
  rewrite (fl_quot _ (sh s) k H1 Hk) by reflexivity. rewrite (fl_quot _ (sw s) k H2 Hk) by reflexivity. reflexivity.
Qed.
(** ... so it differs from // on integers exactly when the signs differ and the division is inexact *)
Theorem geom_floordiv_differs n k : k <> 0 -> (Z.quot n k <> n / k <-> n * k < 0 /\ ~ (k | n)).
Proof.
  intros Hk. pose proof (Z.quot_rem' n k) as Q. pose proof (Z.div_mod n k Hk) as D.
  assert (DV : (k | n) <-> n mod k = 0) by (symmetry; apply Z.mod_divide; exact Hk). rewrite DV.
  assert (QD : n mod k = 0 -> Z.quot n k = n / k) by (intros X; rewrite X, Z.add_0_r in D; rewrite D at 1; rewrite Z.mul_comm; apply Z.quot_mul; exact Hk).
  destruct (Z.lt_ge_cases 0 k) as [P|P].
  - pose proof (Z.mod_pos_bound n k P). destruct (Z.lt_ge_cases n 0) as [L|L].
    + pose proof (Z.rem_bound_pos_neg n k ltac:(lia) ltac:(lia)). split; [intros N; split; [nia|intros X; apply N; apply QD; exact X]|]. intros [_ X] E. rewrite E in Q. lia.
    + rewrite Z.quot_div_nonneg by lia. split; [intros X; exfalso; apply X; reflexivity|]. intros [X _]. nia.
  - pose proof (Z.mod_neg_bound n k ltac:(lia)). destruct (Z.lt_ge_cases 0 n) as [L|L].
    + pose proof (Z.rem_bound_neg_pos n k ltac:(lia) ltac:(lia)). split; [intros N; split; [nia|intros X; apply N; apply QD; exact X]|]. intros [_ X] E. rewrite E in Q. lia.
    + assert (E : Z.quot n k = n / k).
      { rewrite <- (Z.quot_opp_opp n k) by lia. rewrite Z.quot_div_nonneg by lia. apply Z.div_opp_opp. lia. }
      rewrite E. split; [intros X; exfalso; apply X; reflexivity|]. intros [X _]. nia.
Qed.
(** multiplication by an integer is exact as long as everything stays within 2^53 *)
Theorem geom_mul_exact s k :
  Z.abs (sh s) <= 2 ^ 53 -> Z.abs (sw s) <= 2 ^ 53 -> Z.abs k <= 2 ^ 53 -> Z.abs (sh s * k) <= 2 ^ 53 -> Z.abs (sw s * k) <= 2 ^ 53 ->
  isize_mul s (inject_Z k) = ISize (sh s * k) (sw s * k).
Proof.
  intros H1 H2 Hk H3 H4. unfold isize_mul, isize_of.
  assert (G : forall z, Z.abs z <= 2 ^ 53 -> Z.abs (z * k) <= 2 ^ 53 -> q_trunc (fl (fl (inject_Z z) * fl (inject_Z k))) = z * k).
  { intros z Hz Hzk. rewrite (q_trunc_eq _ (inject_Z (z * k))); [apply q_trunc_int|]. apply fl_int; [|exact Hzk].
    rewrite (fl_int (inject_Z z) z), (fl_int (inject_Z k) k) by (reflexivity || assumption). rewrite inject_Z_mult. reflexivity. }
  rewrite !G by assumption. reflexivity.
Qed.
(** findings: // rounds toward zero, and large sizes lose their last digits *)
Theorem geom_floordiv_refuted :
  isize_floordiv (ISize (-7) 7) 2 = Ok (ISize (-3) 3) /\ -7 / 2 = -4 /\
  isize_floordiv (ISize (2 ^ 53 + 1) 0) 1 = Ok (ISize (2 ^ 53) 0).
Proof. vm_compute. auto. Qed.

Print Assumptions geom_point_algebra.
Print Assumptions geom_size_algebra.
Print Assumptions geom_make_tuple.
Print Assumptions geom_eq_ne.
Print Assumptions geom_eq_truncates.
Print Assumptions geom_eq_points.
Print Assumptions geom_eq_fraction_refuted.
Print Assumptions geom_contains.
Print Assumptions geom_intersect_points.
Print Assumptions geom_intersect_laws.
Print Assumptions geom_intersect_edges.
Print Assumptions geom_union_points.
Print Assumptions geom_union_least.
Print Assumptions geom_union_encloses.
Print Assumptions geom_union_laws.
Print Assumptions geom_intersects_iff.
Print Assumptions geom_intersects_common.
Print Assumptions geom_intersects_sym.
Print Assumptions geom_touching_refuted.
Print Assumptions geom_translated.
Print Assumptions geom_inset_inverse.
Print Assumptions geom_inset_edges.
Print Assumptions geom_from_edges.
Print Assumptions geom_add_point.
Print Assumptions geom_add_is_translated.
Print Assumptions geom_add_negative_refuted.
Print Assumptions geom_floordiv_truncates.
Print Assumptions geom_floordiv_differs.
Print Assumptions geom_mul_exact.
Print Assumptions geom_floordiv_refuted.

Example geom_c43_case :
  let a := r_from_tlbr 0 0 4 6 in let b := r_from_tlbr 2 3 9 9 in
  r_intersect a b = r_from_tlbr 2 3 4 6 /\ r_union a b = r_from_tlbr 0 0 9 9 /\
  r_contains_point (r_intersect a b) (3 # 1, 5 # 1)%Q = true /\ r_contains_point (r_intersect a b) (4 # 1, 5 # 1)%Q = false.
Proof. vm_compute. auto. Qed.
Example geom_c46_case : r_add (r_from_tlhw 1 2 5 7) (IPoint 10 20) = r_from_tlhw 11 22 5 7 /\ double_size (r_from_tlhw 1 2 5 7) /\ nonneg_size (r_from_tlhw 1 2 5 7).
Proof. split; [vm_compute; reflexivity|]. split; split; vm_compute; congruence. Qed.
Example geom_c47_case : isize_floordiv (ISize 9 (-9)) 4 = Ok (ISize 2 (-2)) /\ isize_mul (ISize 9 (-9)) (5 # 2) = ISize 22 (-22).
Proof. vm_compute. auto. Qed.
