(** Further geometry: the theorems. *)
From Coq Require Import ZArith QArith Qround Qabs Bool List Lia Lqa.
From Verif Require Import PyBase ConvNum_Model Float53_Model Float53_Proofs Float53_Proofs2 GeomInt_Model GeomInt_Spec GeomInt_Props
  GeomFloat_Model GeomFloat_Spec GeomMore_Model GeomMore_Spec GeomMore_Proofs.
Import ListNotations.
Local Open Scope Z_scope.

Definition ex_a : irect := r_from_tlhw (-3) 4 10 7.
Definition ex_b : irect := r_from_tlhw 2 1 (2 ^ 40) 5.

(** ** Float rectangles with integer edges: doubles compute as integers do *)
(** to_float_rect has the edges of the rectangle. *)
Theorem geommore_to_float : forall r, within (2 ^ 52) r -> same_as (to_float_rect fl r) r.
Proof. exact to_float_same. Qed.
Print Assumptions geommore_to_float.
Example geommore_to_float_ex : f_bottom fl (to_float_rect fl ex_b) == inject_Z (2 + 2 ^ 40).
Proof. reflexivity. Qed.

(** Intersection and union of float rectangles with integer edges are those of the integer rectangles. *)
Theorem geommore_lattice : forall f g a b, same_as f a -> same_as g b -> within (2 ^ 52) a -> within (2 ^ 52) b ->
  same_as (f_intersect fl f g) (r_intersect a b) /\ same_as (f_union fl f g) (r_union a b).
Proof.
  intros f g a b F G A B. destruct (same_has (2 ^ 52) f a ltac:(lia) F A) as [T1 L1 H1 W1 R1 B1 E1]. destruct (same_has (2 ^ 52) g b ltac:(lia) G B) as [T2 L2 H2 W2 R2 B2 E2].
  split; apply same_tlbr; try (apply f_max_z; assumption); try (apply f_min_z; assumption); lia.
Qed.
Print Assumptions geommore_lattice.
Example geommore_lattice_ex : f_height (f_intersect fl (to_float_rect fl ex_a) (to_float_rect fl ex_b)) == 5 /\ r_height (r_intersect ex_a ex_b) = 5.
Proof. split; reflexivity. Qed.

(** They contain the same points with integer coordinates and intersect the same rectangles. *)
Theorem geommore_tests : forall f g a b y x, same_as f a -> same_as g b -> within (2 ^ 52) a -> within (2 ^ 52) b ->
  f_contains_point fl f (FPoint (inject_Z y) (inject_Z x)) = r_contains_point a (inject_Z y, inject_Z x) /\
  f_intersects_rect fl f g = r_intersects_rect a b.
Proof.
  intros f g a b y x F G A B. destruct (same_has (2 ^ 52) f a ltac:(lia) F A) as [T1 L1 H1 W1 R1 B1 E1]. destruct (same_has (2 ^ 52) g b ltac:(lia) G B) as [T2 L2 H2 W2 R2 B2 E2].
  assert (P : ipoint_make (inject_Z y, inject_Z x) = IPoint y x) by exact (proj1 (geom_make_tuple (IPoint y x) (ISize 0 0))).
  split.
  - unfold f_contains_point, r_contains_point. rewrite P. cbn [py px fy fx].
    rewrite (qle_z _ _ _ _ L1 (Qeq_refl _)), (qle_z _ _ _ _ T1 (Qeq_refl _)), (f_lt_z _ _ _ _ (Qeq_refl _) R1), (f_lt_z _ _ _ _ (Qeq_refl _) B1). reflexivity.
  - unfold f_intersects_rect, r_intersects_rect.
    rewrite (f_lt_z _ _ _ _ R2 L1), (f_lt_z _ _ _ _ R1 L2), (f_lt_z _ _ _ _ B1 T2), (f_lt_z _ _ _ _ B2 T1). reflexivity.
Qed.
Print Assumptions geommore_tests.
Example geommore_tests_ex : f_intersects_rect fl (to_float_rect fl ex_a) (to_float_rect fl ex_b) = true /\
  f_contains_point fl (to_float_rect fl ex_a) (FPoint (inject_Z 7) (inject_Z 4)) = false.
Proof. split; reflexivity. Qed.

(** inset and translated, as long as the result is not too large. *)
Theorem geommore_moves : forall f r dx dy y x, same_as f r -> within (2 ^ 52) r -> Z.abs dx <= 2 ^ 52 -> Z.abs dy <= 2 ^ 52 ->
  (within (2 ^ 52) (r_inset r dx (Some dy)) -> same_as (f_inset fl f (inject_Z dx) (Some (inject_Z dy))) (r_inset r dx (Some dy))) /\
  (within (2 ^ 52) (r_translated r (inject_Z y, inject_Z x)) ->
   same_as (f_translated fl f (FPoint (inject_Z y) (inject_Z x))) (r_translated r (inject_Z y, inject_Z x))).
Proof.
  intros f r dx dy y x F A DX DY. destruct (same_has (2 ^ 52) f r ltac:(lia) F A) as [T L H W _ _ E].
  assert (P : ipoint_make (inject_Z y, inject_Z x) = IPoint y x) by exact (proj1 (geom_make_tuple (IPoint y x) (ISize 0 0))).
  unfold r_translated. rewrite P. destruct r as [[t l] [h w]].
  unfold same_as, within, r_inset, f_inset, f_translated, rect_same, point_same, size_same, ipoint_add, r_top, r_left, r_height, r_width, r_bottom, r_right in *. cbn -[Z.pow] in *.
  assert (X2 : forall d, Z.abs d <= 2 ^ 52 -> (fl (inject_Z d * 2) == inject_Z (d * 2))%Q).
  { intros d D. apply fl_z; [|lia]. rewrite inject_Z_mult. reflexivity. }
  split; intros (B1 & B2 & B3 & B4); repeat split; auto.
  - apply fl_z; [|lia]. rewrite T. apply inj_add.
  - apply fl_z; [|lia]. rewrite L. apply inj_add.
  - apply fl_z; [|lia]. rewrite H, (X2 dy DY). apply inj_sub.
  - apply fl_z; [|lia]. rewrite W, (X2 dx DX). apply inj_sub.
  - apply fl_z; [|lia]. unfold f_top in T. rewrite T. apply inj_add.
  - apply fl_z; [|lia]. unfold f_left in L. rewrite L. apply inj_add.
Qed.
Print Assumptions geommore_moves.
Example geommore_moves_ex : f_height (f_inset fl (to_float_rect fl ex_a) (inject_Z 2) (Some (inject_Z 6))) == inject_Z (-2).
Proof. reflexivity. Qed.

Lemma fl_half_int q n : (q == inject_Z n * (1 # 2))%Q -> Z.abs n <= 2 ^ 53 -> (fl q == inject_Z n * (1 # 2))%Q.
Proof.
  intros E B. rewrite E. assert (X : (inject_Z n * (1 # 2) == n # Z.to_pos (2 ^ 1))%Q) by (unfold Qeq; cbn; lia).
  rewrite X. apply fl_binary; lia.
Qed.

(** The center of the float rectangle is the exact middle; that of the integer one is rounded down. *)
Theorem geommore_center : forall f r, same_as f r -> within (2 ^ 52) r ->
  (fy (f_center fl f) == inject_Z (r_top r + r_bottom r) * (1 # 2) /\ fx (f_center fl f) == inject_Z (r_left r + r_right r) * (1 # 2))%Q /\
  r_center r = IPoint (Qfloor (fy (f_center fl f))) (Qfloor (fx (f_center fl f))).
Proof.
  intros f r F A. destruct (same_has (2 ^ 52) f r ltac:(lia) F A) as [T L H W R B E].
  assert (Y : (fy (f_center fl f) == inject_Z (r_top r + r_bottom r) * (1 # 2))%Q).
  { unfold f_center. cbn [fy]. apply fl_half_int; [|lia]. f_equiv. apply fl_z; [|lia]. rewrite T, B. apply inj_add. }
  assert (X : (fx (f_center fl f) == inject_Z (r_left r + r_right r) * (1 # 2))%Q).
  { unfold f_center. cbn [fx]. apply fl_half_int; [|lia]. f_equiv. apply fl_z; [|lia]. rewrite L, R. apply inj_add. }
  split; [auto|]. unfold r_center. f_equal.
  - rewrite (Qfloor_comp _ _ Y). unfold Qfloor, Qmult, inject_Z. cbn [Qnum Qden]. rewrite Z.mul_1_r. reflexivity.
  - rewrite (Qfloor_comp _ _ X). unfold Qfloor, Qmult, inject_Z. cbn [Qnum Qden]. rewrite Z.mul_1_r. reflexivity.
Qed.
Print Assumptions geommore_center.
Example geommore_center_ex : fx (f_center fl (to_float_rect fl ex_a)) == 15 # 2 /\ r_center ex_a = IPoint 2 7.
Proof. split; reflexivity. Qed.

(** Adding a point to a float rectangle with integer edges moves it exactly, whatever the signs of its size. *)
Theorem geommore_add : forall f r y x, same_as f r -> within (2 ^ 51) r -> Z.abs y <= 2 ^ 51 -> Z.abs x <= 2 ^ 51 ->
  same_as (f_add fl f (FPoint (inject_Z y) (inject_Z x))) (r_translated r (inject_Z y, inject_Z x)) /\
  same_as (f_sub fl f (FPoint (inject_Z y) (inject_Z x))) (r_translated r (inject_Z (- y), inject_Z (- x))).
Proof.
  intros f r y x F A BY BX.
  assert (A' : within (2 ^ 52) r) by (destruct r as [[t l] [h w]]; unfold within in *; lia).
  destruct (geommore_center f r F A') as ((CY & CX) & _).
  destruct (same_has (2 ^ 51) f r ltac:(lia) F A) as [T L H W _ _ E].
  assert (P : forall y x, ipoint_make (inject_Z y, inject_Z x) = IPoint y x) by (intros u v; exact (proj1 (geom_make_tuple (IPoint u v) (ISize 0 0)))).
  unfold r_translated. rewrite !P. destruct r as [[t l] [h w]].
  unfold same_as, f_add, f_sub, f_from_center_and_size, fpoint_add, fpoint_sub, fpoint_sub_size, rect_same, point_same, size_same in *.
  unfold r_top, r_left, r_height, r_width, r_bottom, r_right, f_height, f_width in *. cbn -[Z.pow f_center] in *.
  destruct F as (_ & FH & FW).
  assert (X : forall c o s d q u, (c == inject_Z (o + (o + s)) * (1 # 2))%Q -> (q == inject_Z s)%Q -> (u == c + inject_Z d)%Q ->
              Z.abs o <= 2 ^ 51 -> Z.abs (o + s) <= 2 ^ 51 -> Z.abs d <= 2 ^ 51 ->
              (fl (fl u - fl (q * (1 # 2))) == inject_Z (o + d))%Q).
  { intros c o s d q u C Q U B1 B2 B3.
    rewrite (fl_half_int u (o + (o + s) + 2 * d)); [|rewrite U, C, !inject_Z_plus, inject_Z_mult; ring|lia].
    rewrite (fl_half_int (q * (1 # 2)) s); [|rewrite Q; reflexivity|lia].
    apply fl_z; [|lia]. rewrite !inject_Z_plus, inject_Z_mult. unfold Qminus. change (inject_Z 2) with 2%Q. field. }
  destruct E as (E1 & E2 & E3 & E4).
  split; repeat split; auto.
  - apply (X _ _ _ _ _ _ CY FH); auto. reflexivity.
  - apply (X _ _ _ _ _ _ CX FW); auto. reflexivity.
  - apply (X _ _ _ _ _ _ CY FH); auto; [rewrite inject_Z_opp; reflexivity|lia].
  - apply (X _ _ _ _ _ _ CX FW); auto; [rewrite inject_Z_opp; reflexivity|lia].
Qed.
Print Assumptions geommore_add.
(** ... where the integer rectangle moves by one too much for an odd negative size *)
Example geommore_add_ex : let r := r_from_tlhw 0 0 (-1) 4 in
  f_top (f_add fl (to_float_rect fl r) (FPoint 5 6)) == 5 /\ r_top (r_add r (IPoint 5 6)) = 4.
Proof. split; reflexivity. Qed.

(** ** slice *)
(** If no edge is negative, slice selects exactly the elements inside the rectangle, for every array. *)
Theorem geommore_slice : forall r rows cols y x, 0 <= r_top r -> 0 <= r_bottom r -> 0 <= r_left r -> 0 <= r_right r ->
  0 <= y < rows -> 0 <= x < cols ->
  (slice_selects rows (fst (r_slice r)) y = true /\ slice_selects cols (snd (r_slice r)) x = true <-> inside r y x).
Proof.
  intros r rows cols y x T B L R Y X. destruct r as [[t l] [h w]]. unfold slice_selects, slice_bound, r_slice, inside, r_top, r_bottom, r_left, r_right in *. cbn in *.
  destruct (Z.ltb_spec t 0); [lia|]. destruct (Z.ltb_spec (t + h) 0); [lia|]. destruct (Z.ltb_spec l 0); [lia|]. destruct (Z.ltb_spec (l + w) 0); [lia|].
  rewrite !andb_true_iff, !Z.leb_le, !Z.ltb_lt. lia.
Qed.
Print Assumptions geommore_slice.
Example geommore_slice_ex : slice_selects 6 (fst (r_slice ex_b)) 5 = true /\ slice_selects 6 (fst (r_slice ex_b)) 1 = false.
Proof. split; reflexivity. Qed.

(** A rectangle that begins above the array, but not above all its rows, misses the first row though it is inside. *)
Theorem geommore_slice_negative : forall r rows, r_top r < 0 -> 0 < r_bottom r -> - r_top r < rows -> 0 < r_width r ->
  inside r 0 (r_left r) /\ slice_selects rows (fst (r_slice r)) 0 = false.
Proof.
  intros r rows T B N W. destruct r as [[t l] [h w]]. unfold slice_selects, slice_bound, r_slice, inside, r_top, r_bottom, r_left, r_right, r_width in *. cbn in *.
  split; [lia|]. destruct (Z.ltb_spec t 0); [|lia]. apply andb_false_iff. left. apply Z.leb_gt. lia.
Qed.
Print Assumptions geommore_slice_negative.
Example geommore_slice_negative_ex : filter (slice_selects 8 (fst (r_slice ex_a))) [0; 1; 2; 3; 4; 5; 6; 7] = [5; 6].
Proof. reflexivity. Qed.

(** ** aspect ratios *)
(** The aspect ratio of a size is that of its float size; it is the exact one but for one rounding, and 1 for height 0. *)
Theorem geommore_aspect : forall s, Z.abs (sh s) <= 2 ^ 53 -> Z.abs (sw s) <= 2 ^ 53 ->
  (i_aspect_ratio fl s == fs_aspect_ratio fl (to_float_size fl s))%Q /\
  (sh s = 0 -> i_aspect_ratio fl s = 1%Q) /\
  ((sh s <> 0)%Z -> Qabs (i_aspect_ratio fl s - inject_Z (sw s) / inject_Z (sh s)) <= Qabs (inject_Z (sw s) / inject_Z (sh s)) * (1 # Z.to_pos (2 ^ 53)))%Q.
Proof.
  intros [h w] H W. cbn [sh sw] in *.
  assert (EH : (to_float fl h == inject_Z h)%Q) by (apply fl_z; [reflexivity|assumption]).
  assert (EW : (to_float fl w == inject_Z w)%Q) by (apply fl_z; [reflexivity|assumption]).
  unfold i_aspect_ratio, fs_aspect_ratio, to_float_size. cbn [sh sw fh fw]. split; [|split].
  - destruct (Z.eqb_spec h 0) as [->|N].
    + destruct (Qeq_bool (to_float fl 0) 0) eqn:E; [reflexivity|]. apply Qeq_bool_neq in E. destruct E. exact EH.
    + destruct (Qeq_bool (to_float fl h) 0) eqn:E; [|reflexivity]. apply Qeq_bool_iff in E. rewrite EH in E. destruct N. unfold Qeq in E. cbn in E. lia.
  - intros ->. reflexivity.
  - intros N. destruct (Z.eqb_spec h 0) as [|_]; [contradiction|]. rewrite (fl_comp (to_float fl w / to_float fl h) (inject_Z w / inject_Z h)) by (rewrite EH, EW; reflexivity).
    apply fl_error.
Qed.
Print Assumptions geommore_aspect.
Example geommore_aspect_ex : i_aspect_ratio fl (ISize 3 1) == 6004799503160661 # Z.to_pos (2 ^ 54).
Proof. reflexivity. Qed.

(** Rounding never makes a size look square, or wide for high: for positive sizes the ratio compares with 1 as the width does with the height. *)
Theorem geommore_aspect_compare : forall s, 0 < sh s <= 2 ^ 53 -> 0 < sw s <= 2 ^ 53 ->
  (i_aspect_ratio fl s ?= 1)%Q = (sw s ?= sh s).
Proof.
  intros [h w] H W. cbn [sh sw] in *.
  assert (EH : (to_float fl h == inject_Z h)%Q) by (apply fl_z; [reflexivity|lia]).
  assert (EW : (to_float fl w == inject_Z w)%Q) by (apply fl_z; [reflexivity|lia]).
  unfold i_aspect_ratio. cbn [sh sw]. destruct (Z.eqb_spec h 0); [lia|].
  rewrite (fl_comp (to_float fl w / to_float fl h) (inject_Z w / inject_Z h)) by (rewrite EH, EW; reflexivity).
  assert (HP : (0 < inject_Z h)%Q) by (change 0%Q with (inject_Z 0); rewrite <- Zlt_Qlt; lia).
  destruct (Z.compare_spec w h) as [->|L|G].
  - rewrite (fl_comp _ 1%Q); [reflexivity|]. field. intros E. rewrite E in HP. now apply Qlt_irrefl in HP.
  - apply Qlt_alt. apply Qle_lt_trans with (fl ((2 ^ 53 - 1) # Z.to_pos (2 ^ 53))); [|reflexivity].
    apply fl_mono. apply Qle_shift_div_r; auto. unfold Qle, Qmult, inject_Z. cbn [Qnum Qden]. rewrite ?Pos2Z.inj_mul, Z2Pos.id by lia. lia.
  - apply Qgt_alt. apply Qlt_le_trans with (fl ((2 ^ 53) # Z.to_pos (2 ^ 53 - 1))); [reflexivity|].
    apply fl_mono. apply Qle_shift_div_l; auto. unfold Qle, Qmult, inject_Z. cbn [Qnum Qden]. rewrite ?Pos2Z.inj_mul, Z2Pos.id by lia. lia.
Qed.
Print Assumptions geommore_aspect_compare.
Example geommore_aspect_compare_ex : (i_aspect_ratio fl (ISize (2 ^ 53) (2 ^ 53 - 1)) ?= 1)%Q = Lt /\
  (i_aspect_ratio fl (ISize (2 ^ 54) (2 ^ 54 - 1)) ?= 1)%Q = Eq.
Proof. split; vm_compute; reflexivity. Qed.

(** ** tuples and indexes *)
(** A rectangle made of the tuple of a rectangle is the same; inset_rect is inset on tuples. *)
Theorem geommore_tuples : forall r f d, r_make (r_tuple r) = r /\ inset_rect fl (f_tuple f) d = f_tuple (f_inset fl f d None).
Proof.
  intros r f d. split.
  - destruct r as [p s]. unfold r_make, r_tuple. cbn [fst snd r_origin r_size]. destruct (geom_make_tuple p s) as (-> & ->). reflexivity.
  - unfold inset_rect, f_tuple, f_inset, f_top, f_left, f_height, f_width. cbn. rewrite (fl_comp (2 * d) (d * 2)) by ring. reflexivity.
Qed.
Print Assumptions geommore_tuples.
Example geommore_tuples_ex : map (fun p => (Qred (fst p), Qred (snd p))) [fst (inset_rect fl ((0, 1), (9, 8)) 2); snd (inset_rect fl ((0, 1), (9, 8)) 2)]%Q = [(2, 3); (5, 4)]%Q.
Proof. vm_compute. reflexivity. Qed.

(** Indexes -2 to 1 give the elements, counted from either end; others raise. *)
Theorem geommore_index : forall {A} (a b : A) i,
  pair_item a b i = if ((-2 <=? i) && (i <? 2))%Z then match nth_error [a; b] (Z.to_nat (i mod 2)) with Some x => Ok x | None => Err IndexError end else Err IndexError.
Proof.
  intros A a b i. unfold pair_item. destruct ((-2 <=? i) && (i <? 2))%Z eqn:E.
  - apply andb_true_iff in E as (E & F). apply Z.leb_le in E. apply Z.ltb_lt in F.
    assert (C : i = -2 \/ i = -1 \/ i = 0 \/ i = 1) by lia. destruct C as [->|[->|[->| ->]]]; reflexivity.
  - apply andb_false_iff in E. rewrite Z.leb_gt, Z.ltb_ge in E.
    destruct (Z.eqb_spec i 0), (Z.eqb_spec i (-2)), (Z.eqb_spec i 1), (Z.eqb_spec i (-1)); try lia; reflexivity.
Qed.
Print Assumptions geommore_index.
Example geommore_index_ex : pair_item 5 6 (-2) = Ok 5 /\ pair_item 5 6 2 = Err IndexError.
Proof. split; reflexivity. Qed.

(** ** multiplying and dividing points *)
(** Exactly, dividing undoes multiplying and distributes over sums; dividing by zero raises. *)
Theorem geommore_scaling : forall p q k, ~ (k == 0)%Q ->
  gives point_same (fpoint_div id_q (fpoint_mul id_q p k) k) p /\
  point_same (fpoint_mul id_q (fpoint_add id_q p q) k) (fpoint_add id_q (fpoint_mul id_q p k) (fpoint_mul id_q q k)) /\
  point_same (fpoint_neg p) (fpoint_mul id_q p (-1)) /\ fpoint_div fl p 0 = Err ZeroDivisionError.
Proof.
  intros [y x] [v u] k K. unfold fpoint_div, fpoint_mul, fpoint_add, fpoint_neg, point_same, id_q. cbn [fy fx].
  destruct (Qeq_bool k 0) eqn:E; [apply Qeq_bool_iff in E; contradiction|].
  repeat split; cbn [fy fx]; try ring; field; auto.
Qed.
Print Assumptions geommore_scaling.
Example geommore_scaling_ex : fpoint_div fl (FPoint 1 2) 4 = Ok (FPoint (fl (1 / 4)) (fl (2 / 4))) /\ (fl (2 / 4) == 1 # 2)%Q.
Proof. split; reflexivity. Qed.

(** In doubles dividing does not undo multiplying. *)
Theorem geommore_scaling_refuted : ~ (forall p k, is_double (fy p) -> is_double (fx p) -> is_double k -> ~ (k == 0)%Q ->
  gives point_same (fpoint_div fl (fpoint_mul fl p k) k) p).
Proof.
  intros H. set (tenth := fl (1 # 10)). assert (D : is_double tenth) by reflexivity.
  destruct (H (FPoint 3 tenth) tenth ltac:(reflexivity) D D ltac:(discriminate)) as (_ & X). vm_compute in X. discriminate.
Qed.
Print Assumptions geommore_scaling_refuted.
