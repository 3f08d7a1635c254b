(** Properties C50, C51 and C82: fitting, coordinate mapping and float rectangles in exact arithmetic. *)
From Coq Require Import ZArith QArith Qabs Bool Lia Lqa.
From Verif Require Import PyBase Float53_Model GeomFloat_Model GeomFloat_Spec.
Local Open Scope Q_scope.

Lemma f_lt_iff x y : f_lt x y = true <-> x < y.
Proof.
  unfold f_lt. rewrite negb_true_iff. split.
  - intros H. apply Qnot_le_lt. intros C. apply Qle_bool_iff in C. congruence.
  - intros H. destruct (Qle_bool y x) eqn:E; [|reflexivity]. apply Qle_bool_iff in E. lra.
Qed.
Lemma f_lt_false x y : f_lt x y = false <-> y <= x.
Proof. unfold f_lt. rewrite negb_false_iff. apply Qle_bool_iff. Qed.
Lemma f_max_spec x y : x <= f_max x y /\ y <= f_max x y /\ (f_max x y == x \/ f_max x y == y).
Proof. unfold f_max. destruct (f_lt x y) eqn:E; [apply f_lt_iff in E|apply f_lt_false in E]; repeat split; lra. Qed.
Lemma f_min_spec x y : f_min x y <= x /\ f_min x y <= y /\ (f_min x y == x \/ f_min x y == y).
Proof. unfold f_min. destruct (f_lt y x) eqn:E; [apply f_lt_iff in E|apply f_lt_false in E]; repeat split; lra. Qed.
Ltac frects := repeat match goal with
  | r : frect |- _ => destruct r as [[?t ?l] [?h ?w]]
  | p : fpoint |- _ => destruct p as [?y ?x]
  | s : fsize |- _ => destruct s as [?h ?w] end.
Ltac fgeo := unfold rect_same, point_same, size_same, frame, f_intersect, f_union, f_from_tlbr, f_add, f_sub, f_from_center_and_size, f_center, fpoint_add, fpoint_sub, fpoint_sub_size, f_translated, f_inset, f_top, f_left, f_bottom, f_right, f_height, f_width, id_q in *;
  cbn [f_origin f_size fy fx fh fw] in *.
Ltac minmax := repeat match goal with
  | |- context [f_max ?a ?b] => let m := fresh "m" in pose proof (f_max_spec a b); set (m := f_max a b) in *; clearbody m
  | |- context [f_min ?a ?b] => let m := fresh "m" in pose proof (f_min_spec a b); set (m := f_min a b) in *; clearbody m end.

(** ** C50 *)
Theorem fit_ratio r ratio : 0 < fh (f_size r) -> 0 < fw (f_size r) -> 0 < ratio ->
  exists q, fit_to_aspect_ratio id_q r ratio = Ok q /\
    0 < fh (f_size q) /\ fw (f_size q) == ratio * fh (f_size q) /\ fencloses r q /\ point_same (f_center id_q q) (f_center id_q r) /\
    ((f_top q == f_top r /\ f_bottom id_q q == f_bottom id_q r) \/ (f_left q == f_left r /\ f_right id_q q == f_right id_q r)).
Proof.
  frects. unfold fit_to_aspect_ratio, f_aspect_ratio. fgeo. intros Hh Hw Hr.
  destruct (Qeq_bool h 0) eqn:E0; [apply Qeq_bool_iff in E0; lra|].
  assert (Ew : w / h * h == w) by (field; lra).
  destruct (f_lt ratio (w / h)) eqn:E.
  - apply f_lt_iff in E. apply (proj2 (Qmult_lt_r _ _ _ Hh)) in E. rewrite Ew in E.
    eexists. split; [reflexivity|]. unfold fencloses. fgeo. repeat split; try lra.
  - apply f_lt_false in E. apply (Qmult_le_compat_r _ _ h) in E; [|lra]. rewrite Ew in E.
    destruct (Qeq_bool ratio 0) eqn:E1; [apply Qeq_bool_iff in E1; lra|].
    assert (Eh : w / ratio * ratio == w) by (field; lra).
    assert (P : 0 < w / ratio) by (apply Qlt_shift_div_l; lra).
    assert (L : w / ratio <= h) by (apply Qle_shift_div_r; lra).
    eexists. split; [reflexivity|]. unfold fencloses. fgeo. repeat split; try lra.
Qed.
(** it is the largest such rectangle *)
Theorem fit_largest r ratio q other : 0 < fh (f_size r) -> 0 < fw (f_size r) -> 0 < ratio ->
  fit_to_aspect_ratio id_q r ratio = Ok q -> fencloses r other -> fw (f_size other) == ratio * fh (f_size other) ->
  fh (f_size other) <= fh (f_size q) /\ fw (f_size other) <= fw (f_size q).
Proof.
  intros Hh Hw Hr E En A. destruct (fit_ratio r ratio Hh Hw Hr) as (q' & E' & Hq & Aq & _ & _ & T). rewrite E in E'. injection E' as <-.
  frects. unfold fencloses in En. fgeo.
  assert (G : forall a b, a <= b -> ratio * a <= ratio * b) by (intros a b Hab; rewrite !(Qmult_comm ratio); apply Qmult_le_compat_r; lra).
  assert (G' : forall a b, ratio * a <= ratio * b -> a <= b).
  { intros a b Hab. destruct (Qlt_le_dec b a) as [X|X]; [|exact X]. apply (proj2 (Qmult_lt_l _ _ _ Hr)) in X. lra. }
  destruct T as [[T1 T2]|[T1 T2]].
  - match goal with |- ?a <= ?b /\ _ => assert (X : a <= b) by lra; split; [exact X|apply G in X; lra] end.
  - match goal with |- _ /\ ?a <= ?b => assert (X : a <= b) by lra; split; [apply G'; lra|exact X] end.
Qed.
Theorem fit_size r s : 0 < fh (f_size r) -> 0 < fw (f_size r) -> 0 < fh s -> 0 < fw s ->
  exists q, fit_to_size id_q r s = Ok q /\ fw (f_size q) * fh s == fh (f_size q) * fw s /\ fencloses r q.
Proof.
  intros Hh Hw Ha Hb. unfold fit_to_size, id_q at 1. destruct (Qeq_bool (fh s) 0) eqn:E; [apply Qeq_bool_iff in E; lra|].
  assert (P : 0 < fw s / fh s) by (apply Qlt_shift_div_l; lra).
  destruct (fit_ratio r (fw s / fh s) Hh Hw P) as (q & E1 & _ & A & En & _). exists q. split; [exact E1|]. split; [|exact En].
  rewrite A. field. lra.
Qed.

(** ** C51 *)
Lemma frame_bool r : frame r -> Qeq_bool (f_height r) 0 || Qeq_bool (f_width r) 0 = false.
Proof.
  unfold frame, f_height, f_width. intros [A B]. destruct (Qeq_bool (fh (f_size r)) 0) eqn:E; [apply Qeq_bool_iff in E; tauto|].
  destruct (Qeq_bool (fw (f_size r)) 0) eqn:E2; [apply Qeq_bool_iff in E2; tauto|]. reflexivity.
Qed.
Theorem map_point_fraction f t u v : frame f -> gives point_same (map_point id_q (at_fraction f u v) f t) (at_fraction t u v).
Proof.
  intros F. unfold map_point. rewrite (frame_bool f F). cbn [gives]. frects. unfold at_fraction. fgeo. destruct F. split; field; assumption.
Qed.
Theorem map_point_inverse p f t : frame f -> frame t ->
  match map_point id_q p f t with Ok q => gives point_same (map_point id_q q t f) p | Err _ => False end.
Proof.
  intros F T. unfold map_point. rewrite (frame_bool f F), (frame_bool t T). cbn [gives]. frects. fgeo. destruct F, T. split; field; auto.
Qed.
Theorem map_point_compose p f t u : frame f -> frame t ->
  match map_point id_q p f t, map_point id_q p f u with
  | Ok q, Ok d => gives point_same (map_point id_q q t u) d
  | _, _ => False
  end.
Proof.
  intros F T. unfold map_point. rewrite (frame_bool f F), (frame_bool t T). cbn [gives]. frects. fgeo. destruct F, T. split; field; auto.
Qed.
Theorem map_size_inverse s f t : frame f -> frame t ->
  match map_size id_q s f t with Ok q => gives size_same (map_size id_q q t f) s | Err _ => False end.
Proof.
  intros F T. unfold map_size. rewrite (frame_bool f F), (frame_bool t T). cbn [gives]. frects. fgeo. destruct F, T. split; field; auto.
Qed.
Theorem map_rect_corners r f t u1 v1 u2 v2 : frame f ->
  rect_same r (f_from_tlbr id_q (fy (at_fraction f u1 v1)) (fx (at_fraction f u1 v1)) (fy (at_fraction f u2 v2)) (fx (at_fraction f u2 v2))) ->
  gives rect_same (map_rect id_q r f t)
    (f_from_tlbr id_q (fy (at_fraction t u1 v1)) (fx (at_fraction t u1 v1)) (fy (at_fraction t u2 v2)) (fx (at_fraction t u2 v2))).
Proof.
  intros F. unfold map_rect, map_point, map_size. rewrite (frame_bool f F). cbn [gives]. frects. unfold at_fraction. fgeo.
  intros [[H1 H2] [H3 H4]]. destruct F. rewrite H1, H2, H3, H4. repeat split; field; auto.
Qed.
Theorem map_rect_inverse r f t : frame f -> frame t ->
  match map_rect id_q r f t with Ok q => gives rect_same (map_rect id_q q t f) r | Err _ => False end.
Proof.
  intros F T. unfold map_rect, map_point, map_size. rewrite (frame_bool f F), (frame_bool t T). cbn [gives]. frects. fgeo. destruct F, T. repeat split; field; auto.
Qed.
Theorem map_degenerate p s r f t : ~ frame f ->
  map_point id_q p f t = Err ZeroDivisionError /\ map_size id_q s f t = Err ZeroDivisionError /\ map_rect id_q r f t = Err ZeroDivisionError.
Proof.
  intros F. assert (E : Qeq_bool (f_height f) 0 || Qeq_bool (f_width f) 0 = true).
  { destruct (Qeq_bool (f_height f) 0) eqn:E1; [reflexivity|]. destruct (Qeq_bool (f_width f) 0) eqn:E2; [reflexivity|].
    apply Qeq_bool_neq in E1, E2. exfalso. apply F. split; assumption. }
  unfold map_rect, map_point, map_size. rewrite E. auto.
Qed.

(** ** C82 *)
Theorem frect_contains r p : f_contains_point id_q r p = true <-> finside r p.
Proof.
  frects. unfold f_contains_point, finside. fgeo. rewrite !andb_true_iff, !Qle_bool_iff, !f_lt_iff. tauto.
Qed.
Theorem frect_intersect_points a b p : finside (f_intersect id_q a b) p <-> finside a p /\ finside b p.
Proof. frects. unfold finside. fgeo. minmax. repeat match goal with H : _ /\ _ /\ (_ \/ _) |- _ => destruct H as (? & ? & [?|?]) end; (split; [intros [[? ?] [? ?]]; repeat split; lra|intros [[[? ?] [? ?]] [[? ?] [? ?]]]; repeat split; lra]). Qed.
Theorem frect_union_least a b big :
  fencloses (f_union id_q a b) a /\ fencloses (f_union id_q a b) b /\ (fencloses big a -> fencloses big b -> fencloses big (f_union id_q a b)).
Proof.
  frects. unfold fencloses. fgeo. minmax. repeat match goal with H : _ /\ _ /\ (_ \/ _) |- _ => destruct H as (? & ? & ?) end.
  repeat split; try lra; intros; repeat match goal with H : _ \/ _ |- _ => destruct H end; lra.
Qed.
Theorem frect_intersects_iff a b : 0 <= fh (f_size a) -> 0 <= fw (f_size a) -> 0 <= fh (f_size b) -> 0 <= fw (f_size b) ->
  (f_intersects_rect id_q a b = true <-> exists p, finside_closed a p /\ finside_closed b p).
Proof.
  destruct a as [[t1 l1] [h1 w1]], b as [[t2 l2] [h2 w2]]. unfold f_intersects_rect, finside_closed. fgeo. intros Ha Hb Hc Hd.
  assert (C : (if f_lt (l2 + w2) l1 || f_lt (l1 + w1) l2 then false else if f_lt (t1 + h1) t2 || f_lt (t2 + h2) t1 then false else true) = true <->
    l1 <= l2 + w2 /\ l2 <= l1 + w1 /\ t2 <= t1 + h1 /\ t1 <= t2 + h2).
  { rewrite <- !f_lt_false. destruct (f_lt (l2 + w2) l1), (f_lt (l1 + w1) l2), (f_lt (t1 + h1) t2), (f_lt (t2 + h2) t1); cbn [orb]; intuition congruence. }
  rewrite C. split.
  - intros H. exists (FPoint (f_max t1 t2) (f_max l1 l2)). cbn [fy fx]. minmax.
    repeat match goal with H : _ /\ _ /\ (_ \/ _) |- _ => destruct H as (? & ? & [?|?]) end; repeat split; lra.
  - intros (p & H1 & H2). lra.
Qed.
Theorem frect_moves r p d dy :
  rect_same (f_add id_q r p) (f_translated id_q r p) /\ rect_same (f_sub id_q (f_add id_q r p) p) r /\
  rect_same (f_inset id_q (f_inset id_q r d (Some dy)) (- d) (Some (- dy))) r /\
  point_same (f_center id_q (f_from_center_and_size id_q p (f_size r))) p /\
  rect_same (f_from_center_and_size id_q (f_center id_q r) (f_size r)) r /\
  (forall q, finside (f_translated id_q r p) (fpoint_add id_q q p) <-> finside r q).
Proof.
  frects. fgeo. repeat split; try ring; intros; frects; unfold finside in *; fgeo; try lra.
Qed.
(** finding: in doubles a rectangle differs from its intersection with itself *)
Theorem frect_double_refuted :
  let r := f_from_tlhw (fl (1 # 10)) (fl (1 # 10)) (fl (2 # 10)) (fl (2 # 10)) in
  f_eq (f_intersect fl r r) r = false /\ f_eq (f_union fl r r) r = false.
Proof. vm_compute. auto. Qed.

Print Assumptions fit_ratio.
Print Assumptions fit_largest.
Print Assumptions fit_size.
Print Assumptions map_point_fraction.
Print Assumptions map_point_inverse.
Print Assumptions map_point_compose.
Print Assumptions map_size_inverse.
Print Assumptions map_rect_corners.
Print Assumptions map_rect_inverse.
Print Assumptions map_degenerate.
Print Assumptions frect_contains.
Print Assumptions frect_intersect_points.
Print Assumptions frect_union_least.
Print Assumptions frect_intersects_iff.
Print Assumptions frect_moves.
Print Assumptions frect_double_refuted.

Example fit_c50_case :
  gives rect_same (fit_to_aspect_ratio id_q (f_from_tlhw 1 2 10 40) 2) (f_from_tlhw 1 12 10 20) /\
  gives rect_same (fit_to_aspect_ratio id_q (f_from_tlhw 1 2 10 5) 2) (f_from_tlhw (19 # 4) 2 (5 # 2) 5).
Proof. vm_compute. repeat split. Qed.
Example map_c51_case :
  gives point_same (map_point id_q (FPoint 3 5) (f_from_tlhw 1 1 4 (-8)) (f_from_tlhw 0 0 1 1)) (FPoint (1 # 2) (-1 # 2)) /\
  frame (f_from_tlhw 1 1 4 (-8)).
Proof. repeat split; vm_compute; congruence. Qed.
Example frect_c82_case :
  f_contains_point id_q (f_intersect id_q (f_from_tlhw 0 0 2 2) (f_from_tlhw 1 1 2 2)) (FPoint (3 # 2) (3 # 2)) = true.
Proof. reflexivity. Qed.
