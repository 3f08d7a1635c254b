(** Property C52: rotation is a rigid motion. *)
From Coq Require Import Reals Lra.
From Verif Require Import GeomRot_Model.
Local Open Scope R_scope.

Lemma trig a : cos a * cos a + sin a * sin a = 1.
Proof. pose proof (sin2_cos2 a) as H. unfold Rsqr in H. lra. Qed.
(** all distances are kept, in particular the one to the origin of the rotation, which does not move *)
Theorem rot_isometry p q a o : distance (rotate p a o) (rotate q a o) = distance p q.
Proof.
  unfold distance, rotate. destruct p as [py px], q as [qy qx]. cbn [ry rx]. f_equal. pose proof (trig a) as T.
  set (o' := match o with Some o0 => o0 | None => RPoint 0 0 end). set (c := cos a) in *. set (s := sin a) in *.
  transitivity ((c * c + s * s) * ((qy - py) ^ 2 + (qx - px) ^ 2)); [ring|]. rewrite T. ring.
Qed.
Theorem rot_origin_fixed a o : rotate o a (Some o) = o.
Proof. destruct o as [y x]. unfold rotate. cbn [ry rx]. f_equal; ring. Qed.
Theorem rot_keeps_radius p a o : distance o (rotate p a (Some o)) = distance o p.
Proof. rewrite <- (rot_origin_fixed a o) at 1. apply rot_isometry. Qed.
Theorem rot_adds p a b o : rotate (rotate p a o) b o = rotate p (a + b) o.
Proof.
  unfold rotate. destruct p as [y x]. cbn [ry rx]. rewrite sin_plus, cos_plus. f_equal; ring.
Qed.
Theorem rot_inverse p a o : rotate (rotate p a o) (- a) o = p.
Proof.
  rewrite rot_adds. replace (a + - a) with 0 by ring. unfold rotate. rewrite sin_0, cos_0. destruct p as [y x]. cbn [ry rx]. f_equal; ring.
Qed.
Theorem rot_full_turn p a o : rotate p (a + 2 * PI) o = rotate p a o.
Proof. unfold rotate. rewrite sin_plus, cos_plus, sin_2PI, cos_2PI. f_equal; ring. Qed.
Theorem rot_midpoint p q a o : rotate (midpoint p q) a o = midpoint (rotate p a o) (rotate q a o).
Proof. unfold rotate, midpoint. cbn [ry rx]. f_equal; field. Qed.
(** orientation: a quarter turn takes the x axis to the y axis *)
Theorem rot_quarter p : rotate p (PI / 2) None = RPoint (rx p) (- ry p).
Proof. unfold rotate. rewrite sin_PI2, cos_PI2. cbn [ry rx]. f_equal; ring. Qed.
Theorem rot_size s a b :
  size_abs (size_rotate s a) = size_abs s /\ size_rotate (size_rotate s a) b = size_rotate s (a + b) /\
  RPoint (rh (size_rotate s a)) (rw (size_rotate s a)) = rotate (RPoint (rh s) (rw s)) a None.
Proof.
  destruct s as [h w]. split; [|split].
  - unfold size_abs, size_rotate. cbn [rh rw]. f_equal. pose proof (trig a) as T. set (c := cos a) in *. set (s := sin a) in *.
    transitivity ((c * c + s * s) * (w ^ 2 + h ^ 2)); [ring|]. rewrite T. ring.
  - unfold size_rotate. cbn [rh rw]. rewrite sin_plus, cos_plus. f_equal; ring.
  - unfold size_rotate, rotate. cbn [rh rw ry rx]. f_equal; ring.
Qed.
(** the distance is a metric and the midpoint is half way *)
Theorem dist_symmetric p q : distance p q = distance q p.
Proof. unfold distance. f_equal. ring. Qed.
Theorem dist_zero p q : distance p q = 0 <-> p = q.
Proof.
  destruct p as [a b], q as [c d]. unfold distance. cbn [ry rx]. split.
  - intros H. pose proof (pow2_ge_0 (c - a)). pose proof (pow2_ge_0 (d - b)).
    apply sqrt_eq_0 in H; [|lra].
    assert (A : (c - a) ^ 2 = 0) by lra. assert (B : (d - b) ^ 2 = 0) by lra.
    assert (A' : c - a = 0) by nra. assert (B' : d - b = 0) by nra. f_equal; lra.
  - intros [= -> ->]. replace ((c - c) ^ 2 + (d - d) ^ 2) with 0 by ring. apply sqrt_0.
Qed.
Theorem dist_midpoint p q : distance p (midpoint p q) = distance p q / 2 /\ distance (midpoint p q) q = distance p q / 2.
Proof.
  assert (S4 : forall x, 0 <= x -> sqrt (x / 4) = sqrt x / 2).
  { intros x Hx. rewrite sqrt_div by lra. f_equal. replace 4 with (2 * 2) by ring. apply sqrt_square. lra. }
  unfold distance, midpoint. cbn [ry rx].
  assert (P : 0 <= (ry q - ry p) ^ 2 + (rx q - rx p) ^ 2).
  { pose proof (pow2_ge_0 (ry q - ry p)). pose proof (pow2_ge_0 (rx q - rx p)). lra. }
  rewrite <- S4 by exact P. split; f_equal; field.
Qed.

Print Assumptions rot_isometry.
Print Assumptions rot_origin_fixed.
Print Assumptions rot_keeps_radius.
Print Assumptions rot_adds.
Print Assumptions rot_inverse.
Print Assumptions rot_full_turn.
Print Assumptions rot_midpoint.
Print Assumptions rot_quarter.
Print Assumptions rot_size.
Print Assumptions dist_symmetric.
Print Assumptions dist_zero.
Print Assumptions dist_midpoint.

Example rot_c52_case : rotate (RPoint 2 5) (PI / 2) (Some (RPoint 1 1)) = RPoint 5 0 /\ distance (RPoint 0 0) (RPoint 3 4) = 5.
Proof.
  split; [unfold rotate; rewrite sin_PI2, cos_PI2; cbn [ry rx]; f_equal; ring|].
  unfold distance. cbn [ry rx]. replace ((3 - 0) ^ 2 + (4 - 0) ^ 2) with (5 * 5) by ring. apply sqrt_square. lra.
Qed.
