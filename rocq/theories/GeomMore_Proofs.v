(** Lemmas about further geometry. *)
From Coq Require Import ZArith QArith Bool List Lia Lqa Setoid Morphisms.
From Verif Require Import PyBase ConvNum_Model Float53_Model Float53_Proofs GeomInt_Model GeomFloat_Model GeomFloat_Spec GeomMore_Model GeomMore_Spec.
Local Open Scope Q_scope.

Global Instance fl_proper : Proper (Qeq ==> Qeq) fl.
Proof. intros x y H. rewrite (fl_comp x y H). reflexivity. Qed.
Lemma fl_z q z : q == inject_Z z -> (Z.abs z <= 2 ^ 53)%Z -> fl q == inject_Z z.
Proof. apply fl_int. Qed.
Lemma inj_add a b : inject_Z a + inject_Z b == inject_Z (a + b).
Proof. rewrite inject_Z_plus. reflexivity. Qed.
Lemma inj_sub a b : inject_Z a - inject_Z b == inject_Z (a - b).
Proof. unfold Z.sub, Qminus. rewrite inject_Z_plus, inject_Z_opp. reflexivity. Qed.
Lemma qle_z x y a b : x == inject_Z a -> y == inject_Z b -> Qle_bool x y = (a <=? b)%Z.
Proof.
  intros H K. apply Bool.eq_iff_eq_true. rewrite Qle_bool_iff, H, K, Z.leb_le. now rewrite <- Zle_Qle.
Qed.
Lemma f_lt_z x y a b : x == inject_Z a -> y == inject_Z b -> f_lt x y = (a <? b)%Z.
Proof. intros H K. unfold f_lt. rewrite (qle_z _ _ _ _ K H). rewrite Z.ltb_antisym. reflexivity. Qed.
Lemma f_max_z x y a b : x == inject_Z a -> y == inject_Z b -> f_max x y == inject_Z (Z.max a b).
Proof. intros H K. unfold f_max. rewrite (f_lt_z _ _ _ _ H K). destruct (Z.ltb_spec a b); [rewrite Z.max_r by lia|rewrite Z.max_l by lia]; auto. Qed.
Lemma f_min_z x y a b : x == inject_Z a -> y == inject_Z b -> f_min x y == inject_Z (Z.min a b).
Proof. intros H K. unfold f_min. rewrite (f_lt_z _ _ _ _ K H). destruct (Z.ltb_spec b a); [rewrite Z.min_r by lia|rewrite Z.min_l by lia]; auto. Qed.

(** the parts of a float rectangle that has the edges of an integer one *)
Record has (n : Z) (f : frect) (r : irect) : Prop := {
  h_top : f_top f == inject_Z (r_top r); h_left : f_left f == inject_Z (r_left r);
  h_height : f_height f == inject_Z (r_height r); h_width : f_width f == inject_Z (r_width r);
  h_right : f_right fl f == inject_Z (r_right r); h_bottom : f_bottom fl f == inject_Z (r_bottom r);
  h_bounds : (Z.abs (r_top r) <= n /\ Z.abs (r_left r) <= n /\ Z.abs (r_bottom r) <= n /\ Z.abs (r_right r) <= n)%Z }.
Lemma same_has n f r : (n <= 2 ^ 53)%Z -> same_as f r -> within n r -> has n f r.
Proof.
  intros N. destruct r as [[t l] [h w]], f as [[fy0 fx0] [fh0 fw0]]. unfold same_as, rect_same, point_same, size_same, within. cbn.
  intros ((A & B) & C & D) (E1 & E2 & E3 & E4). constructor; unfold f_top, f_left, f_height, f_width, f_right, f_bottom, r_top, r_left, r_height, r_width, r_right, r_bottom; cbn; auto.
  - apply fl_z; [rewrite B, D, inj_add; reflexivity|lia].
  - apply fl_z; [rewrite A, C, inj_add; reflexivity|lia].
Qed.
Lemma same_tlbr t l b r ft fl0 fb fr : (Z.abs (b - t) <= 2 ^ 53)%Z -> (Z.abs (r - l) <= 2 ^ 53)%Z ->
  ft == inject_Z t -> fl0 == inject_Z l -> fb == inject_Z b -> fr == inject_Z r ->
  same_as (f_from_tlbr fl ft fl0 fb fr) (r_from_tlbr t l b r).
Proof.
  intros A B H1 H2 H3 H4. unfold same_as, r_from_tlbr, rect_same, point_same, size_same, f_from_tlbr. cbn. repeat split; auto.
  - apply fl_z; [rewrite H3, H1; apply inj_sub|assumption].
  - apply fl_z; [rewrite H4, H2; apply inj_sub|assumption].
Qed.
Lemma to_float_same r : within (2 ^ 52) r -> same_as (to_float_rect fl r) r.
Proof.
  destruct r as [[t l] [h w]]. unfold within, same_as, rect_same, point_same, size_same, to_float_rect, to_float, r_top, r_left, r_bottom, r_right. cbn -[Z.pow].
  intros (A & B & C & D). repeat split; apply fl_z; try lia; f_equiv; lia.
Qed.
