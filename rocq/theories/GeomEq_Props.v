(** == and != of points, sizes and rectangles: the theorems. *)
From Coq Require Import ZArith QArith Bool List Lia.
From Verif Require Import PyBase ConvNum_Model Float53_Model Float53_Proofs GeomInt_Spec GeomEq_Model GeomEq_Spec GeomEq_Proofs.
Import ListNotations.
Local Open Scope Z_scope.

(** != is the contrary of == for all operands, and raises when == does, the same exception. *)
Theorem geomeq_ne a b : py_ne a b = match py_eq a b with
  | Some (Ok r) => Some (Ok (negb r)) | Some (Err e) => Some (Err e) | None => None end.
Proof.
  unfold py_ne, py_eq. pose proof (ne_neg a) as Ha. pose proof (ne_neg b) as Hb.
  destruct (eq_method a) as [f|], (ne_method a) as [g|]; try contradiction.
  - rewrite Ha. destruct (f b); reflexivity.
  - destruct (eq_method b) as [f|], (ne_method b) as [g|]; try contradiction; [|reflexivity].
    rewrite Hb. destruct (f a); reflexivity.
Qed.

(** An object of integers equals an object if both or neither are rectangles and its coordinates are those of the
    other with fractions dropped. *)
Theorem geomeq_left_int a b : is_int_object a -> is_object b ->
  (py_eq a b = Some (Ok true) <-> alike a b /\ Forall2 int_match (coords a) (coords b)).
Proof.
  intros Ha Hb.
  destruct a as [| | | |y1 x1|h1 w1|y1 x1 h1 w1|? ?|? ?|? ? ? ?]; try contradiction;
  destruct b as [| | | |y2 x2|h2 w2|y2 x2 h2 w2|[y2|] [x2|]|[h2|] [w2|]|[y2|] [x2|] [h2|] [w2|]]; try contradiction;
  clear; unfold py_eq, alike; simpl;
  rewrite ?some_ok, ?andb_true_iff, ?Z.eqb_eq, ?forall2_two, ?forall2_four, ?int_match_int, ?int_match_flt;
  try tauto;
  (split; [intros H; try discriminate; try tauto
          |intros [E H]; try discriminate; try tauto]);
  try (rewrite ?forall2_two, ?forall2_four in H; exfalso;
       repeat match goal with K : _ /\ _ |- _ => destruct K end;
       match goal with K : int_match _ (VFlt Nan) |- _ => exact (int_match_nan _ K) end).
Qed.

(** A float object equals an object if both or neither are rectangles and its coordinates are those of the other, with
    integers rounded to doubles. *)
Theorem geomeq_left_float a b : is_float_object a -> is_object b ->
  (py_eq a b = Some (Ok true) <-> alike a b /\ Forall2 float_match (coords a) (coords b)).
Proof.
  intros Ha Hb.
  destruct a as [| | | |y1 x1|h1 w1|y1 x1 h1 w1|y1 x1|h1 w1|y1 x1 h1 w1]; try contradiction;
  destruct b as [| | | |y2 x2|h2 w2|y2 x2 h2 w2|y2 x2|h2 w2|y2 x2 h2 w2]; try contradiction;
  clear; unfold py_eq, alike; simpl;
  rewrite ?some_ok, ?andb_true_iff, ?forall2_two, ?forall2_four, ?feq_match, ?feq_match_int;
  try tauto;
  (split; [intros H; try discriminate; try tauto
          |intros [E H]; try discriminate; try tauto]).
Qed.

(** Two objects compare without exception unless one is a rectangle and the other not (TypeError), or the left one has
    integers and the right one a nan (ValueError). *)
Theorem geomeq_raises a b e : is_object a -> is_object b ->
  (py_eq a b = Some (Err e) <->
   (~ alike a b /\ e = TypeError) \/ (alike a b /\ is_int_object a /\ has_nan b /\ e = ValueError)).
Proof.
  intros Ha Hb. unfold has_nan.
  destruct a as [| | | |y1 x1|h1 w1|y1 x1 h1 w1|? ?|? ?|? ? ? ?]; try contradiction;
  destruct b as [| | | |y2 x2|h2 w2|y2 x2 h2 w2|[y2|] [x2|]|[h2|] [w2|]|[y2|] [x2|] [h2|] [w2|]]; try contradiction;
  clear; unfold py_eq, alike; simpl;
  (split;
   [intros H; first [discriminate H | injection H as <-]; tauto
   |intros [[N E]|(N & I & K & E)]; try tauto; try (rewrite E; reflexivity);
    exfalso; repeat (destruct K as [K|K]; [discriminate K|]); exact K]).
Qed.

(** Comparing with None is never an exception, whichever side it is on. *)
Theorem geomeq_none a : is_object a -> py_eq a VNone = Some (Ok false) /\ py_eq VNone a = Some (Ok false).
Proof. destruct a; simpl; try contradiction; auto. Qed.

(** Among objects of integers == is an equivalence; among float objects it is symmetric and transitive, and an object
    equals itself unless it has a nan. *)
Theorem geomeq_equivalence a b c :
  (is_int_object a /\ is_int_object b /\ is_int_object c \/ is_float_object a /\ is_float_object b /\ is_float_object c) ->
  (py_eq a a = Some (Ok true) <-> ~ has_nan a) /\
  (py_eq a b = Some (Ok true) -> py_eq b a = Some (Ok true)) /\
  (py_eq a b = Some (Ok true) -> py_eq b c = Some (Ok true) -> py_eq a c = Some (Ok true)).
Proof.
  assert (OI : forall v, is_int_object v -> is_object v) by (intros []; simpl; tauto).
  assert (OF : forall v, is_float_object v -> is_object v) by (intros []; simpl; tauto).
  intros [(Ha & Hb & Hc)|(Ha & Hb & Hc)].
  - rewrite !geomeq_left_int by auto.
    assert (I : forall v, is_int_object v -> exists l, coords v = map VInt l).
    { intros v H. destruct v as [| | | |y1 x1|h1 w1|y1 x1 h1 w1| | | ]; try contradiction; simpl;
      [exists [y1; x1]|exists [h1; w1]|exists [y1; x1; h1; w1]]; reflexivity. }
    assert (F : forall l k, Forall2 int_match (map VInt l) (map VInt k) <-> l = k).
    { induction l as [|n l IH]; intros [|z k]; simpl; split; intros H; try discriminate; try inversion H; subst; auto.
      - apply int_match_int in H3. apply IH in H5. congruence.
      - constructor; [apply int_match_int; reflexivity|apply IH; reflexivity]. }
    destruct (I a Ha) as [la Ea], (I b Hb) as [lb Eb], (I c Hc) as [lc Ec]. unfold has_nan. rewrite Ea, Eb, Ec, !F.
    split; [split; [|intros _; split; [unfold alike; tauto|reflexivity]]|].
    + intros _ H. apply in_map_iff in H. destruct H as (x & H & _). discriminate.
    + unfold alike. split; [intros [H ->]; split; [tauto|reflexivity]|].
      intros [H ->] [H' ->]. split; [tauto|reflexivity].
  - rewrite !geomeq_left_float by auto.
    assert (I : forall v, is_float_object v -> exists l, coords v = map VFlt l).
    { intros v H. destruct v as [| | | | | | |y1 x1|h1 w1|y1 x1 h1 w1]; try contradiction; simpl;
      [exists [y1; x1]|exists [h1; w1]|exists [y1; x1; h1; w1]]; reflexivity. }
    assert (R : forall l, Forall2 float_match (map VFlt l) (map VFlt l) <-> ~ In (VFlt Nan) (map VFlt l)).
    { induction l as [|f l IH]; simpl; [split; [tauto|constructor]|]. split.
      - intros H. inversion H as [|? ? ? ? H1 H2]; subst. intros [Q|Q]; [|apply IH in H2; contradiction].
        injection Q as ->. inversion H1.
      - intros H. constructor; [|apply IH; tauto]. destruct f as [q|]; [apply float_match_flt; reflexivity|].
        exfalso. apply H. left. reflexivity. }
    assert (S : forall l k, Forall2 float_match (map VFlt l) (map VFlt k) -> Forall2 float_match (map VFlt k) (map VFlt l)).
    { induction l as [|f l IH]; intros [|g k] H; simpl in *; inversion H as [|? ? ? ? H1 H2]; subst; constructor; [|auto].
      inversion H1; subst. apply float_match_flt. symmetry. assumption. }
    assert (T : forall l k m, Forall2 float_match (map VFlt l) (map VFlt k) -> Forall2 float_match (map VFlt k) (map VFlt m) ->
      Forall2 float_match (map VFlt l) (map VFlt m)).
    { induction l as [|f l IH]; intros [|g k] [|h m] H H'; simpl in *; try (inversion H; fail); try (inversion H'; fail); [constructor|].
      inversion H as [|? ? ? ? H1 H2]. inversion H' as [|? ? ? ? K3 K4]. subst. constructor; [|eauto].
      inversion H1 as [p q E|]; subst. inversion K3 as [p' q' E'|]; subst. apply float_match_flt. rewrite E. exact E'. }
    destruct (I a Ha) as [la Ea], (I b Hb) as [lb Eb], (I c Hc) as [lc Ec]. unfold has_nan. rewrite Ea, Eb, Ec, R.
    split; [unfold alike; tauto|]. unfold alike.
    split; [intros [H K]; split; [tauto|apply S, K]|]. intros [H K] [H' K']. split; [tauto|exact (T _ _ _ K K')].
Qed.

(** Between an object of integers and a float object: what the float object says equal, the other one does too, for
    coordinates up to 2^53. *)
Theorem geomeq_mixed a b : is_float_object a -> is_int_object b -> Forall small (coords b) ->
  py_eq a b = Some (Ok true) -> py_eq b a = Some (Ok true).
Proof.
  intros Ha Hb Sm. assert (OB : is_object b) by (destruct b; simpl in *; tauto).
  assert (OA : is_object a) by (destruct a; simpl in *; tauto).
  rewrite geomeq_left_float, geomeq_left_int by assumption. intros [K F].
  split; [unfold alike in *; tauto|].
  assert (IB : Forall (fun v => exists n, v = VInt n) (coords b)).
  { destruct b; simpl in *; try contradiction; repeat constructor; eexists; reflexivity. }
  revert Sm IB. induction F as [|f i lf li M F IH]; intros Sm IB; [constructor|].
  inversion Sm as [|? ? S1 S2]; subst. inversion IB as [|? ? (n & ->) I2]; subst.
  constructor; [|apply IH; assumption].
  inversion M as [|p z E]; subst. apply int_match_flt. simpl in S1.
  rewrite (ConvNum_Proofs.q_trunc_comp p (inject_Z n)); [symmetry; apply ConvNum_Proofs.q_trunc_inject|].
  rewrite E. apply fl_int; [reflexivity|exact S1].
Qed.

(** An integer point against a sequence, on either side. *)
Theorem geomeq_sequence y x l :
  py_eq (VSeq l) (VIP y x) = py_eq (VIP y x) (VSeq l) /\
  (py_eq (VIP y x) (VSeq l) = Some (Ok true) <->
     exists a b l' p q, l = a :: b :: l' /\ number a p /\ number b q /\ truncates p y /\ truncates q x) /\
  (py_eq (VIP y x) (VSeq l) = Some (Err IndexError) <-> (length l < 2)%nat).
Proof.
  split; [reflexivity|].
  assert (NT : forall v, to_int v <> Err IndexError) by (intros [| |[|]| | | | | | | ]; discriminate).
  destruct l as [|a [|b l]].
  1,2: split; [split; [discriminate|intros (? & ? & ? & ? & ? & E & _); discriminate E]|];
       split; [intros _; simpl; lia|reflexivity].
  assert (E : py_eq (VIP y x) (VSeq (a :: b :: l)) =
    Some (bind (to_int a) (fun y' => bind (to_int b) (fun x' => Ok ((x =? x') && (y =? y')))))).
  { unfold py_eq, eq_method, ip_make. unfold getitem, py_get, py_index. cbn [length].
    assert (L0 : (0 <? Z.of_nat (S (S (length l)))) = true) by (apply Z.ltb_lt; lia).
    assert (L1 : (1 <? Z.of_nat (S (S (length l)))) = true) by (apply Z.ltb_lt; lia).
    change (0 <? 0) with false. change (1 <? 0) with false. cbv iota. rewrite L0, L1.
    change (0 <=? 0) with true. change (0 <=? 1) with true. cbn [andb].
    change (Z.to_nat 0) with 0%nat. change (Z.to_nat 1) with 1%nat. cbn [nth_error bind].
    destruct (to_int a); cbn [bind]; [|reflexivity]. destruct (to_int b); reflexivity. }
  rewrite E. split; [split|split].
  - destruct (to_int a) as [y'|] eqn:Ea; cbn [bind]; [|discriminate].
    destruct (to_int b) as [x'|] eqn:Eb; cbn [bind]; [|discriminate].
    rewrite some_ok, andb_true_iff, !Z.eqb_eq. intros [-> ->].
    apply to_int_matches in Ea. apply to_int_matches in Eb. destruct Ea as (p & N1 & T1), Eb as (q & N2 & T2).
    exists a, b, l, p, q. auto.
  - intros (a' & b' & l' & p & q & Q & N1 & N2 & T1 & T2). injection Q as <- <- <-.
    assert (E1 : to_int a = Ok y) by (apply to_int_matches; eauto).
    assert (E2 : to_int b = Ok x) by (apply to_int_matches; eauto).
    rewrite E1, E2. cbn [bind]. rewrite !Z.eqb_refl. reflexivity.
  - intros H. exfalso. destruct (to_int a) as [y'|e] eqn:Ea; cbn [bind] in H.
    + destruct (to_int b) as [x'|e] eqn:Eb; cbn [bind] in H; [discriminate|]. injection H as ->. exact (NT _ Eb).
    + injection H as ->. exact (NT _ Ea).
  - simpl. lia.
Qed.

(** FINDING.  Between the two families == is not symmetric: a point of integers equals a float point with fractions,
    which does not equal it. *)
Theorem geomeq_symmetric_refuted :
  ~ forall a b, is_object a -> is_object b -> py_eq a b = Some (Ok true) -> py_eq b a = Some (Ok true).
Proof.
  intros H. specialize (H (VIP 1 2) (VFP (Fin (3 # 2)) (Fin 2)) I I eq_refl). discriminate H.
Qed.
(** nor for integers that no double is equal to *)
Theorem geomeq_large_refuted :
  ~ forall a b, is_float_object a -> is_int_object b -> py_eq a b = Some (Ok true) -> py_eq b a = Some (Ok true).
Proof.
  intros H. specialize (H (VFP (Fin (inject_Z (2 ^ 53))) (Fin 0)) (VIP (2 ^ 53 + 1) 0) I I).
  assert (E : py_eq (VFP (Fin (inject_Z (2 ^ 53))) (Fin 0)) (VIP (2 ^ 53 + 1) 0) = Some (Ok true)) by (vm_compute; reflexivity).
  specialize (H E). vm_compute in H. discriminate H.
Qed.
(** FINDING.  == is not transitive: two float points with different fractions both equal one point of integers. *)
Theorem geomeq_transitive_refuted :
  ~ forall a b c, is_object a -> is_object b -> is_object c ->
    py_eq b a = Some (Ok true) -> py_eq b c = Some (Ok true) -> py_eq a c = Some (Ok true).
Proof.
  intros H. specialize (H (VFP (Fin (3 # 2)) (Fin 2)) (VIP 1 2) (VFP (Fin (5 # 4)) (Fin 2)) I I I eq_refl eq_refl).
  discriminate H.
Qed.
(** FINDING.  A point equals a size, and a tuple of more than two; a size of zero equals a pair of Nones. *)
Theorem geomeq_kinds_refuted :
  py_eq (VIP 1 2) (VIS 1 2) = Some (Ok true) /\
  py_eq (VIP 1 2) (VSeq [VInt 1; VInt 2; VInt 3]) = Some (Ok true) /\
  py_eq (VIS 0 0) (VSeq [VNone; VNone]) = Some (Ok true) /\
  py_eq (VFS (Fin 0) (Fin 0)) (VSeq [VNone; VNone]) = Some (Ok true) /\
  py_eq (VIP 0 0) (VSeq [VNone; VNone]) = Some (Err TypeError).
Proof. repeat split. Qed.

Example geomeq_ex_rects :
  py_eq (VIR 1 2 3 4) (VIR 1 2 3 4) = Some (Ok true) /\ py_eq (VIR 1 2 3 4) (VIR 1 2 3 5) = Some (Ok false) /\
  py_eq (VIR 1 2 3 4) (VFR (Fin (3 # 2)) (Fin 2) (Fin 3) (Fin (9 # 2))) = Some (Ok true) /\
  py_eq (VIR 1 2 3 4) (VSeq [VIP 1 2; VSeq [VInt 3; VInt 4]]) = Some (Ok true) /\
  py_ne (VIR 1 2 3 4) (VIR 1 2 3 5) = Some (Ok true).
Proof. repeat split. Qed.
Example geomeq_ex_raises :
  py_eq (VIP 1 2) (VIR 1 2 3 4) = Some (Err TypeError) /\ py_eq (VIR 1 2 3 4) (VIP 1 2) = Some (Err TypeError) /\
  py_eq (VIP 1 2) (VFP Nan (Fin 2)) = Some (Err ValueError) /\ py_eq (VFP Nan (Fin 2)) (VIP 1 2) = Some (Ok false) /\
  py_eq (VSeq [VInt 1]) (VIP 1 2) = Some (Err IndexError) /\ py_eq (VInt 1) (VIP 1 2) = Some (Err TypeError).
Proof. repeat split. Qed.
Example geomeq_ex_mixed :
  py_eq (VFP (Fin 1) (Fin 2)) (VIP 1 2) = Some (Ok true) /\ py_eq (VIP 1 2) (VFP (Fin 1) (Fin 2)) = Some (Ok true) /\
  py_eq (VFP (Fin (3 # 2)) (Fin 2)) (VIP 1 2) = Some (Ok false) /\
  py_eq (VFP Nan (Fin 2)) (VFP Nan (Fin 2)) = Some (Ok false).
Proof. vm_compute. repeat split. Qed.

Print Assumptions geomeq_ne.
Print Assumptions geomeq_left_int.
Print Assumptions geomeq_left_float.
Print Assumptions geomeq_raises.
Print Assumptions geomeq_none.
Print Assumptions geomeq_equivalence.
Print Assumptions geomeq_mixed.
Print Assumptions geomeq_sequence.
Print Assumptions geomeq_symmetric_refuted.
Print Assumptions geomeq_large_refuted.
Print Assumptions geomeq_transitive_refuted.
Print Assumptions geomeq_kinds_refuted.
