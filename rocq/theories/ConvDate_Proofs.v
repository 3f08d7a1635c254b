From Coq Require Import String Ascii List ZArith Bool Lia.
From Verif Require Import PyBase Text_Model Text_Proofs ConvNum_Model ConvNum_Spec ConvNum_Proofs ConvDate_Model ConvDate_Spec.
Import ListNotations.
Local Open Scope Z_scope.

(** ** range checks *)
Lemma between_iff a x b : between a x b = true <-> a <= x <= b.
Proof. unfold between. rewrite andb_true_iff, !Z.leb_le. reflexivity. Qed.

Lemma py_is_leap_iff y : py_is_leap y = true <-> leap_year y.
Proof.
  unfold py_is_leap, leap_year. rewrite andb_true_iff, orb_true_iff, negb_true_iff, !Z.eqb_eq, Z.eqb_neq.
  rewrite !Z.mod_divide by lia. split; intros [H1 H2]; (split; [exact H1|]).
  - intros H. destruct H2; [contradiction|assumption].
  - destruct (Z.eq_dec (y mod 100) 0) as [E|E].
    + right. apply H2. apply Z.mod_divide; [lia|exact E].
    + left. intros H. apply E. apply Z.mod_divide; [lia|exact H].
Qed.

Lemma days_iff y m day :
  1 <= m <= 12 /\ 1 <= day <= py_days_in_month y m <-> day_of_month y m day.
Proof.
  unfold day_of_month, py_days_in_month. pose proof (py_is_leap_iff y) as L. split.
  - intros [Hm Hd]. split; [lia|].
    assert (C : m = 1 \/ m = 2 \/ m = 3 \/ m = 4 \/ m = 5 \/ m = 6 \/ m = 7 \/ m = 8 \/ m = 9 \/ m = 10 \/ m = 11 \/ m = 12) by lia.
    destruct C as [->|[->|[->|[->|[->|[->|[->|[->|[->|[->|[->| ->]]]]]]]]]]]; simpl in Hd |- *; try (left; split; [tauto|lia]);
      try (right; left; split; [tauto|lia]).
    destruct (py_is_leap y) eqn:E; [|right; right; left; lia].
    destruct (Z.eq_dec day 29) as [->|]; [right; right; right; repeat split; [apply L; reflexivity|apply L; reflexivity]|right; right; left; lia].
  - intros (H1 & H). destruct H as [[Hm Hd]|[[Hm Hd]|[[-> Hd]|(-> & -> & Hl)]]].
    + simpl in Hm. destruct Hm as [<-|[<-|[<-|[<-|[<-|[<-|[<-|[]]]]]]]]; simpl; lia.
    + simpl in Hm. destruct Hm as [<-|[<-|[<-|[<-|[]]]]]; simpl; lia.
    + simpl. destruct (py_is_leap y); lia.
    + apply L in Hl. simpl. rewrite Hl. lia.
Qed.

Lemma mk_datetime_iff d : mk_datetime d = Ok d <-> valid_datetime d.
Proof.
  unfold mk_datetime, valid_datetime. rewrite <- days_iff.
  destruct (between 1 (dt_year d) 9999 && _ && _ && _ && _ && _ && _) eqn:E.
  - rewrite !andb_true_iff, !between_iff in E. split; [intros _; lia|reflexivity].
  - split; [discriminate|]. intros H. assert (X : true = false); [|discriminate]. rewrite <- E. symmetry.
    rewrite !andb_true_iff, !between_iff. lia.
Qed.
Lemma mk_datetime_some d e : mk_datetime d = Ok e -> e = d.
Proof. unfold mk_datetime. destruct (_ && _); [congruence|discriminate]. Qed.

(** ** fields *)
Lemma field_pad k n : 0 <= n < 10 ^ Z.of_nat k -> field k n (pad k n).
Proof.
  intros H. split; [apply pad_length|]. split.
  - apply Forall_forall. intros c Hc. apply a_digit_iff. pose proof (pad_digits k n) as D. rewrite forallb_forall in D. auto.
  - rewrite <- positional_value. apply pad_value, H.
Qed.
Lemma field2 n t : field 2 n t <-> exists a b, t = [a; b] /\ is_digit a = true /\ is_digit b = true /\ n = digit_val a * 10 + digit_val b.
Proof.
  split.
  - intros (L & F & P). destruct t as [|a [|b [|? ?]]]; try discriminate. exists a, b. inversion F; subst. inversion H2; subst.
    repeat split; [apply a_digit_iff; assumption..|]. rewrite <- positional_value. unfold dec_value. simpl. lia.
  - intros (a & b & -> & Ha & Hb & ->). split; [reflexivity|]. split.
    + repeat constructor; apply a_digit_iff; assumption.
    + rewrite <- positional_value. unfold dec_value. simpl. lia.
Qed.
Lemma field1 n t : field 1 n t <-> exists a, t = [a] /\ is_digit a = true /\ n = digit_val a.
Proof.
  split.
  - intros (L & F & P). destruct t as [|a [|? ?]]; try discriminate. exists a. inversion F; subst.
    repeat split; [apply a_digit_iff; assumption|]. rewrite <- positional_value. unfold dec_value. simpl. lia.
  - intros (a & -> & Ha & ->). split; [reflexivity|]. split.
    + repeat constructor; apply a_digit_iff; assumption.
    + rewrite <- positional_value. unfold dec_value. simpl. lia.
Qed.
Lemma field4 n t : field 4 n t <-> exists a b c d, t = [a; b; c; d] /\ is_digit a = true /\ is_digit b = true /\ is_digit c = true /\ is_digit d = true /\
  n = (digit_val a * 10 + digit_val b) * 100 + (digit_val c * 10 + digit_val d).
Proof.
  split.
  - intros (L & F & P). destruct t as [|a [|b [|c [|d [|? ?]]]]]; try discriminate. exists a, b, c, d.
    rewrite Forall_forall in F. repeat split; try (apply a_digit_iff, F; simpl; tauto).
    rewrite <- P, <- positional_value. unfold dec_value. cbn [horner]. lia.
  - intros (a & b & c & d & -> & Ha & Hb & Hc & Hd & ->). split; [reflexivity|]. split.
    + repeat constructor; apply a_digit_iff; assumption.
    + rewrite <- positional_value. unfold dec_value. cbn [horner]. lia.
Qed.

(** ** the matcher.  [first p s a r]: the first match of [p] on [s] yields [a] and leaves [r];
    [some p s a r]: some match does *)
Definition first {A} (p : parser A) (s : str) (a : A) (r : str) : Prop := exists l, p s = (a, r) :: l.

Lemma first_bind {A B} (p : parser A) (f : A -> parser B) s a r b r' :
  first p s a r -> first (f a) r b r' -> first (p_bind p f) s b r'.
Proof. intros [l E] [l' E']. unfold first, p_bind. rewrite E. simpl. rewrite E'. simpl. eauto. Qed.
Lemma some_bind {A B} (p : parser A) (f : A -> parser B) s b r' :
  In (b, r') (p_bind p f s) -> exists a r, In (a, r) (p s) /\ In (b, r') (f a r).
Proof. unfold p_bind. rewrite in_flat_map. intros ([a r] & H1 & H2). eauto. Qed.

Lemma first_chr f c r : f c = true -> first (p_chr f) (c :: r) c r.
Proof. intros H. unfold first, p_chr. rewrite H. eauto. Qed.
Lemma some_chr f s c r : In (c, r) (p_chr f s) -> s = c :: r /\ f c = true.
Proof. unfold p_chr. destruct s as [|d t]; [contradiction|]. destruct (f d) eqn:E; [|contradiction]. intros [[= -> ->]|[]]. auto. Qed.

Lemma some_two f g s n r : In (n, r) (p_two f g s) -> exists a b, s = a :: b :: r /\ f a = true /\ g b = true /\ n = digit_val a * 10 + digit_val b.
Proof.
  unfold p_two. intros H. apply some_bind in H as (a & r1 & Ha & H). apply some_bind in H as (b & r2 & Hb & H).
  apply some_chr in Ha as [-> Ha]. apply some_chr in Hb as [-> Hb]. destruct H as [[= <- <-]|[]]. eauto 6.
Qed.
Lemma two_val f g a b r : f a = true -> g b = true -> p_two f g (a :: b :: r) = [(digit_val a * 10 + digit_val b, r)].
Proof. intros Ha Hb. unfold p_two, p_bind, p_chr, p_ret. rewrite Ha. simpl. rewrite Hb. reflexivity. Qed.
Lemma two_nil f g a b r : f a = false \/ g b = false -> p_two f g (a :: b :: r) = [].
Proof.
  intros H. unfold p_two, p_bind, p_chr, p_ret. destruct (f a) eqn:Ea; [|reflexivity]. destruct H as [H|H]; [discriminate|]. simpl. rewrite H. reflexivity.
Qed.
Lemma some_one f s n r : In (n, r) (p_one f s) -> exists a, s = a :: r /\ f a = true /\ n = digit_val a.
Proof.
  unfold p_one. intros H. apply some_bind in H as (a & r1 & Ha & H). apply some_chr in Ha as [-> Ha].
  destruct H as [[= <- <-]|[]]. eauto.
Qed.

Ltac chars_up c := destruct c as [[|] [|] [|] [|] [|] [|] [|] [|]].
(** the ten digit characters *)
Definition digits10 : list ascii := map digit_char [0;1;2;3;4;5;6;7;8;9].
Lemma digit_in c : is_digit c = true -> In c digits10.
Proof. intros H. pose proof (is_digit_range c H) as R. rewrite <- (digit_char_val c). unfold digits10. apply in_map.
  assert (C : digit_val c = 0 \/ digit_val c = 1 \/ digit_val c = 2 \/ digit_val c = 3 \/ digit_val c = 4 \/ digit_val c = 5 \/ digit_val c = 6 \/ digit_val c = 7 \/ digit_val c = 8 \/ digit_val c = 9) by lia.
  destruct C as [->|[->|[->|[->|[->|[->|[->|[->|[->| ->]]]]]]]]]; simpl; tauto.
Qed.

Ltac enum_digit c H := apply digit_in in H; cbn in H; repeat (destruct H as [H|H]; [subst c|]); [..|contradiction].

Definition pads_first (p : parser Z) (lo hi : Z) : Prop :=
  forall n t r, field 2 n t -> lo <= n <= hi -> first p (t ++ r) n r.
Ltac pads_tac := intros n t r F B; apply field2 in F as (a & b & -> & Ha & Hb & ->);
  enum_digit a Ha; enum_digit b Hb; first [exfalso; vm_compute in B; destruct B as [B1 B2]; first [apply B1; reflexivity|apply B2; reflexivity]
    | eexists; vm_compute; reflexivity].
Lemma first_m : pads_first p_m 1 12. Proof. pads_tac. Qed.
Lemma first_d : pads_first p_d 1 31. Proof. pads_tac. Qed.
Lemma first_H : pads_first p_H 0 23. Proof. pads_tac. Qed.
Lemma first_M : pads_first p_M 0 59. Proof. pads_tac. Qed.
Lemma first_S : pads_first p_S 0 59. Proof. pads_tac. Qed.
Lemma first_d_space n c r : field 1 n [c] -> 1 <= n -> first p_d (" "%char :: c :: r) n r.
Proof.
  intros F B. apply field1 in F as (a & [= ->] & Ha & ->). enum_digit a Ha; [exfalso; vm_compute in B; apply B; reflexivity|..]; eexists; vm_compute; reflexivity.
Qed.
Lemma first_Y n t r : field 4 n t -> first p_Y (t ++ r) n r.
Proof.
  intros F. apply field4 in F as (a & b & c & d & -> & Ha & Hb & Hc & Hd & ->). unfold p_Y. simpl app.
  eapply first_bind; [eexists; apply two_val; assumption|]. eapply first_bind; [eexists; apply two_val; assumption|]. eexists. reflexivity.
Qed.
Lemma first_lit c r : first (p_lit c) (c :: r) c r.
Proof. apply first_chr. destruct (ascii_dec (up c) (up c)); [reflexivity|congruence]. Qed.

Lemma first_digits t : forall k r, forallb is_digit t = true -> length t = k -> first (p_digits k) (t ++ r) t r.
Proof.
  induction t as [|c t IH]; intros k r Hd <-; [eexists; reflexivity|].
  simpl in Hd. apply andb_prop in Hd as [Hc Hd]. destruct (IH _ r Hd eq_refl) as [l E].
  eexists. simpl. rewrite Hc, E. simpl. reflexivity.
Qed.
Lemma first_f n t : field 6 n t -> first p_f t n [].
Proof.
  intros (L & F & P). destruct t as [|c t]; [discriminate|].
  assert (D : forallb is_digit (c :: t) = true) by (apply forallb_forall; rewrite Forall_forall in F; intros; apply a_digit_iff; auto).
  cbn [forallb] in D. apply andb_prop in D as [Dc D].
  unfold p_f. eapply first_bind; [apply first_chr; exact Dc|].
  pose proof (first_digits t 5 [] D ltac:(simpl in L; lia)) as X. rewrite app_nil_r in X. eapply first_bind; [exact X|].
  eexists. unfold p_ret. rewrite positional_value, P, L. f_equal. f_equal. change (10 ^ (6 - Z.of_nat 6)) with 1. lia.
Qed.

(** ** soundness of the pieces: at most two characters, and two digits with the value *)
Definition pads_sound (p : parser Z) : Prop :=
  forall s n r, In (n, r) (p s) -> exists t, s = t ++ r /\ (length t <= 2)%nat /\ (length t = 2%nat -> field 2 n t).
Lemma in_range_digit a b c : in_range a b c = true -> 48 <= code a -> code b <= 57 -> is_digit c = true.
Proof. unfold in_range, is_digit. rewrite between_iff, andb_true_iff, !Z.leb_le. lia. Qed.
Lemma eq_c_iff a c : eq_c a c = true <-> c = a.
Proof. unfold eq_c. destruct (ascii_dec a c); split; congruence. Qed.
Ltac is_dig := first [assumption | match goal with
  | H : eq_c _ _ = true |- _ => apply eq_c_iff in H; subst; reflexivity
  | H : in_range _ _ ?c = true |- is_digit ?c = true => apply (in_range_digit _ _ _ H); vm_compute; congruence end].
Ltac sound_two H := apply some_two in H as (a & b & -> & Ha & Hb & ->); exists [a; b]; split; [reflexivity|]; split; [simpl; lia|];
  intros _; apply field2; exists a, b; repeat split; is_dig.
Ltac sound_one H := apply some_one in H as (a & -> & Ha & ->); exists [a]; split; [reflexivity|]; split; [simpl; lia|];
  intros X; discriminate X.
Lemma in_or {A} (ps : list (parser A)) s x : In x (p_or ps s) <-> exists p, In p ps /\ In x (p s).
Proof. unfold p_or. rewrite in_flat_map. reflexivity. Qed.
Ltac sound_tac := intros s n r H; apply in_or in H as (p & Hp & H); cbn [In] in Hp;
  repeat (destruct Hp as [<-|Hp]; [first [sound_two H|sound_one H]|]); contradiction.
Lemma sound_m : pads_sound p_m. Proof. sound_tac. Qed.
Lemma sound_H : pads_sound p_H. Proof. sound_tac. Qed.
Lemma sound_M : pads_sound p_M. Proof. sound_tac. Qed.
Lemma sound_S : pads_sound p_S. Proof. sound_tac. Qed.

Definition day_text (n : Z) (t : str) : Prop := field 2 n t \/ exists c, t = [" "%char; c] /\ field 1 n [c].
Lemma sound_d s n r : In (n, r) (p_d s) -> exists t, s = t ++ r /\ (length t <= 2)%nat /\ (length t = 2%nat -> day_text n t).
Proof.
  intros H. apply in_or in H as (p & Hp & H). cbn [In] in Hp.
  assert (G : forall t, s = t ++ r /\ (length t <= 2)%nat /\ (length t = 2%nat -> field 2 n t) ->
    exists t, s = t ++ r /\ (length t <= 2)%nat /\ (length t = 2%nat -> day_text n t)).
  { intros t (E & L & X). exists t. repeat split; try assumption. intros L2. left. auto. }
  do 4 (destruct Hp as [<-|Hp]; [match goal with |- exists t, ?Q => assert (Z0 : exists t, s = t ++ r /\ (length t <= 2)%nat /\ (length t = 2%nat -> field 2 n t))
    by (first [sound_two H|sound_one H]) end; destruct Z0 as [t0 Z0]; exact (G t0 Z0)|]).
  destruct Hp as [<-|[]]. apply some_bind in H as (c & r1 & H1 & H2). apply some_chr in H1 as [-> H1]. apply eq_c_iff in H1 as ->.
  apply some_one in H2 as (a & -> & Ha & ->). exists [" "%char; a]. split; [reflexivity|]. split; [simpl; lia|]. intros _. right.
  exists a. split; [reflexivity|]. apply field1. exists a. repeat split. is_dig.
Qed.
Lemma sound_Y s n r : In (n, r) (p_Y s) -> exists t, s = t ++ r /\ field 4 n t.
Proof.
  unfold p_Y. intros H. apply some_bind in H as (x & r1 & Hx & H). apply some_bind in H as (y & r2 & Hy & H).
  apply some_two in Hx as (a & b & -> & Ha & Hb & ->). apply some_two in Hy as (c & d & -> & Hc & Hd & ->).
  destruct H as [[= <- <-]|[]]. exists [a; b; c; d]. split; [reflexivity|]. apply field4. exists a, b, c, d. auto 8.
Qed.
Lemma sound_lit c s x r : In (x, r) (p_lit c s) -> s = x :: r /\ up x = up c.
Proof. unfold p_lit. intros H. apply some_chr in H as [-> H]. destruct (ascii_dec (up x) (up c)); [auto|discriminate]. Qed.
Lemma sound_digits k : forall s t r, In (t, r) (p_digits k s) -> s = t ++ r /\ (length t <= k)%nat /\ forallb is_digit t = true.
Proof.
  induction k as [|k IH]; intros s t r H; [destruct H as [[= <- <-]|[]]; auto|]. cbn [p_digits] in H.
  destruct s as [|c s]; [destruct H as [[= <- <-]|[]]; split; [reflexivity|]; split; [simpl; lia|reflexivity]|].
  destruct (is_digit c) eqn:Ec; [|destruct H as [[= <- <-]|[]]; split; [reflexivity|]; split; [simpl; lia|reflexivity]].
  apply in_app_or in H as [H|[[= <- <-]|[]]]; [|split; [reflexivity|]; split; [simpl; lia|reflexivity]].
  apply in_map_iff in H as ([t' r'] & [= <- <-] & H). apply IH in H as (-> & L & D). split; [reflexivity|].
  split; [simpl; lia|]. simpl. rewrite Ec. exact D.
Qed.
Lemma sound_f s n r : In (n, r) (p_f s) -> exists t, s = t ++ r /\ (length t <= 6)%nat /\ (length t = 6%nat -> field 6 n t).
Proof.
  unfold p_f. intros H. apply some_bind in H as (c & r1 & Hc & H). apply some_bind in H as (t & r2 & Ht & H).
  apply some_chr in Hc as [-> Hc]. apply sound_digits in Ht as (-> & L & D). destruct H as [[= <- <-]|[]].
  exists (c :: t). split; [reflexivity|]. split; [simpl; lia|]. intros E. split; [exact E|]. split.
  - apply Forall_forall. intros x [<-|Hx]; apply a_digit_iff; [exact Hc|]. rewrite forallb_forall in D. auto.
  - rewrite <- positional_value. assert (Et : length t = 5%nat) by (simpl in E; lia). cbn [length]. rewrite Et.
    change (10 ^ (6 - Z.of_nat 6)) with 1. rewrite Z.mul_1_r. reflexivity.
Qed.

Lemma up_exact c d : up c = up d -> In d ["-"%char; ":"%char; "."%char] -> c = d.
Proof.
  intros H [<-|[<-|[<-|[]]]]; revert H; chars_up c; vm_compute; congruence.
Qed.
Lemma up_T c : up c = up "T" <-> c = "T"%char \/ c = "t"%char.
Proof. split; [chars_up c; vm_compute; (congruence || auto)|intros [->| ->]; reflexivity]. Qed.

(** the tail of a text: nothing, or a point and six digits *)
Definition frac_text (frac : bool) (us : Z) (t : str) : Prop :=
  if frac then exists ds, t = "."%char :: ds /\ field 6 us ds else t = [] /\ us = 0.

Lemma p_date_complete frac d sep tail s :
  valid_datetime d -> (sep = "T"%char \/ sep = "t"%char) -> frac_text frac (dt_micro d) tail -> date_text d sep tail s ->
  first (p_date frac) s d [].
Proof.
  intros (VY & VD & VH & VM & VS & VU) Hsep Hf (y & mo & dd & h & mi & sec & -> & Fy & Fmo & Fd & Fh & Fmi & Fs).
  apply days_iff in VD as (Vm & Vd1 & Vd2).
  assert (Vd3 : dt_day d <= 31).
  { destruct (proj1 (days_iff (dt_year d) (dt_month d) (dt_day d)) (conj Vm (conj Vd1 Vd2))) as (_ & [[_ ?]|[[_ ?]|[[_ ?]|(_ & ? & _)]]]); lia. }
  unfold p_date. change (lit "-") with ["-"%char]. change (lit ":") with [":"%char]. simpl app.
  eapply first_bind; [apply first_Y, Fy|]. eapply first_bind; [apply first_lit|].
  eapply first_bind; [apply first_m; [exact Fmo|lia]|]. eapply first_bind; [apply first_lit|].
  eapply first_bind.
  { destruct Fd as [Fd|(c & -> & Fd)]; [apply first_d; [exact Fd|lia]|]. simpl app. apply first_d_space; [exact Fd|lia]. }
  eapply first_bind; [apply first_chr; rewrite (proj2 (up_T sep) Hsep); reflexivity|].
  eapply first_bind; [apply first_H; [exact Fh|lia]|]. eapply first_bind; [apply first_lit|].
  eapply first_bind; [apply first_M; [exact Fmi|lia]|]. eapply first_bind; [apply first_lit|].
  eapply first_bind; [apply first_S; [exact Fs|lia]|].
  destruct d as [Y MO D H MI S US]. simpl in *. destruct frac; simpl in Hf.
  - destruct Hf as (ds & -> & Ff). eapply first_bind; [apply first_lit|]. eapply first_bind; [apply first_f, Ff|]. eexists. reflexivity.
  - destruct Hf as [-> ->]. eexists. reflexivity.
Qed.

Lemma p_date_sound frac d s :
  In (d, []) (p_date frac s) -> length s = (if frac then 26 else 19)%nat ->
  exists sep tail, (sep = "T"%char \/ sep = "t"%char) /\ frac_text frac (dt_micro d) tail /\ date_text d sep tail s.
Proof.
  unfold p_date. intros H L.
  apply some_bind in H as (Y & r1 & HY & H). apply some_bind in H as (x1 & r2 & H1 & H).
  apply some_bind in H as (MO & r3 & HMO & H). apply some_bind in H as (x2 & r4 & H2 & H).
  apply some_bind in H as (D & r5 & HD & H). apply some_bind in H as (x3 & r6 & H3 & H).
  apply some_bind in H as (HH & r7 & HHH & H). apply some_bind in H as (x4 & r8 & H4 & H).
  apply some_bind in H as (MI & r9 & HMI & H). apply some_bind in H as (x5 & r10 & H5 & H).
  apply some_bind in H as (S & r11 & HS & H).
  apply sound_Y in HY as (y & -> & Fy). apply sound_lit in H1 as [-> U1]. apply sound_m in HMO as (mo & -> & Lmo & Fmo).
  apply sound_lit in H2 as [-> U2]. apply sound_d in HD as (dd & -> & Ldd & Fdd). apply sound_lit in H3 as [-> U3].
  apply sound_H in HHH as (h & -> & Lh & Fh). apply sound_lit in H4 as [-> U4]. apply sound_M in HMI as (mi & -> & Lmi & Fmi).
  apply sound_lit in H5 as [-> U5]. apply sound_S in HS as (sec & -> & Lsec & Fsec).
  apply up_exact in U1; [|simpl; tauto]. apply up_exact in U2; [|simpl; tauto]. apply up_exact in U4; [|simpl; tauto].
  apply up_exact in U5; [|simpl; tauto]. apply up_T in U3. subst x1 x2 x4 x5.
  assert (Ly : length y = 4%nat) by apply Fy.
  destruct frac.
  - apply some_bind in H as (x6 & r12 & H6 & H). apply some_bind in H as (US & r13 & HU & H). destruct H as [[= <- ->]|[]].
    apply sound_lit in H6 as [-> U6]. apply up_exact in U6; [|simpl; tauto]. subst x6.
    apply sound_f in HU as (f & -> & Lf & Ff).
    repeat (rewrite app_length in L || cbn [length] in L).
    exists x3, ("."%char :: f). split; [exact U3|]. split; [exists f; split; [reflexivity|]; simpl; apply Ff; lia|].
    exists y, mo, dd, h, mi, sec. rewrite app_nil_r. cbn [dt_year dt_month dt_day dt_hour dt_minute dt_second].
    split; [reflexivity|]. split; [exact Fy|]. split; [apply Fmo; lia|]. split; [apply Fdd; lia|]. split; [apply Fh; lia|]. split; [apply Fmi; lia|apply Fsec; lia].
  - destruct H as [[= <- ->]|[]]. repeat (rewrite app_length in L || cbn [length] in L).
    exists x3, []. split; [exact U3|]. split; [split; reflexivity|].
    exists y, mo, dd, h, mi, sec. rewrite !app_nil_r. cbn [dt_year dt_month dt_day dt_hour dt_minute dt_second].
    split; [reflexivity|]. split; [exact Fy|]. split; [apply Fmo; lia|]. split; [apply Fdd; lia|]. split; [apply Fh; lia|]. split; [apply Fmi; lia|apply Fsec; lia].
Qed.

Lemma date_text_length frac d sep tail s : frac_text frac (dt_micro d) tail -> date_text d sep tail s -> length s = (if frac then 26 else 19)%nat.
Proof.
  intros Hf (y & mo & dd & h & mi & sec & -> & Fy & Fmo & Fd & Fh & Fmi & Fs).
  assert (Ldd : length dd = 2%nat) by (destruct Fd as [Fd|(c & -> & _)]; [apply Fd|reflexivity]).
  repeat (rewrite app_length || cbn [length]). rewrite (proj1 Fy), (proj1 Fmo), Ldd, (proj1 Fh), (proj1 Fmi), (proj1 Fs).
  destruct frac; [destruct Hf as (ds & -> & Ff); cbn [length]; rewrite (proj1 Ff)|destruct Hf as [-> _]]; reflexivity.
Qed.

Lemma strptime_iff (frac : bool) (s : str) d : length s = (if frac then 26 else 19)%nat ->
  strptime frac s = Ok d <->
  valid_datetime d /\ exists sep tail, (sep = "T"%char \/ sep = "t"%char) /\ frac_text frac (dt_micro d) tail /\ date_text d sep tail s.
Proof.
  intros L. unfold strptime. split.
  - destruct (p_date frac s) as [|[e [|x r]] l] eqn:E; try discriminate. intros H. pose proof (mk_datetime_some _ _ H) as ->.
    split; [apply mk_datetime_iff, H|]. apply p_date_sound; [rewrite E; left; reflexivity|exact L].
  - intros (V & sep & tail & Hs & Hf & Ht). destruct (p_date_complete frac d sep tail s V Hs Hf Ht) as [l ->].
    apply mk_datetime_iff, V.
Qed.
