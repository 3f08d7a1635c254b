From Coq Require Import String Ascii List ZArith Bool Lia.
From Verif Require Import PyBase Text_Model Text_Proofs ConvUuid_Model ConvUuid_Spec.
Import ListNotations.
Local Open Scope Z_scope.

Lemma hex_char_cases (P : Z -> Prop) :
  (forall d, In d [0;1;2;3;4;5;6;7;8;9;10;11;12;13;14;15] -> P d) -> forall d, 0 <= d < 16 -> P d.
Proof. intros H d Hd. apply H. simpl. lia. Qed.

Lemma hex_val_char d : 0 <= d < 16 -> hex_val (hex_char d) = d.
Proof. revert d. apply hex_char_cases. simpl. intros d H. repeat (destruct H as [<-|H]; [reflexivity|]). contradiction. Qed.
Lemma is_hex_char d : 0 <= d < 16 -> is_hex (hex_char d) = true.
Proof. revert d. apply hex_char_cases. simpl. intros d H. repeat (destruct H as [<-|H]; [reflexivity|]). contradiction. Qed.
Lemma lower_hex c : is_hex c = true -> lower_char c = hex_char (hex_val c) /\ 0 <= hex_val c < 16.
Proof. each_ascii c; vm_compute; intros; try discriminate; repeat split; congruence. Qed.
Lemma lower_hex_char d : 0 <= d < 16 -> lower_char (hex_char d) = hex_char d.
Proof. revert d. apply hex_char_cases. simpl. intros d H. repeat (destruct H as [<-|H]; [reflexivity|]). contradiction. Qed.
Lemma lower_is_hex c d : 0 <= d < 16 -> lower_char c = hex_char d -> is_hex c = true /\ hex_val c = d.
Proof.
  intros Hd E. assert (is_hex c = true).
  { assert (H : is_hex (lower_char c) = true) by (rewrite E; apply is_hex_char, Hd). revert H. each_ascii c; vm_compute; congruence. }
  split; [assumption|]. destruct (lower_hex c H) as [E2 R]. rewrite E2 in E. apply (f_equal hex_val) in E.
  rewrite !hex_val_char in E by assumption. exact E.
Qed.
Lemma hyphen_iff c : is_hyphen c = true <-> c = "-"%char.
Proof. unfold is_hyphen. destruct (ascii_dec c "-"); intuition congruence. Qed.
Lemma hex_not_hyphen c : is_hex c = true -> is_hyphen c = false.
Proof. each_ascii c; vm_compute; congruence. Qed.
Lemma hex_not_space c : is_hex c = true -> is_space c = false.
Proof. each_ascii c; vm_compute; congruence. Qed.
Lemma four_iff c : is_four c = true <-> is_hex c = true /\ hex_val c = 4.
Proof. each_ascii c; vm_compute; split; intros H; try discriminate; try (destruct H; discriminate); auto. Qed.
Lemma is_89ab_iff c : is_89ab c = true <-> is_hex c = true /\ hex_val c / 4 = 2.
Proof. each_ascii c; vm_compute; split; intros H; try discriminate; try (destruct H; discriminate); auto. Qed.

Lemma hex_pad_length k n : length (hex_pad k n) = k.
Proof. revert n. induction k as [|k IH]; intros n; simpl; [reflexivity|]. rewrite app_length, IH. simpl. lia. Qed.
Lemma hex_pad_all k n : Forall (fun c => exists d, 0 <= d < 16 /\ c = hex_char d) (hex_pad k n).
Proof.
  revert n. induction k as [|k IH]; intros n; [constructor|]. cbn [hex_pad]. apply Forall_app. split; [apply IH|].
  constructor; [|constructor]. exists (n mod 16). split; [apply Z.mod_pos_bound; lia|reflexivity].
Qed.
Lemma hex_pad_app j k n : hex_pad (k + j) n = hex_pad k (n / 16 ^ Z.of_nat j) ++ hex_pad j n.
Proof.
  revert n. induction j as [|j IH]; intros n.
  - rewrite Nat.add_0_r, Z.pow_0_r, Z.div_1_r, app_nil_r. reflexivity.
  - rewrite Nat.add_succ_r. cbn [hex_pad]. rewrite IH, app_assoc. f_equal. f_equal. f_equal.
    rewrite Nat2Z.inj_succ, Z.pow_succ_r, Z.div_div by lia. reflexivity.
Qed.
Lemma hex_pad_value k : forall n, 0 <= n < 16 ^ Z.of_nat k -> horner 16 hex_val 0 (hex_pad k n) = n.
Proof.
  induction k as [|k IH]; intros n Hn; [simpl in *; lia|]. cbn [hex_pad].
  rewrite Nat2Z.inj_succ, Z.pow_succ_r in Hn by lia.
  pose proof (Z.mod_pos_bound n 16 ltac:(lia)). pose proof (Z.div_mod n 16 ltac:(lia)).
  rewrite horner_app, IH by (split; [apply Z.div_pos; lia|apply Z.div_lt_upper_bound; lia]).
  cbn [horner]. rewrite hex_val_char by lia. lia.
Qed.
Lemma hex_pad_of_value s : forallb is_hex s = true -> hex_pad (length s) (horner 16 hex_val 0 s) = lower_text s.
Proof.
  induction s as [|c s IH] using rev_ind; intros H; [reflexivity|].
  rewrite forallb_app in H. apply andb_prop in H as [H1 H2]. simpl in H2. rewrite andb_true_r in H2.
  rewrite app_length. simpl. rewrite Nat.add_1_r. cbn [hex_pad]. rewrite horner_app. cbn [horner].
  destruct (lower_hex c H2) as [E R]. unfold lower_text in *. rewrite map_app.
  rewrite Z.div_add_l, Z.div_small, Z.add_0_r, IH by (assumption || lia).
  rewrite Z.add_comm, Z.mod_add, Z.mod_small by lia. simpl. rewrite E. reflexivity.
Qed.

(** the 32 digits in their five groups *)
Lemma hex32_groups u :
  exists a b c d e, hex_pad 32 u = a ++ b ++ c ++ d ++ e /\
    uuid_str u = a ++ "-"%char :: b ++ "-"%char :: c ++ "-"%char :: d ++ "-"%char :: e /\
    a = hex_pad 8 (u / 16 ^ 24) /\ b = hex_pad 4 (u / 16 ^ 20) /\ c = hex_pad 4 (u / 16 ^ 16) /\
    d = hex_pad 4 (u / 16 ^ 12) /\ e = hex_pad 12 u.
Proof.
  exists (hex_pad 8 (u / 16 ^ 24)), (hex_pad 4 (u / 16 ^ 20)), (hex_pad 4 (u / 16 ^ 16)), (hex_pad 4 (u / 16 ^ 12)), (hex_pad 12 u).
  assert (E : hex_pad 32 u = hex_pad 8 (u / 16 ^ 24) ++ hex_pad 4 (u / 16 ^ 20) ++ hex_pad 4 (u / 16 ^ 16) ++ hex_pad 4 (u / 16 ^ 12) ++ hex_pad 12 u).
  { pose proof (hex_pad_app 24 8 u) as E1. pose proof (hex_pad_app 20 4 u) as E2.
    pose proof (hex_pad_app 16 4 u) as E3. pose proof (hex_pad_app 12 4 u) as E4.
    change (8 + 24)%nat with 32%nat in E1. change (4 + 20)%nat with 24%nat in E2. change (4 + 16)%nat with 20%nat in E3.
    change (4 + 12)%nat with 16%nat in E4.
    change (Z.of_nat 24) with 24 in E1. change (Z.of_nat 20) with 20 in E2. change (Z.of_nat 16) with 16 in E3. change (Z.of_nat 12) with 12 in E4.
    rewrite E1, E2, E3, E4. reflexivity. }
  split; [exact E|]. split; [|repeat split].
  unfold uuid_str. rewrite E.
  set (a := hex_pad 8 _). set (b := hex_pad 4 (u / 16 ^ 20)). set (c := hex_pad 4 (u / 16 ^ 16)). set (d := hex_pad 4 (u / 16 ^ 12)). set (e := hex_pad 12 u).
  assert (La : length a = 8%nat) by apply hex_pad_length. assert (Lb : length b = 4%nat) by apply hex_pad_length.
  assert (Lc : length c = 4%nat) by apply hex_pad_length. assert (Ld : length d = 4%nat) by apply hex_pad_length.
  clearbody a b c d e. clear E.
  assert (Fs : forall (l1 l2 : str) n, length l1 = n -> firstn n (l1 ++ l2) = l1 /\ skipn n (l1 ++ l2) = l2).
  { intros l1 l2 n <-. split.
    - rewrite firstn_app, firstn_all, Nat.sub_diag. simpl. apply app_nil_r.
    - rewrite skipn_app, skipn_all, Nat.sub_diag. reflexivity. }
  assert (S12 : skipn 12 (a ++ b ++ c ++ d ++ e) = c ++ d ++ e).
  { rewrite app_assoc. apply Fs. rewrite app_length. lia. }
  assert (S16 : skipn 16 (a ++ b ++ c ++ d ++ e) = d ++ e).
  { rewrite !app_assoc, <- app_assoc. apply (Fs ((a ++ b) ++ c) (d ++ e)). rewrite !app_length. lia. }
  assert (S20 : skipn 20 (a ++ b ++ c ++ d ++ e) = e).
  { rewrite !app_assoc. apply (Fs (((a ++ b) ++ c) ++ d) e). rewrite !app_length. lia. }
  rewrite S12, S16, S20. rewrite (proj2 (Fs a (b ++ c ++ d ++ e) 8%nat La)). rewrite (proj1 (Fs a (b ++ c ++ d ++ e) 8%nat La)).
  rewrite (proj1 (Fs b (c ++ d ++ e) 4%nat Lb)), (proj1 (Fs c (d ++ e) 4%nat Lc)), (proj1 (Fs d e 4%nat Ld)). reflexivity.
Qed.

Lemma fullmatch_app p q s : fullmatch (p ++ q) s = true <-> exists a b, s = a ++ b /\ fullmatch p a = true /\ fullmatch q b = true.
Proof.
  revert s. induction p as [|f p IH]; intros s; simpl.
  - split; [intros H; exists [], s; auto|]. intros (a & b & -> & Ha & Hb). destruct a; [exact Hb|discriminate].
  - destruct s as [|c s]; [split; [discriminate|intros (a & b & E & Ha & _)]|].
    + destruct a; [discriminate Ha|discriminate E].
    + rewrite andb_true_iff, IH. split.
      * intros (Hf & a & b & -> & Ha & Hb). exists (c :: a), b. simpl. rewrite Hf, Ha. auto.
      * intros (a & b & E & Ha & Hb). destruct a as [|c' a]; [discriminate Ha|]. injection E as <- ->.
        simpl in Ha. apply andb_prop in Ha as [Hf Ha]. split; [exact Hf|]. exists a, b. auto.
Qed.
Lemma fullmatch_cons f q s : fullmatch (f :: q) s = true <-> exists c b, s = c :: b /\ f c = true /\ fullmatch q b = true.
Proof.
  destruct s as [|c s]; simpl; [split; [discriminate|intros (? & ? & ? & _); discriminate]|]. rewrite andb_true_iff. split.
  - intros [H1 H2]. eauto.
  - intros (c' & b & [= <- <-] & H1 & H2). auto.
Qed.
Lemma fullmatch_repeat f n s : fullmatch (repeat f n) s = true <-> length s = n /\ forallb f s = true.
Proof.
  revert s. induction n as [|n IH]; intros [|c s]; simpl; try (split; [discriminate|intros [? ?]; discriminate]); [tauto|].
  rewrite !andb_true_iff, IH. intuition congruence.
Qed.

Lemma pattern_iff s :
  fullmatch uuid_pattern s = true <->
  exists a b c d e, s = a ++ "-"%char :: b ++ "-"%char :: c ++ "-"%char :: d ++ "-"%char :: e /\
    length a = 8%nat /\ length b = 4%nat /\ length c = 4%nat /\ length d = 4%nat /\ length e = 12%nat /\
    forallb is_hex (a ++ b ++ c ++ d ++ e) = true /\
    (exists c0 c', c = c0 :: c' /\ hex_val c0 = 4) /\ (exists d0 d', d = d0 :: d' /\ hex_val d0 / 4 = 2).
Proof.
  unfold uuid_pattern. rewrite fullmatch_app. split.
  - intros (a & r & -> & Ha & Hr). apply fullmatch_repeat in Ha as [La Ha].
    apply fullmatch_cons in Hr as (h1 & r1 & -> & Hh1 & Hr). apply hyphen_iff in Hh1 as ->.
    apply fullmatch_app in Hr as (b & r2 & -> & Hb & Hr). apply fullmatch_repeat in Hb as [Lb Hb].
    apply fullmatch_cons in Hr as (h2 & r3 & -> & Hh2 & Hr). apply hyphen_iff in Hh2 as ->.
    apply fullmatch_cons in Hr as (c0 & r4 & -> & Hc0 & Hr). apply four_iff in Hc0 as [Xc Vc].
    apply fullmatch_app in Hr as (c' & r5 & -> & Hc & Hr). apply fullmatch_repeat in Hc as [Lc Hc].
    apply fullmatch_cons in Hr as (h3 & r6 & -> & Hh3 & Hr). apply hyphen_iff in Hh3 as ->.
    apply fullmatch_cons in Hr as (d0 & r7 & -> & Hd0 & Hr). apply is_89ab_iff in Hd0 as [Xd Vd].
    apply fullmatch_app in Hr as (d' & r8 & -> & Hd & Hr). apply fullmatch_repeat in Hd as [Ld Hd].
    apply fullmatch_cons in Hr as (h4 & e & -> & Hh4 & Hr). apply hyphen_iff in Hh4 as ->.
    apply fullmatch_repeat in Hr as [Le He].
    exists a, b, (c0 :: c'), (d0 :: d'), e. simpl. rewrite !forallb_app. simpl. rewrite !forallb_app. simpl.
    rewrite !forallb_app. rewrite Ha, Hb, Xc, Hc, Xd, Hd, He. repeat split; try lia; eauto.
  - intros (a & b & c & d & e & -> & La & Lb & Lc & Ld & Le & Hx & (c0 & c' & -> & Vc) & (d0 & d' & -> & Vd)).
    rewrite !forallb_app in Hx. simpl in Hx. rewrite !andb_true_iff in Hx. destruct Hx as (Ha & Hb & (Xc & Hc) & (Xd & Hd) & He).
    simpl in Lc, Ld.
    exists a. eexists. split; [reflexivity|]. split; [apply fullmatch_repeat; auto|].
    apply fullmatch_cons. eexists _, _. split; [reflexivity|]. split; [reflexivity|].
    apply fullmatch_app. exists b. eexists. split; [reflexivity|]. split; [apply fullmatch_repeat; auto|].
    apply fullmatch_cons. eexists _, _. split; [reflexivity|]. split; [reflexivity|].
    rewrite <- app_comm_cons. apply fullmatch_cons. eexists _, _. split; [reflexivity|]. split; [apply four_iff; auto|].
    apply fullmatch_app. exists c'. eexists. split; [reflexivity|]. split; [apply fullmatch_repeat; split; [lia|exact Hc]|].
    apply fullmatch_cons. eexists _, _. split; [reflexivity|]. split; [reflexivity|].
    rewrite <- app_comm_cons. apply fullmatch_cons. eexists _, _. split; [reflexivity|]. split; [apply is_89ab_iff; auto|].
    apply fullmatch_app. exists d'. eexists. split; [reflexivity|]. split; [apply fullmatch_repeat; split; [lia|exact Hd]|].
    apply fullmatch_cons. eexists _, _. split; [reflexivity|]. split; [reflexivity|].
    apply fullmatch_repeat. auto.
Qed.

Lemma filter_hex s : forallb is_hex s = true -> filter (fun c => negb (is_hyphen c)) s = s.
Proof.
  induction s as [|c s IH]; [reflexivity|]. simpl. intros H. apply andb_prop in H as [Hc H]. rewrite (hex_not_hyphen c Hc). simpl.
  rewrite IH by exact H. reflexivity.
Qed.

(** first digit of a group *)
Lemma hex_pad_head k n : exists t, hex_pad (S k) n = hex_char ((n / 16 ^ Z.of_nat k) mod 16) :: t.
Proof.
  change (S k) with (1 + k)%nat. rewrite hex_pad_app. eexists. cbn [hex_pad app]. reflexivity.
Qed.

Lemma hex_pad_is_hex k n : forallb is_hex (hex_pad k n) = true.
Proof.
  apply forallb_forall. intros c Hc. pose proof (hex_pad_all k n) as H. rewrite Forall_forall in H.
  destruct (H c Hc) as (d & Hd & ->). apply is_hex_char, Hd.
Qed.

(** value of the version and variant digits *)
Lemma version_digit u : (u / 16 ^ 16 / 16 ^ 3) mod 16 = version u.
Proof. unfold version. rewrite Z.div_div by (compute; first [reflexivity | discriminate]). reflexivity. Qed.
Lemma variant_digit u : ((u / 16 ^ 12 / 16 ^ 3) mod 16) / 4 = variant u.
Proof.
  unfold variant. rewrite Z.div_div by (compute; first [reflexivity | discriminate]). change (16 ^ 12 * 16 ^ 3) with (2 ^ 60).
  assert (E : u / 2 ^ 62 = u / 2 ^ 60 / 4) by (rewrite Z.div_div by (compute; first [reflexivity | discriminate]); reflexivity).
  rewrite E. set (w := u / 2 ^ 60). clearbody w.
  pose proof (Z.div_mod w 16 ltac:(lia)) as D1. pose proof (Z.mod_pos_bound w 16 ltac:(lia)) as B1.
  pose proof (Z.div_mod w 4 ltac:(lia)) as D2. pose proof (Z.mod_pos_bound w 4 ltac:(lia)) as B2.
  pose proof (Z.div_mod (w / 4) 4 ltac:(lia)) as D3. pose proof (Z.mod_pos_bound (w / 4) 4 ltac:(lia)) as B3.
  pose proof (Z.div_mod (w mod 16) 4 ltac:(lia)) as D4. pose proof (Z.mod_pos_bound (w mod 16) 4 ltac:(lia)) as B4. lia.
Qed.

(** the stripped text [t] matches and has value [u] iff it is, up to case, the text of the random UUID [u] *)
Lemma match_iff t u :
  (fullmatch uuid_pattern t = true /\ uuid_parse t = u) <-> (is_uuid u /\ random_rfc4122 u /\ lower_text t = uuid_str u).
Proof.
  split.
  - intros [Hm Hp]. apply pattern_iff in Hm as (a & b & c & d & e & -> & La & Lb & Lc & Ld & Le & Hx & (c0 & c' & Ec & Vc) & (d0 & d' & Ed & Vd)).
    assert (Ep : uuid_parse (a ++ "-"%char :: b ++ "-"%char :: c ++ "-"%char :: d ++ "-"%char :: e) = horner 16 hex_val 0 (a ++ b ++ c ++ d ++ e)).
    { unfold uuid_parse. pose proof Hx as Hx2. rewrite !forallb_app, !andb_true_iff in Hx2. destruct Hx2 as (Ha & Hb & Hc & Hd & He).
      f_equal. rewrite filter_app. simpl. rewrite filter_app. simpl. rewrite filter_app. simpl. rewrite filter_app. simpl.
      rewrite !filter_hex by assumption. reflexivity. }
    rewrite Ep in Hp. set (ds := a ++ b ++ c ++ d ++ e) in *.
    assert (Lds : length ds = 32%nat) by (unfold ds; rewrite !app_length; lia).
    assert (Hu : is_uuid u).
    { rewrite <- Hp. unfold is_uuid. change (2 ^ 128) with (16 ^ Z.of_nat 32). rewrite <- Lds. apply horner_lt; [lia|].
      intros x Hxx. rewrite forallb_forall in Hx. apply (lower_hex x (Hx x Hxx)). }
    assert (E32 : hex_pad 32 u = lower_text ds) by (rewrite <- Hp, <- Lds; apply hex_pad_of_value, Hx).
    destruct (hex32_groups u) as (a1 & b1 & c1 & d1 & e1 & E1 & E2 & Ea & Eb & Ec1 & Ed1 & Ee).
    rewrite E1 in E32. unfold ds, lower_text in E32. rewrite !map_app in E32.
    assert (Hinj : forall (x y x' y' : str), length x = length x' -> x ++ y = x' ++ y' -> x = x' /\ y = y').
    { induction x as [|p x IH]; intros y [|q x'] y' L E; simpl in *; try discriminate; [auto|]. injection E as -> E.
      destruct (IH y x' y' ltac:(lia) E) as [-> ->]. auto. }
    apply Hinj in E32 as [Xa E32]; [|rewrite map_length, Ea, hex_pad_length; lia].
    apply Hinj in E32 as [Xb E32]; [|rewrite map_length, Eb, hex_pad_length; lia].
    apply Hinj in E32 as [Xc E32]; [|rewrite map_length, Ec1, hex_pad_length; lia].
    apply Hinj in E32 as [Xd Xe]; [|rewrite map_length, Ed1, hex_pad_length; lia].
    split; [exact Hu|]. split.
    + destruct (hex_pad_head 3 (u / 16 ^ 16)) as [tc Htc]. destruct (hex_pad_head 3 (u / 16 ^ 12)) as [td Htd].
      change (Z.of_nat 3) with 3 in Htc, Htd. rewrite version_digit in Htc.
      rewrite Ec1, Htc, Ec in Xc. rewrite Ed1, Htd, Ed in Xd. cbn [map] in Xc, Xd. injection Xc as Xc _. injection Xd as Xd _.
      symmetry in Xc, Xd. apply lower_is_hex in Xc as [_ Xc]; [|unfold version; apply Z.mod_pos_bound; lia].
      apply lower_is_hex in Xd as [_ Xd]; [|apply Z.mod_pos_bound; lia].
      split; [congruence|]. rewrite <- variant_digit. refine (eq_trans (f_equal (fun z => z / 4) _) Vd). symmetry. exact Xd.
    + rewrite E2, Xa, Xb, Xc, Xd, Xe. unfold lower_text. rewrite !map_app. simpl. rewrite !map_app. simpl. rewrite !map_app. simpl. rewrite !map_app. reflexivity.
  - intros (Hu & [Hv1 Hv2] & Et).
    destruct (hex32_groups u) as (a1 & b1 & c1 & d1 & e1 & E1 & E2 & Ea & Eb & Ec1 & Ed1 & Ee).
    rewrite E2 in Et. unfold lower_text in Et.
    apply map_eq_app in Et as (a & r & -> & Xa & Et). destruct r as [|h1 r]; [discriminate|]. injection Et as H1 Et.
    apply map_eq_app in Et as (b & r2 & -> & Xb & Et). destruct r2 as [|h2 r2]; [discriminate|]. injection Et as H2 Et.
    apply map_eq_app in Et as (c & r3 & -> & Xc & Et). destruct r3 as [|h3 r3]; [discriminate|]. injection Et as H3 Et.
    apply map_eq_app in Et as (d & r4 & -> & Xd & Et). destruct r4 as [|h4 e]; [discriminate|]. injection Et as H4 Xe.
    assert (Hh : forall h, lower_char h = "-"%char -> h = "-"%char) by (intros h; each_ascii h; vm_compute; congruence).
    apply Hh in H1, H2, H3, H4. subst h1 h2 h3 h4.
    assert (Hlow : forall s k n, map lower_char s = hex_pad k n -> length s = k /\ forallb is_hex s = true).
    { intros s k n E. split; [rewrite <- (map_length lower_char s), E; apply hex_pad_length|].
      pose proof (hex_pad_all k n) as Hall. rewrite <- E in Hall. apply forallb_forall. intros x Hxx.
      rewrite Forall_forall in Hall. destruct (Hall _ (in_map lower_char _ _ Hxx)) as (dd & Hd & Ex). apply (lower_is_hex x dd Hd Ex). }
    rewrite Ea in Xa. rewrite Eb in Xb. rewrite Ec1 in Xc. rewrite Ed1 in Xd. rewrite Ee in Xe.
    pose proof (Hlow _ _ _ Xa) as [La Ha]. pose proof (Hlow _ _ _ Xb) as [Lb Hb]. pose proof (Hlow _ _ _ Xc) as [Lc Hc].
    pose proof (Hlow _ _ _ Xd) as [Ld Hd]. pose proof (Hlow _ _ _ Xe) as [Le He].
    split.
    + apply pattern_iff. exists a, b, c, d, e. rewrite !forallb_app, Ha, Hb, Hc, Hd, He.
      split; [reflexivity|]. repeat (split; [assumption || reflexivity|]).
      destruct (hex_pad_head 3 (u / 16 ^ 16)) as [tc Htc]. destruct (hex_pad_head 3 (u / 16 ^ 12)) as [td Htd].
      change (Z.of_nat 3) with 3 in Htc, Htd. rewrite version_digit in Htc. rewrite Htc in Xc. rewrite Htd in Xd.
      destruct c as [|c0 c']; [discriminate|]. destruct d as [|d0 d']; [discriminate|]. simpl in Xc, Xd.
      injection Xc as Xc _. injection Xd as Xd _.
      apply lower_is_hex in Xc as [_ Xc]; [|unfold version; apply Z.mod_pos_bound; lia].
      apply lower_is_hex in Xd as [_ Xd]; [|apply Z.mod_pos_bound; lia].
      split; [exists c0, c'; split; [reflexivity|congruence]|]. exists d0, d'. split; [reflexivity|]. rewrite Xd, variant_digit. exact Hv2.
    + unfold uuid_parse. rewrite filter_app. simpl. rewrite filter_app. simpl. rewrite filter_app. simpl. rewrite filter_app. simpl.
      rewrite !filter_hex by assumption.
      assert (Hval : forall s, forallb is_hex s = true -> horner 16 hex_val 0 s = horner 16 hex_val 0 (map lower_char s)).
      { intros s. generalize 0 as acc. induction s as [|x s IH]; intros acc H; [reflexivity|]. simpl in H. apply andb_prop in H as [Hx H].
        cbn [map horner]. destruct (lower_hex x Hx) as [-> R]. rewrite hex_val_char by exact R. apply IH, H. }
      rewrite Hval by (rewrite !forallb_app, Ha, Hb, Hc, Hd, He; reflexivity).
      rewrite !map_app, Xa, Xb, Xc, Xd, Xe, <- Ea, <- Eb, <- Ec1, <- Ed1, <- Ee, <- E1. apply hex_pad_value. exact Hu.
Qed.

Lemma space_iff c : space c <-> is_space c = true.
Proof. unfold space, is_space. rewrite orb_true_iff, !andb_true_iff, !Z.leb_le. reflexivity. Qed.
Lemma spaces_iff s : Forall space s <-> forallb is_space s = true.
Proof. rewrite Forall_forall, forallb_forall. split; intros H c Hc; apply space_iff, H, Hc. Qed.
Lemma stripped_iff s core : stripped s core <-> strip_by is_space s = core.
Proof.
  split.
  - intros (pre & post & -> & H1 & H2 & T1 & T2). apply spaces_iff in H1, H2. apply strip_sandwich; [exact H1|exact H2|].
    split; intros c t E; [specialize (T1 c t E)|specialize (T2 c t E)]; rewrite space_iff in *; destruct (is_space c); congruence.
  - intros <-. destruct (strip_decompose is_space s) as (pre & post & E & H1 & H2 & T1 & T2).
    exists pre, post. apply spaces_iff in H1, H2. split; [exact E|]. split; [exact H1|]. split; [exact H2|].
    split; intros c t Ec; rewrite space_iff; [rewrite (T1 c t Ec)|rewrite (T2 c t Ec)]; discriminate.
Qed.

Lemma uuid_str_trimmed u : trimmed is_space (uuid_str u).
Proof.
  destruct (hex32_groups u) as (a & b & c & d & e & _ & -> & Ea & _ & _ & _ & Ee).
  assert (Ns : forall k n x, In x (hex_pad k n) -> is_space x = false).
  { intros k n x Hx. apply hex_not_space. pose proof (hex_pad_is_hex k n) as H. rewrite forallb_forall in H. auto. }
  split.
  - intros x t E. destruct a as [|a0 a]; [apply (f_equal (@length ascii)) in Ea; rewrite hex_pad_length in Ea; discriminate|].
    injection E as <- _. apply (Ns 8%nat (u / 16 ^ 24)). rewrite <- Ea. left. reflexivity.
  - intros x t E. destruct (exists_last (l := e)) as (e0 & y & E'); [intros ->; apply (f_equal (@length ascii)) in Ee; rewrite hex_pad_length in Ee; discriminate|].
    rewrite E' in E. rewrite !app_comm_cons, !app_assoc in E. apply app_inj_tail in E as [_ <-].
    apply (Ns 12%nat u). rewrite <- Ee, E'. apply in_app_iff. right. left. reflexivity.
Qed.

Lemma uuid_str_lower u : lower_text (uuid_str u) = uuid_str u.
Proof.
  destruct (hex32_groups u) as (a & b & c & d & e & _ & -> & Ea & Eb & Ec & Ed & Ee).
  assert (L : forall k n, map lower_char (hex_pad k n) = hex_pad k n).
  { intros k n. rewrite <- (map_id (hex_pad k n)) at 2. apply map_ext_in. intros x Hx. pose proof (hex_pad_all k n) as H.
    rewrite Forall_forall in H. destruct (H x Hx) as (dd & Hd & ->). apply lower_hex_char, Hd. }
  unfold lower_text. rewrite map_app. simpl. rewrite map_app. simpl. rewrite map_app. simpl. rewrite map_app. simpl.
  rewrite Ea, Eb, Ec, Ed, Ee, !L. reflexivity.
Qed.
Lemma uuid_str_inj u v : is_uuid u -> is_uuid v -> uuid_str u = uuid_str v -> u = v.
Proof.
  intros Hu Hv E. assert (F : forall w, filter (fun c => negb (is_hyphen c)) (uuid_str w) = hex_pad 32 w).
  { intros w. destruct (hex32_groups w) as (a & b & c & d & e & E1 & -> & Ea & Eb & Ec & Ed & Ee). rewrite E1.
    rewrite filter_app. simpl. rewrite filter_app. simpl. rewrite filter_app. simpl. rewrite filter_app. simpl.
    rewrite Ea, Eb, Ec, Ed, Ee, !filter_hex by apply hex_pad_is_hex. reflexivity. }
  rewrite <- (hex_pad_value 32 u Hu), <- (hex_pad_value 32 v Hv), <- (F u), <- (F v), E. reflexivity.
Qed.
