From Coq Require Import String Ascii List ZArith Bool Lia QArith Qpower.
From Verif Require Import PyBase Text_Model Text_Proofs ConvNum_Model ConvNum_Spec ConvNum_Proofs ConvDate_Model ConvDate_Spec ConvDate_Proofs.
From Verif Require Import ConvFloat_Model ConvFloat_Spec.
Import ListNotations.
Local Open Scope Z_scope.

(** ** the regular expression as a scan *)
Definition take_sign (s : str) : str * str :=
  match s with c :: r => if is_sign c then ([c], r) else ([], s) | [] => ([], []) end.
Definition scan_frac (s : str) : str * str :=
  match s with c :: r => if is_point c then (c :: fst (span is_digit r), snd (span is_digit r)) else ([], s) | [] => ([], []) end.
Definition scan_exp (s : str) : str * str :=
  match s with
  | x :: r => if is_exp x then
      match span is_digit (snd (take_sign r)) with
      | ([], _) => ([], s)
      | (ds, r2) => (x :: fst (take_sign r) ++ ds, r2)
      end else ([], s)
  | [] => ([], [])
  end.
Definition look (s : str) : bool :=
  match s with
  | c :: r => is_digit c || (is_point c && match r with d :: _ => is_digit d | [] => false end)
  | [] => false
  end.

Lemma sign_not_digit c : is_sign c = true -> is_digit c = false.
Proof. chars_up c; vm_compute; congruence. Qed.
Lemma sign_not_point c : is_sign c = true -> is_point c = false.
Proof. chars_up c; vm_compute; congruence. Qed.
Lemma digit_not_point c : is_digit c = true -> is_point c = false.
Proof. chars_up c; vm_compute; congruence. Qed.
Lemma digit_not_exp c : is_digit c = true -> is_exp c = false.
Proof. chars_up c; vm_compute; congruence. Qed.
Lemma digit_not_sign c : is_digit c = true -> is_sign c = false.
Proof. chars_up c; vm_compute; congruence. Qed.
Lemma point_not_exp c : is_point c = true -> is_exp c = false.
Proof. chars_up c; vm_compute; congruence. Qed.
Lemma exp_not_sign c : is_exp c = true -> is_sign c = false.
Proof. chars_up c; vm_compute; congruence. Qed.

Lemma first_cat p q s a r b r' : first p s a r -> first q r b r' -> first (p_cat p q) s (a ++ b) r'.
Proof. intros H1 H2. unfold p_cat. eapply first_bind; [exact H1|]. eapply first_bind; [exact H2|]. eexists. reflexivity. Qed.
Lemma first_c f c r : f c = true -> first (p_c f) (c :: r) [c] r.
Proof. intros H. unfold p_c. eapply first_bind; [apply first_chr, H|]. eexists. reflexivity. Qed.
Lemma first_opt p s a r : first p s a r -> first (p_opt p) s a r.
Proof. intros [l E]. unfold first, p_opt, p_or. simpl. rewrite E. simpl. eauto. Qed.
Lemma first_opt_none p s : p s = [] -> first (p_opt p) s [] s.
Proof. intros E. unfold first, p_opt, p_or. simpl. rewrite E. simpl. eexists. reflexivity. Qed.
Lemma first_star f s : first (p_star f) s (fst (span f s)) (snd (span f s)).
Proof.
  induction s as [|c s [l IH]]; [eexists; reflexivity|]. unfold first. cbn [p_star span]. destruct (f c); [|eexists; reflexivity].
  rewrite IH. destruct (span f s) as [a b]. simpl. eauto.
Qed.
Lemma c_nil f c r : f c = false -> p_c f (c :: r) = [].
Proof. intros H. unfold p_c, p_bind, p_chr. rewrite H. reflexivity. Qed.
Lemma c_one f c r : f c = true -> p_c f (c :: r) = [([c], r)].
Proof. intros H. unfold p_c, p_bind, p_chr. rewrite H. reflexivity. Qed.
Lemma cat_nil p q s : p s = [] -> p_cat p q s = [].
Proof. intros H. unfold p_cat, p_bind. rewrite H. reflexivity. Qed.
Lemma cat_nil_all p q s : (forall a r, In (a, r) (p s) -> q r = []) -> p_cat p q s = [].
Proof.
  intros H. unfold p_cat, p_bind. induction (p s) as [|[a r] l IH]; [reflexivity|]. simpl. rewrite (H a r (or_introl eq_refl)). simpl.
  apply IH. intros a' r' Hi. apply (H a' r'). right. exact Hi.
Qed.
Lemma opt_c_cases f s a r : In (a, r) (p_opt (p_c f) s) -> (exists c, a = [c] /\ s = c :: r /\ f c = true) \/ (a = [] /\ r = s).
Proof.
  unfold p_opt. intros H. apply in_or in H as (p & [<-|[<-|[]]] & H).
  - unfold p_c in H. apply some_bind in H as (c & r1 & H1 & H2). apply some_chr in H1 as [-> H1]. destruct H2 as [[= <- <-]|[]]. eauto.
  - destruct H as [[= <- <-]|[]]. auto.
Qed.

Lemma first_sign s : first (p_opt (p_c is_sign)) s (fst (take_sign s)) (snd (take_sign s)).
Proof.
  destruct s as [|c s]; [apply first_opt_none; reflexivity|]. simpl. destruct (is_sign c) eqn:E.
  - apply first_opt, first_c, E.
  - apply first_opt_none, c_nil, E.
Qed.
Lemma first_frac s : first (p_opt (p_cat (p_c is_point) (p_star is_digit))) s (fst (scan_frac s)) (snd (scan_frac s)).
Proof.
  destruct s as [|c s]; [apply first_opt_none; reflexivity|]. simpl. destruct (is_point c) eqn:E.
  - apply first_opt. cbn [fst snd]. change (c :: fst (span is_digit s)) with ([c] ++ fst (span is_digit s)).
    eapply first_cat; [apply first_c, E|apply first_star].
  - apply first_opt_none, cat_nil, c_nil, E.
Qed.
Lemma first_exp s :
  first (p_opt (p_cat (p_c is_exp) (p_cat (p_opt (p_c is_sign)) (p_cat (p_c is_digit) (p_star is_digit))))) s (fst (scan_exp s)) (snd (scan_exp s)).
Proof.
  destruct s as [|x s]; [apply first_opt_none; reflexivity|]. cbn [scan_exp]. destruct (is_exp x) eqn:E; [|apply first_opt_none, cat_nil, c_nil, E].
  destruct (snd (take_sign s)) as [|d r] eqn:Er.
  - cbn [span fst snd]. apply first_opt_none. apply cat_nil_all. intros a r Ha. rewrite (c_one _ _ _ E) in Ha. destruct Ha as [[= <- <-]|[]].
    apply cat_nil_all. intros a r Ha. apply cat_nil. apply opt_c_cases in Ha as [(c & -> & -> & Hc)|[-> ->]].
    + simpl in Er. rewrite Hc in Er. simpl in Er. subst r. reflexivity.
    + destruct s as [|c s]; [reflexivity|]. simpl in Er. destruct (is_sign c) eqn:Es; simpl in Er; [|discriminate].
      apply c_nil, sign_not_digit, Es.
  - cbn [span]. destruct (is_digit d) eqn:Ed.
    + destruct (span is_digit r) as [ds r2] eqn:Esp. cbn [fst snd]. apply first_opt.
      change (x :: fst (take_sign s) ++ d :: ds) with ([x] ++ (fst (take_sign s) ++ ([d] ++ ds))).
      eapply first_cat; [apply first_c, E|]. eapply first_cat; [apply first_sign|]. rewrite Er.
      eapply first_cat; [apply first_c, Ed|]. pose proof (first_star is_digit r) as X. rewrite Esp in X. exact X.
    + cbn [fst snd]. apply first_opt_none. apply cat_nil_all. intros a r1 Ha. rewrite (c_one _ _ _ E) in Ha. destruct Ha as [[= <- <-]|[]].
      apply cat_nil_all. intros a r1 Ha. apply cat_nil. apply opt_c_cases in Ha as [(c & -> & -> & Hc)|[-> ->]].
      * simpl in Er. rewrite Hc in Er. simpl in Er. subst r1. apply c_nil, Ed.
      * destruct s as [|c s]; [reflexivity|]. simpl in Er. destruct (is_sign c) eqn:Es; simpl in Er.
        -- apply c_nil, sign_not_digit, Es.
        -- injection Er as -> ->. apply c_nil, Ed.
Qed.

Lemma look_spec s :
  p_look (p_or [p_c is_digit; p_cat (p_c is_point) (p_c is_digit)]) s = if look s then [([], s)] else [].
Proof.
  unfold p_look, p_or. destruct s as [|c s]; [reflexivity|]. cbn [flat_map look]. destruct (is_digit c) eqn:Ed.
  - rewrite (c_one _ _ _ Ed). reflexivity.
  - rewrite (c_nil _ _ _ Ed). simpl. destruct (is_point c) eqn:Ep.
    + destruct s as [|d s]; simpl.
      * unfold p_cat, p_bind. rewrite (c_one _ _ _ Ep). reflexivity.
      * unfold p_cat, p_bind. rewrite (c_one _ _ _ Ep). simpl. destruct (is_digit d) eqn:Edd.
        -- rewrite (c_one _ _ _ Edd). reflexivity.
        -- rewrite (c_nil _ _ _ Edd). reflexivity.
    + rewrite cat_nil by (apply c_nil, Ep). reflexivity.
Qed.

Lemma number_match_spec s :
  let '(sg, s1) := take_sign s in
  let '(i, s2) := span is_digit s1 in
  let '(fr, s3) := scan_frac s2 in
  let '(ex, s4) := scan_exp s3 in
  number_match s = if look s1 then Some (sg ++ i ++ fr ++ ex) else None.
Proof.
  destruct (take_sign s) as [sg s1] eqn:E1. destruct (span is_digit s1) as [i s2] eqn:E2.
  destruct (scan_frac s2) as [fr s3] eqn:E3. destruct (scan_exp s3) as [ex s4] eqn:E4.
  unfold number_match. destruct (look s1) eqn:El.
  - assert (F : first number_re s (sg ++ [] ++ i ++ fr ++ ex) s4).
    { unfold number_re. eapply first_cat; [pose proof (first_sign s) as X; rewrite E1 in X; exact X|].
      eapply first_cat; [eexists; cbn [snd]; rewrite look_spec, El; reflexivity|].
      eapply first_cat; [pose proof (first_star is_digit s1) as X; rewrite E2 in X; exact X|].
      eapply first_cat; [cbn [snd]; pose proof (first_frac s2) as X; rewrite E3 in X; exact X|].
      cbn [snd]. pose proof (first_exp s3) as X. rewrite E4 in X. exact X. }
    destruct F as [l ->]. reflexivity.
  - assert (F : number_re s = []); [|rewrite F; reflexivity]. unfold number_re. apply cat_nil_all. intros a r Ha. apply cat_nil. rewrite look_spec.
    apply opt_c_cases in Ha as [(c & -> & -> & Hc)|[-> ->]].
    + simpl in E1. rewrite Hc in E1. injection E1 as <- <-. rewrite El. reflexivity.
    + destruct s as [|c s]; [reflexivity|]. simpl in E1. destruct (is_sign c) eqn:Es; injection E1 as <- <-.
      * simpl. rewrite (sign_not_digit c Es), (sign_not_point c Es). reflexivity.
      * rewrite El. reflexivity.
Qed.

(** ** characters *)
Lemma digits_iff s : Forall a_digit s <-> forallb is_digit s = true.
Proof. rewrite Forall_forall, forallb_forall. split; intros H c Hc; apply a_digit_iff, H, Hc. Qed.
Lemma is_sign_iff c : is_sign c = true <-> c = "-"%char \/ c = "+"%char.
Proof. unfold is_sign. rewrite orb_true_iff, !eq_c_iff. tauto. Qed.
Lemma is_point_iff c : is_point c = true <-> c = "."%char \/ c = ","%char.
Proof. unfold is_point. rewrite orb_true_iff, !eq_c_iff. tauto. Qed.
Lemma is_exp_iff c : is_exp c = true <-> c = "e"%char \/ c = "E"%char.
Proof. unfold is_exp. rewrite orb_true_iff, !eq_c_iff. tauto. Qed.

Lemma take_sign_text s : exists k, sign_text (fst (take_sign s)) k /\ s = fst (take_sign s) ++ snd (take_sign s).
Proof.
  destruct s as [|c s]; [exists 1; split; [constructor|reflexivity]|]. simpl. destruct (is_sign c) eqn:E.
  - apply is_sign_iff in E as [->| ->]; [exists (-1)|exists 1]; (split; [constructor|reflexivity]).
  - exists 1. split; [constructor|reflexivity].
Qed.
Lemma sign_text_take sg k r : sign_text sg k -> (forall c t, r = c :: t -> is_sign c = false) -> take_sign (sg ++ r) = (sg, r).
Proof.
  intros H Hr. destruct H; try reflexivity. simpl. destruct r as [|c t]; [reflexivity|]. simpl. rewrite (Hr c t eq_refl). reflexivity.
Qed.

Lemma scan_frac_text s : exists mark f, (mark = "."%char \/ mark = ","%char) /\ frac_part mark (fst (scan_frac s)) f /\ s = fst (scan_frac s) ++ snd (scan_frac s) /\
  (is_point (hd "x"%char s) = true -> f = fst (span is_digit (tl s))).
Proof.
  destruct s as [|c s]; [exists "."%char, []; split; [auto|]; split; [constructor|]; split; [reflexivity|discriminate]|]. simpl. destruct (is_point c) eqn:E.
  - destruct (span is_digit s) as [ds r] eqn:Es. destruct (span_spec _ _ _ _ Es) as (-> & D & _). exists c, ds.
    split; [apply is_point_iff, E|]. split; [simpl; constructor; apply digits_iff, D|]. split; reflexivity.
  - exists "."%char, []. split; [auto|]. split; [constructor|]. split; [reflexivity|discriminate].
Qed.
Lemma scan_exp_text s : exists e, exp_part (fst (scan_exp s)) e /\ s = fst (scan_exp s) ++ snd (scan_exp s).
Proof.
  destruct s as [|x s]; [exists 0; split; [constructor|reflexivity]|]. simpl. destruct (is_exp x) eqn:E; [|exists 0; split; [constructor|reflexivity]].
  destruct (span is_digit (snd (take_sign s))) as [ds r2] eqn:Es. destruct ds as [|d ds]; [exists 0; split; [constructor|reflexivity]|].
  destruct (span_spec _ _ _ _ Es) as (Es2 & D & _). destruct (take_sign_text s) as (k & Hk & Hs).
  exists (k * positional (d :: ds)). split.
  - constructor; [apply is_exp_iff, E|exact Hk|discriminate|apply digits_iff, D].
  - simpl. rewrite Hs at 1. rewrite Es2, <- app_assoc. reflexivity.
Qed.

(** the matched text is a numeral and a prefix *)
Lemma number_match_numeral s t : number_match s = Some t -> a_numeral t /\ prefix_of t s.
Proof.
  pose proof (number_match_spec s) as H. destruct (take_sign s) as [sg s1] eqn:E1. destruct (span is_digit s1) as [i s2] eqn:E2.
  destruct (scan_frac s2) as [fr s3] eqn:E3. destruct (scan_exp s3) as [ex s4] eqn:E4. rewrite H.
  destruct (look s1) eqn:El; [|discriminate]. intros [= <-].
  destruct (take_sign_text s) as (k & Hk & Hs). rewrite E1 in Hk, Hs. cbn [fst snd] in Hk, Hs.
  destruct (span_spec _ _ _ _ E2) as (Hs1 & Di & Hni).
  destruct (scan_frac_text s2) as (mark & f & Hm & Hf & Hs2 & Hpt). rewrite E3 in Hf, Hs2. cbn [fst snd] in Hf, Hs2.
  destruct (scan_exp_text s3) as (e & He & Hs3). rewrite E4 in He, Hs3. cbn [fst snd] in He, Hs3.
  split.
  - exists mark, (inject_Z (k * positional (i ++ f)) * Qpower (10 # 1) (e - Z.of_nat (length f)))%Q. split; [exact Hm|].
    exists sg, k, i, fr, f, ex, e. repeat split; try assumption; try (apply digits_iff; assumption); try reflexivity.
    intros En. apply app_eq_nil in En as [-> ->]. rewrite Hs1 in El. simpl in El. destruct s2 as [|c r]; [discriminate|]. simpl in El.
    apply orb_prop in El as [El|El]; [rewrite (Hni c r eq_refl) in El; discriminate|]. apply andb_prop in El as [Ep El].
    simpl in Hpt. specialize (Hpt Ep). destruct r as [|d r]; [discriminate|]. simpl in Hpt. rewrite El in Hpt.
    destruct (span is_digit r). discriminate.
  - exists s4. rewrite Hs at 1. rewrite Hs1 at 1. rewrite Hs2 at 1. rewrite Hs3 at 1. rewrite !app_assoc. reflexivity.
Qed.

(** ** the match is the longest numeral *)
Lemma span_more p a b : forallb p a = true -> span p (a ++ b) = (a ++ fst (span p b), snd (span p b)).
Proof.
  induction a as [|c a IH]; intros H; [simpl; destruct (span p b); reflexivity|]. simpl in H |- *.
  apply andb_prop in H as [-> H]. rewrite (IH H). reflexivity.
Qed.
Lemma exp_part_head ex e r : exp_part ex e -> ex <> [] -> exists x t, ex ++ r = x :: t /\ is_exp x = true.
Proof. intros H. destruct H as [|x sg k ds Hx _ _ _]; [congruence|]. intros _. exists x, ((sg ++ ds) ++ r). split; [reflexivity|]. apply is_exp_iff, Hx. Qed.
Lemma span_exp ex e r : exp_part ex e -> ex <> [] -> span is_digit (ex ++ r) = ([], ex ++ r).
Proof.
  intros H Hn. destruct (exp_part_head ex e r H Hn) as (x & t & -> & Hx). simpl.
  destruct (is_digit x) eqn:Ed; [rewrite (digit_not_exp x Ed) in Hx; discriminate|reflexivity].
Qed.
Lemma exp_not_point c : is_exp c = true -> is_point c = false.
Proof. chars_up c; vm_compute; congruence. Qed.
Lemma point_not_digit c : is_point c = true -> is_digit c = false.
Proof. chars_up c; vm_compute; congruence. Qed.
Lemma point_not_sign c : is_point c = true -> is_sign c = false.
Proof. chars_up c; vm_compute; congruence. Qed.

Lemma scan_exp_len ex e r : exp_part ex e -> (length ex <= length (fst (scan_exp (ex ++ r))))%nat.
Proof.
  intros H. destruct H as [|x sg k ds Hx Hsg Hn Hd]; [simpl; lia|].
  cbn [app scan_exp]. apply is_exp_iff in Hx. rewrite Hx. rewrite <- app_assoc.
  assert (Hdd : forallb is_digit ds = true) by (apply digits_iff, Hd).
  rewrite (sign_text_take sg k (ds ++ r) Hsg).
  - cbn [fst snd]. rewrite (span_more is_digit ds r Hdd). destruct ds as [|d ds]; [congruence|]. cbn [app fst snd length].
    rewrite !app_length. cbn [length]. rewrite app_length. lia.
  - destruct ds as [|d ds]; [congruence|]. intros c t [= <- _]. simpl in Hdd. apply andb_prop in Hdd as [Hdd _]. apply digit_not_sign, Hdd.
Qed.

Lemma number_match_longest s t : a_numeral t -> prefix_of t s -> exists m, number_match s = Some m /\ (length t <= length m)%nat.
Proof.
  intros (mark & q & Hm & sg & k & i & fr & f & ex & e & -> & Hsg & Hi & Hf & Hn & He & _) [r ->].
  apply is_point_iff in Hm. assert (Hii : forallb is_digit i = true) by (apply digits_iff, Hi).
  set (rest := i ++ fr ++ ex ++ r).
  assert (Hhead : forall c u, rest = c :: u -> is_sign c = false).
  { intros c u E. unfold rest in E. destruct i as [|d i].
    - destruct Hf as [|ds Hds]; [destruct (Hn eq_refl)|]. injection E as <- _. apply point_not_sign, Hm.
    - injection E as <- _. simpl in Hii. apply andb_prop in Hii as [Hd _]. apply digit_not_sign, Hd. }
  assert (Hlook : look rest = true).
  { unfold rest. destruct i as [|d i].
    - destruct Hf as [|ds Hds]; [destruct (Hn eq_refl)|]. destruct ds as [|d ds]; [destruct (Hn eq_refl)|]. simpl. rewrite Hm. inversion Hds; subst.
      apply a_digit_iff in H1. rewrite H1. rewrite orb_true_r. reflexivity.
    - simpl in *. apply andb_prop in Hii as [-> _]. reflexivity. }
  assert (Ets : take_sign ((sg ++ i ++ fr ++ ex) ++ r) = (sg, rest)).
  { rewrite <- !app_assoc. fold rest. apply (sign_text_take sg k rest Hsg Hhead). }
  pose proof (number_match_spec ((sg ++ i ++ fr ++ ex) ++ r)) as H. rewrite Ets in H.
  assert (Esp : span is_digit rest = (i ++ fst (span is_digit (fr ++ ex ++ r)), snd (span is_digit (fr ++ ex ++ r)))) by (apply span_more, Hii).
  rewrite Esp in H. rewrite Hlook in H.
  destruct (scan_frac (snd (span is_digit (fr ++ ex ++ r)))) as [fr' s3] eqn:E3. destruct (scan_exp s3) as [ex' s4] eqn:E4.
  eexists. split; [exact H|]. rewrite !app_length.
  destruct Hf as [|ds Hds].
  - cbn [app] in E3 |- *. destruct ex as [|x ex0]; [cbn [length]; lia|].
    assert (Hne : x :: ex0 <> []) by discriminate. rewrite (span_exp _ e r He Hne) in *. cbn [fst snd] in *.
    destruct (exp_part_head _ e r He Hne) as (x' & t' & Ex & Hx'). rewrite Ex in E3. cbn [scan_frac] in E3. rewrite (exp_not_point x' Hx') in E3.
    injection E3 as <- <-. rewrite <- Ex in E4. pose proof (scan_exp_len _ e r He) as L. rewrite E4 in L. cbn [fst] in L. cbn [length] in *. lia.
  - assert (Hdd : forallb is_digit ds = true) by (apply digits_iff, Hds).
    assert (Es : span is_digit ((mark :: ds) ++ ex ++ r) = ([], (mark :: ds) ++ ex ++ r)) by (simpl; rewrite (point_not_digit mark Hm); reflexivity).
    rewrite Es in *. cbn [fst snd] in *. cbn [app scan_frac] in E3. rewrite Hm in E3. rewrite (span_more is_digit ds (ex ++ r) Hdd) in E3.
    cbn [fst snd] in E3. injection E3 as <- <-. cbn [length]. rewrite app_length.
    destruct ex as [|x ex0]; [cbn [length]; lia|].
    assert (Hne : x :: ex0 <> []) by discriminate. rewrite (span_exp _ e r He Hne) in *. cbn [fst snd] in *.
    pose proof (scan_exp_len _ e r He) as L. rewrite E4 in L. cbn [fst] in L. cbn [length] in *. lia.
Qed.

Lemma number_match_leading s t : number_match s = Some t <-> leading_numeral s t.
Proof.
  split.
  - intros H. destruct (number_match_numeral s t H) as [H1 H2]. split; [exact H2|]. split; [exact H1|].
    intros t' P N. destruct (number_match_longest s t' N P) as (m & Em & L). rewrite H in Em. injection Em as ->. exact L.
  - intros (P & N & M). destruct (number_match_longest s t N P) as (m & Em & L). rewrite Em. f_equal.
    destruct (number_match_numeral s m Em) as [N' P']. specialize (M m P' N'). destruct P as [r1 E1], P' as [r2 E2]. rewrite E1 in E2.
    assert (L2 : length m = length t) by lia. clear -E2 L2. revert m E2 L2. induction t as [|c t IH]; intros [|d m] E L; try discriminate; [reflexivity|].
    injection E as -> E. f_equal. apply IH; [exact E|simpl in L; lia].
Qed.
Lemma number_match_none s : number_match s = None <-> forall t, prefix_of t s -> ~ a_numeral t.
Proof.
  split.
  - intros H t P N. destruct (number_match_longest s t N P) as (m & Em & _). congruence.
  - intros H. destruct (number_match s) as [t|] eqn:E; [|reflexivity]. destruct (number_match_numeral s t E) as [N P]. destruct (H t P N).
Qed.

(** ** float() *)
Lemma q_pow10_power e : (q_pow10 e == Qpower (10 # 1) e)%Q.
Proof.
  unfold q_pow10. destruct (0 <=? e) eqn:E.
  - apply Z.leb_le in E. rewrite Zpower_Qpower by exact E. reflexivity.
  - apply Z.leb_gt in E. destruct e as [|p|p]; try lia. change (- Z.neg p) with (Z.pos p).
    simpl Qpower.
    assert (H : (inject_Z (10 ^ Z.pos p) == Qpower_positive (10 # 1) p)%Q).
    { rewrite Zpower_Qpower by lia. reflexivity. }
    rewrite <- H. assert (P : 0 < 10 ^ Z.pos p) by (apply Z.pow_pos_nonneg; lia).
    destruct (10 ^ Z.pos p) as [|n|n]; try lia. reflexivity.
Qed.
Lemma dot_cases c : eq_c "." c = true <-> c = "."%char.
Proof. apply eq_c_iff. Qed.

Lemma unsigned_exp_iff s e : unsigned_exp s = Some e <-> s <> [] /\ Forall a_digit s /\ e = positional s.
Proof.
  unfold unsigned_exp. destruct s as [|c s]; [split; [discriminate|intros (H & _); congruence]|].
  destruct (forallb is_digit (c :: s)) eqn:E.
  - rewrite positional_value. split.
    + intros [= <-]. split; [discriminate|]. split; [apply digits_iff, E|reflexivity].
    + intros (_ & _ & ->). reflexivity.
  - split; [discriminate|]. intros (_ & H & _). apply digits_iff in H. congruence.
Qed.
Lemma float_exp_iff s e : float_exp s = Some e <-> exp_part s e.
Proof.
  split.
  - destruct s as [|x r]; [intros [= <-]; constructor|]. cbn [float_exp]. destruct (is_exp x) eqn:Ex; [|discriminate].
    apply is_exp_iff in Ex. destruct r as [|sg r]; [discriminate|]. destruct (eq_c "-" sg) eqn:E1; [|destruct (eq_c "+" sg) eqn:E2].
    + apply eq_c_iff in E1 as ->. destruct (unsigned_exp r) as [n|] eqn:Eu; [|discriminate]. intros [= <-].
      apply unsigned_exp_iff in Eu as (H1 & H2 & ->). change (x :: "-"%char :: r) with (x :: lit "-" ++ r).
      replace (- positional r) with (-1 * positional r) by lia. constructor; [exact Ex|constructor|exact H1|exact H2].
    + apply eq_c_iff in E2 as ->. intros Eu. apply unsigned_exp_iff in Eu as (H1 & H2 & ->). change (x :: "+"%char :: r) with (x :: lit "+" ++ r).
      replace (positional r) with (1 * positional r) by lia. constructor; [exact Ex|constructor|exact H1|exact H2].
    + intros Eu. apply unsigned_exp_iff in Eu as (H1 & H2 & ->). change (x :: sg :: r) with (x :: [] ++ sg :: r).
      replace (positional (sg :: r)) with (1 * positional (sg :: r)) by lia. constructor; [exact Ex|constructor|exact H1|exact H2].
  - intros H. destruct H as [|x sg k ds Hx Hsg Hn Hd]; [reflexivity|]. cbn [float_exp]. apply is_exp_iff in Hx. rewrite Hx.
    assert (U : unsigned_exp ds = Some (positional ds)) by (apply unsigned_exp_iff; auto).
    destruct Hsg; cbn [app lit list_ascii_of_string].
    + destruct ds as [|d ds]; [congruence|]. inversion Hd; subst. apply a_digit_iff in H1. pose proof (digit_not_sign d H1) as X.
      unfold is_sign in X. apply orb_false_elim in X as [-> ->]. cbn [app]. rewrite U. f_equal. lia.
    + cbn [app]. change (eq_c "-" "+") with false. change (eq_c "+" "+") with true. cbn iota. rewrite U. f_equal. lia.
    + cbn [app]. change (eq_c "-" "-") with true. cbn iota. rewrite U. simpl. f_equal.
Qed.

(** unsigned numerals *)
Definition unsigned_numeral (t : str) (q : Q) : Prop :=
  exists i fr f ex e, t = i ++ fr ++ ex /\ Forall a_digit i /\ frac_part "." fr f /\ i ++ f <> [] /\ exp_part ex e /\
    (q == inject_Z (positional (i ++ f)) * Qpower (10 # 1) (e - Z.of_nat (length f)))%Q.
Lemma float_unsigned_sound t q : float_unsigned t = Some q -> unsigned_numeral t q.
Proof.
  unfold float_unsigned. destruct (span is_digit t) as [i s1] eqn:E1. destruct (span_spec _ _ _ _ E1) as (-> & Di & _).
  intros H. apply digits_iff in Di.
  assert (X : exists fr f s2, s1 = fr ++ s2 /\ frac_part "." fr f /\
    match i ++ f with [] => None | _ => option_map (fun e => inject_Z (dec_value (i ++ f)) * q_pow10 (e - Z.of_nat (length f)))%Q (float_exp s2) end = Some q).
  { unfold frac_split in H. destruct s1 as [|c r]; [exists [], [], []; split; [reflexivity|]; split; [constructor|exact H]|].
    destruct (eq_c "." c) eqn:Ec.
    - apply eq_c_iff in Ec as ->. destruct (span is_digit r) as [f s2] eqn:E2. destruct (span_spec _ _ _ _ E2) as (-> & Df & _).
      exists ("."%char :: f), f, s2. split; [reflexivity|]. split; [constructor; apply digits_iff, Df|exact H].
    - exists [], [], (c :: r). split; [reflexivity|]. split; [constructor|exact H]. }
  destruct X as (fr & f & s2 & -> & Hf & X). destruct (i ++ f) as [|d ds] eqn:En; [discriminate|].
  destruct (float_exp s2) as [e|] eqn:Ee; [|discriminate]. cbn [option_map] in X. injection X as <-.
  exists i, fr, f, s2, e. split; [reflexivity|]. split; [exact Di|]. split; [exact Hf|]. rewrite En. split; [discriminate|].
  split; [apply float_exp_iff, Ee|]. rewrite q_pow10_power, positional_value. reflexivity.
Qed.
Lemma float_unsigned_complete t q : unsigned_numeral t q -> exists q', float_unsigned t = Some q' /\ (q' == q)%Q.
Proof.
  intros (i & fr & f & ex & e & -> & Hi & Hf & Hn & He & Hq). unfold float_unsigned.
  assert (Dh : forall c u, fr ++ ex = c :: u -> is_digit c = false).
  { intros c u E. destruct Hf as [|ds Hds].
    - destruct He as [|x sg k ds Hx _ _ _]; [discriminate|]. injection E as <- _. destruct Hx as [->| ->]; reflexivity.
    - injection E as <- _. reflexivity. }
  rewrite (span_app is_digit i (fr ++ ex)) by (try (apply digits_iff, Hi); exact Dh).
  assert (Ef : frac_split (fr ++ ex) = (f, ex)).
  { destruct Hf as [|ds Hds].
    - cbn [app frac_split]. destruct He as [|x sg k ds Hx _ _ _]; [reflexivity|]. destruct Hx as [->| ->]; reflexivity.
    - cbn [app frac_split]. change (eq_c "." ".") with true. cbn iota. apply span_app; [apply digits_iff, Hds|].
      intros c u E. destruct He as [|x sg k ds0 Hx _ _ _]; [discriminate|]. injection E as <- _. destruct Hx as [->| ->]; reflexivity. }
  rewrite Ef. destruct (i ++ f) as [|d ds] eqn:En; [congruence|]. rewrite (proj2 (float_exp_iff ex e) He). simpl option_map.
  eexists. split; [reflexivity|]. rewrite Hq, q_pow10_power, positional_value. reflexivity.
Qed.
Lemma unsigned_head t q c u : unsigned_numeral t q -> t = c :: u -> is_sign c = false.
Proof.
  intros (i & fr & f & ex & e & -> & Hi & Hf & Hn & He & Hq) E. destruct i as [|d i].
  - destruct Hf as [|ds Hds]; [destruct (Hn eq_refl)|]. injection E as <- _. reflexivity.
  - injection E as <- _. inversion Hi; subst. apply digit_not_sign, a_digit_iff. assumption.
Qed.
Lemma numeral_signed t q : numeral "." t q <-> exists sg k u v, t = sg ++ u /\ sign_text sg k /\ unsigned_numeral u v /\ (q == inject_Z k * v)%Q.
Proof.
  split.
  - intros (sg & k & i & fr & f & ex & e & -> & Hsg & Hi & Hf & Hn & He & Hq).
    exists sg, k, (i ++ fr ++ ex), (inject_Z (positional (i ++ f)) * Qpower (10 # 1) (e - Z.of_nat (length f)))%Q.
    split; [reflexivity|]. split; [exact Hsg|]. split.
    + exists i, fr, f, ex, e. repeat split; try assumption; reflexivity.
    + rewrite Hq, inject_Z_mult. ring.
  - intros (sg & k & u & v & -> & Hsg & (i & fr & f & ex & e & -> & Hi & Hf & Hn & He & Hv) & Hq).
    exists sg, k, i, fr, f, ex, e. repeat split; try assumption. rewrite Hq, Hv, inject_Z_mult. ring.
Qed.
Lemma py_float_sound t q : py_float t = Ok q -> numeral "." t q.
Proof.
  unfold py_float. intros H. apply numeral_signed. destruct t as [|c t]; [discriminate|].
  destruct (eq_c "-" c) eqn:E1; [|destruct (eq_c "+" c) eqn:E2].
  - apply eq_c_iff in E1 as ->. destruct (float_unsigned t) as [v|] eqn:E; [|discriminate]. simpl in H. injection H as <-.
    exists (lit "-"), (-1), t, v. split; [reflexivity|]. split; [constructor|]. split; [apply float_unsigned_sound, E|].
    change (inject_Z (-1)) with (-1 # 1)%Q. ring.
  - apply eq_c_iff in E2 as ->. destruct (float_unsigned t) as [v|] eqn:E; [|discriminate]. injection H as <-.
    exists (lit "+"), 1, t, v. split; [reflexivity|]. split; [constructor|]. split; [apply float_unsigned_sound, E|].
    change (inject_Z 1) with 1%Q. ring.
  - destruct (float_unsigned (c :: t)) as [v|] eqn:E; [|discriminate]. injection H as <-.
    exists [], 1, (c :: t), v. split; [reflexivity|]. split; [constructor|]. split; [apply float_unsigned_sound, E|].
    change (inject_Z 1) with 1%Q. ring.
Qed.
Lemma py_float_complete t q : numeral "." t q -> exists q', py_float t = Ok q' /\ (q' == q)%Q.
Proof.
  intros H. apply numeral_signed in H as (sg & k & u & v & -> & Hsg & Hu & Hq).
  destruct (float_unsigned_complete u v Hu) as (v' & Ev & Hv). unfold py_float. destruct Hsg.
  - cbn [app]. destruct u as [|c u]; [destruct Hu as (i & fr & f & ex & e & E & _ & Hf & Hn & _); symmetry in E; apply app_eq_nil in E as [-> E]; apply app_eq_nil in E as [-> _]; inversion Hf; subst; destruct (Hn eq_refl)|].
    pose proof (unsigned_head _ _ c u Hu eq_refl) as X. unfold is_sign in X. apply orb_false_elim in X as [-> ->]. rewrite Ev.
    eexists. split; [reflexivity|]. rewrite Hq, Hv. change (inject_Z 1) with 1%Q. ring.
  - cbn [app lit list_ascii_of_string]. change (eq_c "-" "+") with false. change (eq_c "+" "+") with true. cbn iota. rewrite Ev.
    eexists. split; [reflexivity|]. rewrite Hq, Hv. change (inject_Z 1) with 1%Q. ring.
  - cbn [app lit list_ascii_of_string]. change (eq_c "-" "-") with true. cbn iota. rewrite Ev. simpl option_map.
    eexists. split; [reflexivity|]. rewrite Hq, Hv. change (inject_Z (-1)) with (-1 # 1)%Q. ring.
Qed.

(** ** locales *)
Definition plain (c : ascii) : Prop := is_digit c = false /\ is_sign c = false /\ is_exp c = false.

Lemma replace_app a b s t : replace_c a b (s ++ t) = replace_c a b s ++ replace_c a b t.
Proof. apply map_app. Qed.
Lemma replace_id a b s : ~ In a s -> replace_c a b s = s.
Proof.
  intros H. unfold replace_c. rewrite <- (map_id s) at 2. apply map_ext_in. intros c Hc. destruct (ascii_dec c a) as [->|]; [contradiction|reflexivity].
Qed.
Lemma replace_self a s : replace_c a a s = s.
Proof. unfold replace_c. rewrite <- (map_id s) at 2. apply map_ext. intros c. destruct (ascii_dec c a); auto. Qed.
Lemma remove_id a s : ~ In a s -> remove_c a s = s.
Proof.
  unfold remove_c. induction s as [|c s IH]; intros H; [reflexivity|]. simpl. destruct (ascii_dec c a) as [->|]; [destruct H; left; reflexivity|].
  f_equal. apply IH. intros X. apply H. right. exact X.
Qed.
Lemma remove_without a s : remove_c a s = without a s.
Proof. unfold remove_c. induction s as [|c s IH]; [reflexivity|]. simpl. destruct (ascii_dec c a); simpl; congruence. Qed.

Lemma digits_plain c s : plain c -> Forall a_digit s -> ~ In c s.
Proof. intros (H & _) Hs Hi. rewrite Forall_forall in Hs. apply Hs, a_digit_iff in Hi. congruence. Qed.
Lemma sign_plain c sg k : plain c -> sign_text sg k -> ~ In c sg.
Proof. intros (_ & H & _) Hs Hi. destruct Hs; simpl in Hi; destruct Hi as [<-|[]] || destruct Hi; discriminate. Qed.
Lemma exp_plain c ex e : plain c -> exp_part ex e -> ~ In c ex.
Proof.
  intros Hp He Hi. destruct He as [|x sg k ds Hx Hsg _ Hd]; [destruct Hi|]. destruct Hi as [<-|Hi].
  - destruct Hp as (_ & _ & Hp). apply is_exp_iff in Hx. congruence.
  - apply in_app_or in Hi as [Hi|Hi]; [exact (sign_plain c sg k Hp Hsg Hi)|exact (digits_plain c ds Hp Hd Hi)].
Qed.
Lemma frac_plain mark c fr f : plain c -> c <> mark -> frac_part mark fr f -> ~ In c fr.
Proof.
  intros Hp Hn Hf Hi. destruct Hf as [|ds Hds]; [destruct Hi|]. destruct Hi as [E|Hi]; [congruence|exact (digits_plain c ds Hp Hds Hi)].
Qed.

(** replacing the mark of a numeral *)
Lemma numeral_replace m m' t q : plain m -> numeral m t q -> numeral m' (replace_c m m' t) q.
Proof.
  intros Hp (sg & k & i & fr & f & ex & e & -> & Hsg & Hi & Hf & Hn & He & Hq). rewrite !replace_app.
  rewrite (replace_id m m' sg (sign_plain m sg k Hp Hsg)), (replace_id m m' i (digits_plain m i Hp Hi)), (replace_id m m' ex (exp_plain m ex e Hp He)).
  exists sg, k, i, (replace_c m m' fr), f, ex, e. repeat split; try assumption.
  destruct Hf as [|ds Hds]; [constructor|]. simpl. destruct (ascii_dec m m); [|congruence]. change (map _ ds) with (replace_c m m' ds).
  rewrite (replace_id m m' ds (digits_plain m ds Hp Hds)). constructor. exact Hds.
Qed.
(** other characters do not occur in a numeral *)
Lemma numeral_chars m t q c : plain c -> c <> m -> numeral m t q -> ~ In c t.
Proof.
  intros Hp Hc (sg & k & i & fr & f & ex & e & -> & Hsg & Hi & Hf & Hn & He & Hq) H.
  apply in_app_or in H as [H|H]; [exact (sign_plain c sg k Hp Hsg H)|]. apply in_app_or in H as [H|H]; [exact (digits_plain c i Hp Hi H)|].
  apply in_app_or in H as [H|H]; [exact (frac_plain m c fr f Hp Hc Hf H)|exact (exp_plain c ex e Hp He H)].
Qed.
(** a numeral without its mark is a numeral with any mark *)
Lemma numeral_unmarked m m' t q : ~ In m t -> numeral m t q -> numeral m' t q.
Proof.
  intros Hm (sg & k & i & fr & f & ex & e & -> & Hsg & Hi & Hf & Hn & He & Hq).
  exists sg, k, i, fr, f, ex, e. repeat split; try assumption. destruct Hf as [|ds Hds]; [constructor|].
  exfalso. apply Hm. apply in_or_app. right. apply in_or_app. right. left. reflexivity.
Qed.
Lemma numeral_without m m' t q : plain m -> numeral m t q -> exists q', numeral m' (without m t) q'.
Proof.
  intros Hp (sg & k & i & fr & f & ex & e & -> & Hsg & Hi & Hf & Hn & He & Hq).
  rewrite <- remove_without. unfold remove_c. rewrite !filter_app. fold (remove_c m sg) (remove_c m i) (remove_c m fr) (remove_c m ex).
  rewrite (remove_id m sg (sign_plain m sg k Hp Hsg)), (remove_id m i (digits_plain m i Hp Hi)), (remove_id m ex (exp_plain m ex e Hp He)).
  assert (E : remove_c m fr = f).
  { destruct Hf as [|ds Hds]; [reflexivity|]. unfold remove_c. simpl. destruct (ascii_dec m m); [|congruence]. exact (remove_id m ds (digits_plain m ds Hp Hds)). }
  rewrite E. assert (Hff : Forall a_digit f) by (destruct Hf; [constructor|assumption]).
  eexists. exists sg, k, (i ++ f), [], [], ex, e. rewrite <- !app_assoc. split; [reflexivity|]. split; [exact Hsg|]. split; [apply Forall_app; auto|].
  split; [constructor|]. rewrite app_nil_r. split; [exact Hn|]. split; [exact He|reflexivity].
Qed.
Lemma plain_dot : plain "."%char. Proof. repeat split. Qed.
Lemma plain_comma : plain ","%char. Proof. repeat split. Qed.
