(** Lemmas about networks of reference counted objects. *)
From Coq Require Import List Bool Arith Lia.
From Verif Require Import PyBase RefNet_Model RefNet_Spec.
Import ListNotations.

Lemma n_put_length {X} i (x : X) l : length (n_put i x l) = length l.
Proof. revert i. induction l as [|y l IH]; intros [|i]; cbn; auto. Qed.
Lemma n_put_same {X} i (x y : X) l : nth_error l i = Some y -> nth_error (n_put i x l) i = Some x.
Proof. revert i. induction l as [|z l IH]; intros [|i]; cbn; try discriminate; auto. Qed.
Lemma n_put_other {X} i j (x : X) l : i <> j -> nth_error (n_put i x l) j = nth_error l j.
Proof. revert i j. induction l as [|z l IH]; intros [|i] [|j] H; cbn; auto; contradiction. Qed.
Lemma n_put_get {X} i j (x y : X) l : nth_error (n_put i x l) j = Some y -> (i = j /\ y = x) \/ (i <> j /\ nth_error l j = Some y).
Proof.
  intros H. destruct (Nat.eq_dec i j) as [->|N]; [left|right; now rewrite n_put_other in H]. split; auto.
  destruct (nth_error l j) eqn:E; [rewrite (n_put_same _ _ _ _ E) in H; congruence|].
  apply nth_error_None in E. rewrite <- (n_put_length j x l) in E. apply nth_error_None in E. congruence.
Qed.
Lemma n_put_sum {X} (f : X -> nat) i x y l : nth_error l i = Some y ->
  list_sum (map f (n_put i x l)) + f y = list_sum (map f l) + f x.
Proof.
  revert i. induction l as [|z l IH]; intros [|i] H; cbn in *; try discriminate; [injection H as ->|specialize (IH _ H)]; unfold list_sum in *; cbn [fold_right] in *; lia.
Qed.
Lemma sum_snoc {X} (f : X -> nat) l x : list_sum (map f (l ++ [x])) = list_sum (map f l) + f x.
Proof. rewrite map_app, list_sum_app. cbn. lia. Qed.
Lemma sum_in {X} (f : X -> nat) l x : In x l -> f x <= list_sum (map f l).
Proof. induction l as [|y l IH]; cbn; [tauto|]. intros [->|H]; [|specialize (IH H)]; unfold list_sum in *; cbn [fold_right] in *; lia. Qed.
Lemma sum_pos {X} (f : X -> nat) l : 0 < list_sum (map f l) -> exists x, In x l /\ 0 < f x.
Proof.
  induction l as [|y l IH]; cbn; [lia|]. intros H. destruct (f y) eqn:E.
  - destruct IH as (x & A & B); [unfold list_sum in *; cbn [fold_right] in *; lia|]. exists x. auto.
  - exists y. split; auto. lia.
Qed.

Lemma occ_in o l : In o l <-> 0 < occ o l.
Proof. unfold occ. rewrite (count_occ_In Nat.eq_dec). lia. Qed.
Lemma occ_app o a b : occ o (a ++ b) = occ o a + occ o b.
Proof. apply count_occ_app. Qed.
Lemma occ_cons o i l : occ o (i :: l) = one o i + occ o l.
Proof. unfold occ, one. cbn. destruct (Nat.eq_dec i o); lia. Qed.
Lemma occ_remove1 o i l : In i l -> occ o (remove1 i l) + one o i = occ o l.
Proof.
  induction l as [|j l IH]; cbn [remove1]; [intros []|]. intros H. destruct (Nat.eqb i j) eqn:E.
  - apply Nat.eqb_eq in E as ->. rewrite occ_cons. lia.
  - apply Nat.eqb_neq in E. destruct H as [->|H]; [congruence|]. rewrite !occ_cons. specialize (IH H). lia.
Qed.
Lemma remove1_length i l : In i l -> S (length (remove1 i l)) = length l.
Proof.
  induction l as [|j l IH]; cbn [remove1]; [intros []|]. intros H. destruct (Nat.eqb i j) eqn:E; [reflexivity|].
  apply Nat.eqb_neq in E. destruct H as [->|H]; [congruence|]. cbn. now rewrite IH.
Qed.
Lemma remove1_in o i l : In o (remove1 i l) -> In o l.
Proof. induction l as [|j l IH]; cbn [remove1]; [intros []|]. destruct (Nat.eqb i j); cbn; tauto. Qed.

Definition frames (h : thr) : list nat := map fst (t_stack h).
Definition inner (s : nst) (o : nat) : nat := list_sum (map (obj_refs o) (n_objs s)) + list_sum (map (thr_refs o) (n_thrs s)).

Arguments inner : simpl never.

Record ninv (s : nst) : Prop := {
  ni_count : forall o b, nth_error (n_objs s) o = Some b -> o_count b = o_ext b + inner s o;
  ni_none : forall o, nth_error (n_objs s) o = None -> inner s o = 0;
  ni_dead : forall o b, nth_error (n_objs s) o = Some b -> o_active b = false -> o_count b = 0 /\ o_used b = true;
  ni_used : forall o b, nth_error (n_objs s) o = Some b -> o_active b = true -> o_used b = true -> 0 < o_count b;
  ni_unused : forall o b, nth_error (n_objs s) o = Some b -> o_used b = false -> o_count b = 0;
  ni_frames : forall h o, In h (n_thrs s) -> In o (frames h) -> exists b, nth_error (n_objs s) o = Some b /\ o_active b = false;
  ni_log : forall o, In o (n_log s) <-> exists b, nth_error (n_objs s) o = Some b /\ o_active b = false;
  ni_once : NoDup (n_log s);
  ni_order : forall p o a b, refers s p o -> n_log s = a ++ o :: b -> In p a;
  ni_ok : n_failed s = false }.

Lemma locked_from_false k t o l : locked_from k t o l = true -> exists h, In h l /\ In o (frames h).
Proof.
  revert k. induction l as [|h l IH]; cbn; intros k H; [discriminate|]. apply orb_true_iff in H as [H|H].
  - apply andb_true_iff in H as (_ & H). exists h. split; auto. unfold holds in H. apply existsb_exists in H as (f & F & E).
    apply Nat.eqb_eq in E as <-. unfold frames. now apply in_map.
  - destruct (IH _ H) as (g & A & B). eauto.
Qed.
(** what is referred to is not deleted, and so no thread has its mutex *)
Lemma ninv_inner s o : ninv s -> 0 < inner s o -> exists b, nth_error (n_objs s) o = Some b /\ o_active b = true /\ 0 < o_count b.
Proof.
  intros I H. destruct (nth_error (n_objs s) o) as [b|] eqn:E; [|apply (ni_none _ I) in E; lia].
  exists b. pose proof (ni_count _ I _ _ E). repeat split; try lia. destruct (o_active b) eqn:A; auto.
  destruct (ni_dead _ I _ _ E A). lia.
Qed.
Lemma ninv_free s t o b : ninv s -> nth_error (n_objs s) o = Some b -> o_active b = true -> locked t o (n_thrs s) = false.
Proof.
  intros I E A. destruct (locked t o (n_thrs s)) eqn:L; auto. apply locked_from_false in L as (h & H & F).
  destruct (ni_frames _ I _ _ H F) as (b' & E' & A'). congruence.
Qed.
Lemma ninv_want s t o st : ninv s -> nth_error (n_thrs s) t = Some (Th (Some o) st) ->
  exists b, nth_error (n_objs s) o = Some b /\ o_active b = true /\ 0 < o_count b.
Proof.
  intros I H. apply ninv_inner; auto. unfold inner. pose proof (sum_in (thr_refs o) _ _ (nth_error_In _ _ H)) as K.
  unfold thr_refs at 1 in K. cbn [t_want] in K. unfold one in K. destruct (Nat.eq_dec o o); [lia|congruence].
Qed.
Lemma inner_obj objs thrs log log' f f' x b b' o : nth_error objs x = Some b ->
  inner (Nt (n_put x b' objs) thrs log f) o + obj_refs o b = inner (Nt objs thrs log' f') o + obj_refs o b'.
Proof. intros H. unfold inner. cbn [n_objs n_thrs]. pose proof (n_put_sum (obj_refs o) _ b' _ _ H). lia. Qed.
Lemma inner_thr objs thrs log log' f f' t h h' o : nth_error thrs t = Some h ->
  inner (Nt objs (n_put t h' thrs) log f) o + thr_refs o h = inner (Nt objs thrs log' f') o + thr_refs o h'.
Proof. intros H. unfold inner. cbn [n_objs n_thrs]. pose proof (n_put_sum (thr_refs o) _ h' _ _ H). lia. Qed.
Lemma one_same o : one o o = 1.
Proof. unfold one. destruct (Nat.eq_dec o o); congruence. Qed.
Lemma one_other o i : i <> o -> one o i = 0.
Proof. unfold one. destruct (Nat.eq_dec i o); congruence. Qed.
Lemma nth_snoc {X} (l : list X) x i y : nth_error (l ++ [x]) i = Some y -> nth_error l i = Some y \/ (i = length l /\ y = x).
Proof.
  intros H. destruct (lt_eq_lt_dec i (length l)) as [[K| ->]|K].
  - left. now rewrite nth_error_app1 in H.
  - right. rewrite nth_error_app2, Nat.sub_diag in H by lia. cbn in H. split; congruence.
  - rewrite nth_error_app2 in H by lia. destruct (i - length l) as [|[|k]] eqn:E; cbn in H; try discriminate. lia.
Qed.

(** a step that changes no count *)
Lemma ninv_thrs s thrs' : ninv s -> (forall o, list_sum (map (thr_refs o) thrs') = list_sum (map (thr_refs o) (n_thrs s))) ->
  (forall h o, In h thrs' -> In o (frames h) -> exists g, In g (n_thrs s) /\ In o (frames g)) ->
  ninv (Nt (n_objs s) thrs' (n_log s) (n_failed s)).
Proof.
  intros I H F. assert (N : forall o, inner (Nt (n_objs s) thrs' (n_log s) (n_failed s)) o = inner s o) by (intros o; unfold inner; cbn [n_objs n_thrs]; now rewrite H).
  destruct I as [A B C D E G K L M O]. constructor; cbn [n_objs n_thrs n_log n_failed]; auto.
  - intros o b X. rewrite N. auto.
  - intros o X. rewrite N. auto.
  - intros h o X Y. destruct (F _ _ X Y) as (g & X' & Y'). eauto.
Qed.

Lemma in_put_thr {X} t (h' : X) thrs h : In h (n_put t h' thrs) -> h = h' \/ In h thrs.
Proof. intros H. apply In_nth_error in H as (j & H). apply n_put_get in H as [(_ & ->)|(_ & H)]; auto. right. eapply nth_error_In; eauto. Qed.

(** an object that is not deleted changes; it stays so *)
Lemma ninv_obj s x b b' thrs' : ninv s -> nth_error (n_objs s) x = Some b -> o_active b = true -> o_active b' = true ->
  (forall h o, In h thrs' -> In o (frames h) -> exists g, In g (n_thrs s) /\ In o (frames g)) ->
  (forall o, In o (o_in b') -> In o (o_in b)) ->
  (o_used b' = true -> 0 < o_count b') -> (o_used b' = false -> o_count b' = 0) ->
  (forall o, o <> x -> inner (Nt (n_put x b' (n_objs s)) thrs' (n_log s) (n_failed s)) o = inner s o) ->
  o_count b' = o_ext b' + inner (Nt (n_put x b' (n_objs s)) thrs' (n_log s) (n_failed s)) x ->
  ninv (Nt (n_put x b' (n_objs s)) thrs' (n_log s) (n_failed s)).
Proof.
  intros I X XA XA' F IN U1 U2 N NX.
  destruct I as [A B C D E G K L M O]. constructor; cbn [n_objs n_thrs n_log n_failed]; auto.
  - intros o c H. apply n_put_get in H as [(<- & ->)|(Y & H)]; auto. rewrite N by congruence. auto.
  - intros o H. destruct (Nat.eq_dec o x) as [->|Y]; [rewrite (n_put_same _ _ _ _ X) in H; discriminate|].
    rewrite n_put_other in H by congruence. rewrite N by assumption. auto.
  - intros o c H H'. apply n_put_get in H as [(<- & ->)|(Y & H)]; [congruence|eauto].
  - intros o c H H' H2. apply n_put_get in H as [(<- & ->)|(Y & H)]; eauto.
  - intros o c H H2. apply n_put_get in H as [(<- & ->)|(Y & H)]; eauto.
  - intros h o H H'. destruct (F _ _ H H') as (g & H1 & H2). destruct (G _ _ H1 H2) as (c & H3 & H4).
    exists c. split; auto. rewrite n_put_other; auto. intros <-. congruence.
  - intros o. rewrite K. split.
    + intros (c & H & H'). exists c. split; auto. rewrite n_put_other; auto. intros <-. congruence.
    + intros (c & H & H'). apply n_put_get in H as [(<- & ->)|(Y & H)]; [congruence|eauto].
  - intros p o u v (c & H & H') H2. apply (M p o u v); auto. cbn [n_objs] in H.
    apply n_put_get in H as [(<- & ->)|(Y & H)]; [exists b|exists c]; auto.
Qed.

Lemma ninv_new : ninv n_new.
Proof.
  assert (X : forall o, nth_error (@nil obj) o = None) by (intros [|o]; reflexivity).
  constructor; cbn; intros; try (rewrite X in *; try discriminate); auto; try tauto; try constructor; try discriminate.
  - tauto.
  - intros (b & H & _). discriminate.
  - destruct a; discriminate.
Qed.

Lemma idle_put (t : nat) thrs h o : nth_error thrs t = Some (Th None []) -> forall h', frames h' = [] ->
  In h (n_put t h' thrs) -> In o (frames h) -> exists g, In g thrs /\ In o (frames g).
Proof. intros T h' E H K. apply in_put_thr in H as [->|H]; eauto. rewrite E in K. destruct K. Qed.

Lemma ninv_step s a : ninv s -> ninv (n_step s a).
Proof.
  intros I. destruct s as [objs thrs log failed]. destruct a as [| |t p i|t p i|t x|t x|t]; cbn [n_step].
  - (* NThread *)
    apply (ninv_thrs _ _ I).
    + intros o. rewrite sum_snoc. change (thr_refs o (Th None [])) with 0. cbn [n_thrs]. lia.
    + intros h o H K. apply in_app_iff in H as [H|[<-|[]]]; [eauto|destruct K].
  - (* NNew *)
    assert (N : forall o, inner (Nt (objs ++ [ob_new]) thrs log failed) o = inner (Nt objs thrs log failed) o).
    { intros o. unfold inner. cbn [n_objs n_thrs]. rewrite sum_snoc. change (obj_refs o ob_new) with 0. lia. }
    destruct I as [A B C D E G K L M O]. cbn [n_objs n_thrs n_log n_failed] in *. constructor; cbn [n_objs n_thrs n_log n_failed]; auto.
    + intros o b H. rewrite N. apply nth_snoc in H as [H|(-> & ->)]; auto. cbn. rewrite B; auto. apply nth_error_None. lia.
    + intros o H. rewrite N. apply B. apply nth_error_None in H. apply nth_error_None. rewrite app_length in H. lia.
    + intros o b H H'. apply nth_snoc in H as [H|(-> & ->)]; [eauto|discriminate].
    + intros o b H H' H2. apply nth_snoc in H as [H|(-> & ->)]; [eauto|discriminate].
    + intros o b H H'. apply nth_snoc in H as [H|(-> & ->)]; [eauto|reflexivity].
    + intros h o H H'. destruct (G _ _ H H') as (b & X & Y). exists b. split; auto. rewrite nth_error_app1; auto. apply nth_error_Some. congruence.
    + intros o. rewrite K. split; intros (b & X & Y).
      * exists b. split; auto. rewrite nth_error_app1; auto. apply nth_error_Some. congruence.
      * apply nth_snoc in X as [X|(-> & ->)]; [eauto|discriminate].
    + intros p o u v (b & X & Y) H. apply (M p o u v); auto. cbn [n_objs] in X. apply nth_snoc in X as [X|(-> & ->)]; [exists b; auto|destruct Y].
  - (* NAttach *)
    destruct (nth_error thrs t) as [[[w|] [|f st]]|] eqn:T; auto.
    destruct (nth_error objs p) as [bp|] eqn:P; auto. destruct (nth_error objs i) as [bi|] eqn:X; auto.
    destruct (o_active bp && o_active bi && negb (Nat.eqb i p) && negb (locked t i thrs)) eqn:C; auto.
    apply andb_true_iff in C as (C & _). apply andb_true_iff in C as (C & NE). apply andb_true_iff in C as (AP & AI).
    apply negb_true_iff, Nat.eqb_neq in NE.
    set (bp' := Ob (o_in bp ++ [i]) (o_count bp) (o_active bp) (o_ext bp) (o_used bp)).
    assert (P' : nth_error (n_put i (add_ref bi) objs) p = Some bp) by now rewrite n_put_other.
    assert (N : forall o, inner (Nt (n_put p bp' (n_put i (add_ref bi) objs)) thrs log failed) o = inner (Nt objs thrs log failed) o + one o i).
    { intros o. pose proof (inner_obj _ thrs log log failed failed p bp bp' o P').
      pose proof (inner_obj objs thrs log log failed failed i bi (add_ref bi) o X). unfold obj_refs in *. cbn [o_active o_in add_ref bp'] in *.
      rewrite AP, AI, occ_app, occ_cons in *. change (occ o []) with 0 in *. lia. }
    set (objs' := n_put p bp' (n_put i (add_ref bi) objs)) in *.
    assert (Q : forall o b, nth_error objs' o = Some b ->
                (o = p /\ b = bp') \/ (o = i /\ b = add_ref bi) \/ (o <> i /\ o <> p /\ nth_error objs o = Some b)).
    { intros o b H. apply n_put_get in H as [(<- & ->)|(Y & H)]; auto. apply n_put_get in H as [(<- & ->)|(Z & H)]; auto. }
    assert (DEAD : forall o b, nth_error objs o = Some b -> o_active b = false -> nth_error objs' o = Some b).
    { intros o b H H'. unfold objs'. rewrite !n_put_other; auto; intros <-; congruence. }
    destruct I as [A B C D E G K L M O]. cbn [n_objs n_thrs n_log n_failed] in *. constructor; cbn [n_objs n_thrs n_log n_failed]; auto.
    + intros o b H. rewrite N. destruct (Q _ _ H) as [(-> & ->)|[(-> & ->)|(Y & Z & H')]].
      * rewrite one_other by assumption. cbn. rewrite (A _ _ P). lia.
      * rewrite one_same. cbn. rewrite (A _ _ X). lia.
      * rewrite one_other by congruence. rewrite (A _ _ H'). lia.
    + intros o H. rewrite N. apply nth_error_None in H. unfold objs' in H. rewrite !n_put_length in H. apply nth_error_None in H.
      rewrite B by assumption. rewrite one_other; auto. intros <-. congruence.
    + intros o b H H'. destruct (Q _ _ H) as [(-> & ->)|[(-> & ->)|(Y & Z & H2)]]; cbn in H'; try congruence. eauto.
    + intros o b H H' H3. destruct (Q _ _ H) as [(-> & ->)|[(-> & ->)|(Y & Z & H2)]]; cbn in *; eauto. lia.
    + intros o b H H'. destruct (Q _ _ H) as [(-> & ->)|[(-> & ->)|(Y & Z & H2)]]; cbn in *; eauto. discriminate.
    + intros h o H H'. destruct (G _ _ H H') as (b & H2 & H3). eauto.
    + intros o. rewrite K. split; intros (b & H & H'); [eauto|].
      destruct (Q _ _ H) as [(-> & ->)|[(-> & ->)|(Y & Z & H2)]]; cbn in H'; try congruence. eauto.
    + intros q o u v (b & H & H') H2. cbn [n_objs] in H. destruct (Q _ _ H) as [(-> & ->)|[(-> & ->)|(Y & Z & H3)]]; cbn in H'.
      * apply in_app_iff in H' as [H'|[<-|[]]]; [apply (M p o u v); auto; exists bp; auto|].
        exfalso. assert (J : In i log) by (rewrite H2; apply in_app_iff; right; left; reflexivity). apply K in J as (c & J & J'). congruence.
      * apply (M i o u v); auto. exists bi. auto.
      * apply (M q o u v); auto. exists b. auto.
  - (* NDetach *)
    destruct (nth_error thrs t) as [[[w|] [|f st]]|] eqn:T; auto.
    destruct (nth_error objs p) as [bp|] eqn:P; auto.
    destruct (o_active bp && existsb (Nat.eqb i) (o_in bp)) eqn:C; auto.
    apply andb_true_iff in C as (AP & IN). apply existsb_exists in IN as (j & IN & E). apply Nat.eqb_eq in E as <-.
    set (bp' := Ob (remove1 i (o_in bp)) (o_count bp) (o_active bp) (o_ext bp) (o_used bp)).
    assert (N : forall o, inner (Nt (n_put p bp' objs) (n_put t (Th (Some i) []) thrs) log failed) o = inner (Nt objs thrs log failed) o).
    { intros o. pose proof (inner_obj objs (n_put t (Th (Some i) []) thrs) log log failed failed p bp bp' o P).
      pose proof (inner_thr objs thrs log log failed failed t _ (Th (Some i) []) o T). unfold obj_refs, thr_refs in *. cbn [o_active o_in t_want t_stack map fst snd list_sum fold_right bp'] in *.
      rewrite AP in *. pose proof (occ_remove1 o i _ IN). lia. }
    apply (ninv_obj _ p bp bp' _ I); cbn; auto.
    + intros h o. now apply (idle_put t thrs h o T).
    + intros o. apply remove1_in.
    + apply (ni_used _ I _ _ P AP).
    + apply (ni_unused _ I _ _ P).
    + rewrite N. apply (ni_count _ I _ _ P).
  - (* NAcquire *)
    destruct (nth_error thrs t) as [[[w|] [|f st]]|] eqn:T; auto.
    destruct (nth_error objs x) as [b|] eqn:X; auto.
    destruct (o_active b && negb (locked t x thrs)) eqn:C; auto. apply andb_true_iff in C as (AX & _).
    set (b' := let b' := add_ref b in Ob (o_in b') (o_count b') (o_active b') (S (o_ext b')) (o_used b')).
    assert (N : forall o, inner (Nt (n_put x b' objs) thrs log failed) o = inner (Nt objs thrs log failed) o).
    { intros o. pose proof (inner_obj objs thrs log log failed failed x b b' o X). unfold obj_refs in *. cbn [o_active o_in add_ref b'] in *. lia. }
    apply (ninv_obj _ x b b' _ I); cbn; auto; try (intros; lia); try discriminate.
    + intros h o. eauto.
    + rewrite N. pose proof (ni_count _ I _ _ X). lia.
  - (* NRelease *)
    destruct (nth_error thrs t) as [[[w|] [|f st]]|] eqn:T; auto.
    destruct (nth_error objs x) as [b|] eqn:X; auto.
    destruct (o_ext b) as [|e] eqn:EX; auto.
    pose proof (ni_count _ I _ _ X) as CX.
    assert (AX : o_active b = true). { destruct (o_active b) eqn:AX; auto. destruct (ni_dead _ I _ _ X AX). lia. }
    set (b' := Ob (o_in b) (o_count b) (o_active b) e (o_used b)).
    assert (N : forall o, inner (Nt (n_put x b' objs) (n_put t (Th (Some x) []) thrs) log failed) o = inner (Nt objs thrs log failed) o + one o x).
    { intros o. pose proof (inner_obj objs (n_put t (Th (Some x) []) thrs) log log failed failed x b b' o X).
      pose proof (inner_thr objs thrs log log failed failed t _ (Th (Some x) []) o T). unfold obj_refs, thr_refs in *. cbn [o_active o_in t_want t_stack map fst snd list_sum fold_right b'] in *. lia. }
    apply (ninv_obj _ x b b' _ I); cbn; auto.
    + intros h o. now apply (idle_put t thrs h o T).
    + apply (ni_used _ I _ _ X AX).
    + apply (ni_unused _ I _ _ X).
    + intros o H. rewrite N, one_other by congruence. lia.
    + rewrite N, one_same. lia.
  - (* NStep *)
    destruct (nth_error thrs t) as [[[x|] st]|] eqn:T; auto.
    + destruct (ninv_want _ _ _ _ I T) as (b & X & AX & CX). cbn [n_objs] in X. rewrite X.
      pose proof (ninv_free _ t _ _ I X AX) as FR. cbn [n_thrs] in FR. rewrite FR.
      pose proof (ni_count _ I _ _ X) as CC.
      destruct (o_count b) as [|c] eqn:CO; [lia|]. rewrite AX. cbn [andb].
      destruct (Nat.eqb c 0) eqn:CZ; [apply Nat.eqb_eq in CZ as ->|apply Nat.eqb_neq in CZ].
      * set (b' := Ob (o_in b) 0 false (o_ext b) (o_used b)). set (h' := Th None ((x, o_in b) :: st)).
        assert (N : forall o, inner (Nt (n_put x b' objs) (n_put t h' thrs) (log ++ [x]) failed) o + one o x = inner (Nt objs thrs log failed) o).
        { intros o. pose proof (inner_obj objs (n_put t h' thrs) (log ++ [x]) log failed failed x b b' o X).
          pose proof (inner_thr objs thrs log log failed failed t _ h' o T). unfold obj_refs, thr_refs in *. cbn [o_active o_in t_want t_stack map fst snd list_sum fold_right b' h'] in *. rewrite AX in *.
          unfold list_sum in *. lia. }
        assert (UX : o_used b = true). { destruct (o_used b) eqn:U; auto. pose proof (ni_unused _ I _ _ X U). lia. }
        pose proof I as [A B C D E G K L M O]. cbn [n_objs n_thrs n_log n_failed] in *. constructor; cbn [n_objs n_thrs n_log n_failed]; auto.
        -- intros o c H. specialize (N o). apply n_put_get in H as [(<- & ->)|(Y & H)].
           ++ rewrite one_same in N. cbn. lia.
           ++ rewrite one_other in N by assumption. rewrite (A _ _ H). lia.
        -- intros o H. specialize (N o). apply nth_error_None in H. rewrite n_put_length in H. apply nth_error_None in H. rewrite B in N by assumption. lia.
        -- intros o c H H'. apply n_put_get in H as [(<- & ->)|(Y & H)]; [split; [reflexivity|exact UX]|eauto].
        -- intros o c H H' H2. apply n_put_get in H as [(<- & ->)|(Y & H)]; [discriminate|eauto].
        -- intros o c H H'. apply n_put_get in H as [(<- & ->)|(Y & H)]; [reflexivity|eauto].
        -- intros h o H H'. destruct (Nat.eq_dec x o) as [<-|NE]; [exists b'; split; [eapply n_put_same; eauto|reflexivity]|].
           rewrite n_put_other by assumption. apply in_put_thr in H as [->|H]; [|eauto]. cbn in H'.
           destruct H' as [H'|H']; [congruence|]. apply (G _ o (nth_error_In _ _ T)). exact H'.
        -- intros o. rewrite in_app_iff, K. cbn [In]. split.
           ++ intros [(c & H & H')|[<-|[]]]; [|exists b'; split; [eapply n_put_same; eauto|reflexivity]].
              exists c. split; auto. rewrite n_put_other; auto. intros <-. congruence.
           ++ intros (c & H & H'). apply n_put_get in H as [(<- & ->)|(Y & H)]; auto. left. eauto.
        -- apply NoDup_rev in L. rewrite <- (rev_involutive (log ++ [x])), rev_app_distr. apply NoDup_rev. cbn. constructor; auto.
           rewrite <- in_rev, K. intros (c & H & H'). congruence.
        -- intros p o u v R H.
           assert (R' : refers (Nt objs thrs log failed) p o).
           { destruct R as (c & R & R'). cbn [n_objs] in R. apply n_put_get in R as [(<- & ->)|(Y & R)]; [exists b|exists c]; auto. }
           destruct (exists_last (l := o :: v) ltac:(discriminate)) as (v' & y & EV). rewrite EV, app_assoc in H. apply app_inj_tail in H as (H & ->).
           destruct v' as [|z v']; cbn in EV; injection EV; intros.
           ++ subst. rewrite app_nil_r in *. apply K. destruct R' as (c & R' & R2). exists c. split; auto. cbn [n_objs] in R'.
              destruct (o_active c) eqn:AC; auto. exfalso. pose proof (sum_in (obj_refs y) _ _ (nth_error_In _ _ R')) as S1. unfold obj_refs at 1 in S1.
              rewrite AC in S1. apply occ_in in R2. pose proof (inner_thr objs thrs u u false false t _ (Th None st) y T) as S2.
              unfold inner in S2, CC. unfold thr_refs at 2 4 in S2. cbn [t_want t_stack n_objs n_thrs] in *. rewrite one_same in S2. lia.
           ++ subst. apply (M p z u v'); auto.
      * set (b' := Ob (o_in b) c true (o_ext b) (o_used b)). set (h' := Th None st).
        assert (N : forall o, inner (Nt (n_put x b' objs) (n_put t h' thrs) log failed) o + one o x = inner (Nt objs thrs log failed) o).
        { intros o. pose proof (inner_obj objs (n_put t h' thrs) log log failed failed x b b' o X).
          pose proof (inner_thr objs thrs log log failed failed t _ h' o T). unfold obj_refs, thr_refs in *. cbn [o_active o_in t_want t_stack map fst snd list_sum fold_right b' h'] in *. rewrite AX in *. lia. }
        apply (ninv_obj _ x b b' _ I); cbn; auto.
        -- intros h o H H'. apply in_put_thr in H as [->|H]; eauto. exists (Th (Some x) st). split; [eapply nth_error_In; eauto|exact H'].
        -- intros _. lia.
        -- intros U. pose proof (ni_unused _ I _ _ X U). lia.
        -- intros o H. specialize (N o). rewrite one_other in N by congruence. lia.
        -- specialize (N x). rewrite one_same in N. lia.
    + destruct st as [|(x, [|i rest]) st]; auto.
      * apply (ninv_thrs _ _ I).
        -- intros o. pose proof (n_put_sum (thr_refs o) _ (Th None st) _ _ T) as H. unfold thr_refs at 2 4 in H. cbn in *. unfold list_sum in *. lia.
        -- intros h o H H'. apply in_put_thr in H as [->|H]; eauto. eexists. split; [eapply nth_error_In; eauto|right; exact H'].
      * apply (ninv_thrs _ _ I).
        -- intros o. pose proof (n_put_sum (thr_refs o) _ (Th (Some i) ((x, rest) :: st)) _ _ T) as H. unfold thr_refs at 2 4 in H. cbn [map snd t_stack t_want n_thrs] in *.
           change (list_sum (occ o (i :: rest) :: ?l)) with (occ o (i :: rest) + list_sum l) in H. change (list_sum (occ o rest :: ?l)) with (occ o rest + list_sum l) in H.
           rewrite occ_cons in H. lia.
        -- intros h o H H'. apply in_put_thr in H as [->|H]; eauto. eexists. split; [eapply nth_error_In; eauto|exact H'].
Qed.
Lemma ninv_run acts : ninv (n_run acts).
Proof.
  unfold n_run. generalize ninv_new. generalize n_new. induction acts as [|a acts IH]; cbn; intros s H; auto. apply IH. now apply ninv_step.
Qed.

(** ** steps *)
Lemma steps_step s t : ninv s -> busy s t -> steps_left s = S (steps_left (n_step s (NStep t))).
Proof.
  intros I (h & T & BZ). destruct s as [objs thrs log failed]. cbn [n_thrs] in T. unfold steps_left. cbn [n_step]. rewrite T.
  destruct h as [[x|] st].
  - destruct (ninv_want _ _ _ _ I T) as (b & X & AX & CX). cbn [n_objs] in X. rewrite X.
    pose proof (ninv_free _ t _ _ I X AX) as FR. cbn [n_thrs] in FR. rewrite FR.
    destruct (o_count b) as [|c]; [lia|]. rewrite AX. cbn [andb]. destruct (Nat.eqb c 0); cbn [n_objs n_thrs].
    + pose proof (n_put_sum obj_steps _ (Ob (o_in b) c false (o_ext b) (o_used b)) _ _ X) as H1.
      pose proof (n_put_sum thr_steps _ (Th None ((x, o_in b) :: st)) _ _ T) as H2.
      unfold obj_steps at 2 4 in H1. unfold thr_steps at 2 4 in H2. cbn [o_active o_in t_want t_stack map snd] in *. rewrite AX in *.
      unfold list_sum in *. cbn [fold_right] in *. lia.
    + pose proof (n_put_sum obj_steps _ (Ob (o_in b) c true (o_ext b) (o_used b)) _ _ X) as H1.
      pose proof (n_put_sum thr_steps _ (Th None st) _ _ T) as H2.
      unfold obj_steps at 2 4 in H1. unfold thr_steps at 2 4 in H2. cbn [o_active o_in t_want t_stack map snd] in *. rewrite AX in *. lia.
  - destruct st as [|(x, [|i rest]) st]; [destruct BZ; split; reflexivity| |]; cbn [n_objs n_thrs].
    + pose proof (n_put_sum thr_steps _ (Th None st) _ _ T) as H2. unfold thr_steps at 2 4 in H2. cbn [t_want t_stack map snd] in *.
      change (todo_of []) with 1 in *. unfold list_sum in *. cbn [fold_right] in *. lia.
    + pose proof (n_put_sum thr_steps _ (Th (Some i) ((x, rest) :: st)) _ _ T) as H2. unfold thr_steps at 2 4 in H2. cbn [t_want t_stack map snd] in *.
      unfold todo_of in *. cbn [length] in *. unfold list_sum in *. cbn [fold_right] in *. lia.
Qed.
Lemma goes_inv s ts s' : goes s ts s' -> ninv s -> ninv s' /\ steps_left s = length ts + steps_left s'.
Proof.
  induction 1 as [s|s t ts s' B G IH]; intros I; [auto|]. destruct (IH (ninv_step _ _ I)) as (J & E). split; auto.
  rewrite (steps_step _ _ I B), E. reflexivity.
Qed.
Definition idleb (h : thr) : bool := match h with Th None [] => true | _ => false end.
Lemma idleb_spec h : idleb h = true <-> idle h.
Proof. destruct h as [[w|] [|f st]]; cbn; unfold idle; cbn; split; try discriminate; auto; intros (A & B); discriminate. Qed.
Lemma quiescent_or_busy s : quiescent s \/ exists t, busy s t.
Proof.
  destruct (forallb idleb (n_thrs s)) eqn:E.
  - left. intros h H. rewrite forallb_forall in E. apply idleb_spec. auto.
  - right. assert (X : exists h, In h (n_thrs s) /\ idleb h = false).
    { induction (n_thrs s) as [|h l IH]; cbn in E; [discriminate|]. destruct (idleb h) eqn:F; [|exists h; cbn; auto].
      destruct (IH E) as (g & A & B). exists g. cbn. auto. }
    destruct X as (h & A & B). apply In_nth_error in A as (t & A). exists t, h. split; auto. intros F. apply idleb_spec in F. congruence.
Qed.

(** ** what is alive *)
Lemma active_refers s p o : ninv s -> active s p -> refers s p o -> active s o.
Proof.
  intros I (b & P & A) (c & P' & IN). assert (c = b) by congruence. subst c.
  destruct (ninv_inner s o I) as (d & D & E & _); [|exists d; auto].
  unfold inner. pose proof (sum_in (obj_refs o) _ _ (nth_error_In _ _ P)) as S1. unfold obj_refs at 1 in S1. rewrite A in S1. apply occ_in in IN. lia.
Qed.
Lemma root_active s o : ninv s -> root s o -> active s o.
Proof.
  intros I (b & E & H). exists b. split; auto. destruct (o_active b) eqn:A; auto. destruct (ni_dead _ I _ _ E A) as (C & U).
  pose proof (ni_count _ I _ _ E). destruct H as [H|H]; [lia|congruence].
Qed.
Lemma reachable_active s o : ninv s -> reachable s o -> active s o.
Proof. intros I. induction 1 as [o H|p o H IH R]; [now apply root_active|]. eapply active_refers; eauto. Qed.
Lemma quiescent_refs s o : quiescent s -> list_sum (map (thr_refs o) (n_thrs s)) = 0.
Proof.
  intros Q. destruct (list_sum (map (thr_refs o) (n_thrs s))) eqn:E; auto.
  destruct (sum_pos (thr_refs o) (n_thrs s)) as (h & H & K); [lia|]. destruct (Q _ H) as (A & B). unfold thr_refs in K. rewrite A, B in K. cbn in K. lia.
Qed.
Lemma active_above s o : ninv s -> quiescent s -> active s o -> root s o \/ exists p, active s p /\ refers s p o.
Proof.
  intros I Q (b & E & A). pose proof (ni_count _ I _ _ E) as C. destruct (o_used b) eqn:U; [|left; exists b; auto].
  pose proof (ni_used _ I _ _ E A U) as P. destruct (o_ext b) as [|e] eqn:X; [right|left; exists b; split; auto; left; lia].
  unfold inner in C. rewrite (quiescent_refs s o Q) in C. destruct (sum_pos (obj_refs o) (n_objs s)) as (c & H & K); [lia|].
  unfold obj_refs in K. destruct (o_active c) eqn:AC; [|lia]. apply occ_in in K. apply In_nth_error in H as (p & H).
  exists p. split; exists c; auto.
Qed.
Lemma active_reachable s o : ninv s -> quiescent s -> acyclic s -> active s o -> reachable s o.
Proof.
  intros I Q (rank & R). remember (rank o) as n eqn:N. revert o N.
  induction n as [n IH] using (well_founded_induction lt_wf). intros o -> A.
  destruct (active_above s o I Q A) as [H|(p & P & H)]; [now apply re_root|].
  apply re_step with p; auto. apply (IH (rank p)); auto.
Qed.
