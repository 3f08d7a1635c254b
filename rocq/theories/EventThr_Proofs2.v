(** Lemmas about events used by threads, continued: all that holds of every state. *)
From Coq Require Import List Bool Arith Lia Sorted.
From Verif Require Import PyBase EventThr_Model EventThr_Spec EventThr_Proofs.
Import ListNotations.

Lemma by_foreign f g e : by_call f e -> g <> f -> foreign g e.
Proof. destruct e; cbn; auto; congruence. Qed.
Lemma foreign_invoke f i e log : foreign f e -> In (VInvoke f i) (log ++ [e]) -> In (VInvoke f i) log.
Proof. rewrite <- !invokes_in. intros H. now rewrite foreign_invokes. Qed.

Lemma xinv_call reg made closed dropped fires log reg' made' closed' dropped' f m p p' e :
  xinv (Xs reg made closed dropped fires log) -> nth_error fires f = Some (m, p) ->
  rinv (Xs reg' made' closed' dropped' (x_put f (m, p') fires) (log ++ [e])) -> fresh log e -> by_call f e ->
  fok f m p' (log ++ [e]) -> xinv (Xs reg' made' closed' dropped' (x_put f (m, p') fires) (log ++ [e])).
Proof.
  intros [R L N T O] E R' F B K. cbn in *. constructor; cbn; auto.
  - now apply linv_snoc.
  - intros g. rewrite x_put_length, <- N. split; intros (m0 & H); exists m0; [apply in_snoc in H as [H| ->]; [assumption|contradiction]|apply in_snoc; auto].
  - intros g e' H. rewrite x_put_length in H. intros Y Z. apply in_snoc in Y as [Y| ->]; [eapply T; eauto|].
    assert (f < length fires) by (apply nth_error_Some; congruence). destruct e'; cbn in *; subst; lia || contradiction.
  - intros g m0 p0 H. apply x_put_get in H as [(<- & H)|(D & H)]; [injection H as -> ->; assumption|].
    apply fok_mono; auto. eapply by_foreign; eauto.
Qed.
Lemma xinv_other reg made closed dropped fires log reg' made' closed' dropped' e :
  xinv (Xs reg made closed dropped fires log) -> rinv (Xs reg' made' closed' dropped' fires (log ++ [e])) -> ~ ofcall e ->
  xinv (Xs reg' made' closed' dropped' fires (log ++ [e])).
Proof.
  intros [R L N T O] R' F. cbn in *. assert (X : forall f, foreign f e) by (destruct e; cbn in *; tauto). constructor; cbn; auto.
  - apply linv_snoc; auto. destruct e; cbn in *; tauto.
  - intros g. rewrite <- N. split; intros (m0 & H); exists m0; [apply in_snoc in H as [H| ->]; [assumption|cbn in F; tauto]|apply in_snoc; auto].
  - intros g e' H Y Z. apply in_snoc in Y as [Y| ->]; [eapply T; eauto|]. destruct e'; cbn in *; tauto.
  - intros g m0 p0 H. apply fok_mono; auto.
Qed.
Lemma xinv_new reg made closed dropped fires log m :
  xinv (Xs reg made closed dropped fires log) -> xinv (Xs reg made closed dropped (fires ++ [(m, FNew)]) (log ++ [VFire (length fires) m])).
Proof.
  intros [R L N T O]. cbn in *. constructor; cbn; auto.
  - eapply rinv_call; [eassumption|exact I|]. intros i (m0 & p0 & K & H). exists m0, p0. split; [apply in_or_app|]; auto.
  - apply linv_snoc; auto. cbn. intros e H K. exact (T (length fires) e (le_n _) K H).
  - intros g. rewrite app_length. cbn. split.
    + intros (m0 & H). apply in_snoc in H as [H|H]; [|injection H as <- <-; lia]. assert (g < length fires) by (apply N; eauto). lia.
    + intros H. destruct (Nat.eq_dec g (length fires)) as [->|D]; [exists m; apply in_snoc; auto|].
      assert (X : g < length fires) by lia. apply N in X as (m0 & X). exists m0. apply in_snoc. auto.
  - intros g e' H Y Z. rewrite app_length in H. cbn in H. apply in_snoc in Y as [Y|<-]; [eapply (T g e'); eauto; lia|contradiction].
  - intros g m0 p0 H. destruct (Nat.eq_dec g (length fires)) as [->|D].
    + rewrite nth_error_app2, Nat.sub_diag in H by lia. injection H as <- <-.
      assert (Z : invokes (length fires) (log ++ [VFire (length fires) m]) = []).
      { rewrite invokes_app. cbn. rewrite app_nil_r. destruct (invokes (length fires) log) as [|x l] eqn:Q; [reflexivity|].
        exfalso. refine (T (length fires) (VInvoke (length fires) x) (le_n _) _ eq_refl). apply invokes_in. rewrite Q. now left. }
      constructor; rewrite ?Z; cbn; auto; try discriminate.
      * constructor.
      * intros x [].
      * intros i [].
      * intros m' X. apply in_snoc in X as [X|X]; [|congruence]. assert (length fires < length fires) by (apply N; eauto). lia.
      * intros X. exfalso. destruct X as [X|(m1 & i & r & X & Y & W)].
        -- apply in_snoc in X as [X|X]; [|discriminate]. exact (T _ _ (le_n _) X eq_refl).
        -- apply in_snoc in Y as [Y|Y]; [|discriminate]. exact (T _ _ (le_n _) Y eq_refl).
    + rewrite nth_error_app1 in H by (assert (g < length (fires ++ [(m, FNew)])) by (apply nth_error_Some; congruence); rewrite app_length in *; cbn in *; lia).
      apply fok_mono; auto. cbn. congruence.
Qed.

Lemma x_put_snoc {X} (x y : X) l : x_put (length l) x (l ++ [y]) = l ++ [x].
Proof. induction l as [|z l IH]; cbn; [reflexivity|]. now rewrite IH. Qed.
Lemma not_ended f m p log e : fok f m p log -> p <> FOver -> ended f (log ++ [e]) ->
  e = VExit f \/ (exists i r, e = VRet f i r /\ halting m r) \/ exists m', e = VFire f m'.
Proof.
  intros K N [H|(m0 & i & r & H & H' & W)].
  - apply in_snoc in H as [H| ->]; auto. exfalso. apply N. apply (fo_ended _ _ _ _ K). left. assumption.
  - apply in_snoc in H as [H| ->]; [|eauto]. apply in_snoc in H' as [H'| ->].
    + exfalso. apply N. apply (fo_ended _ _ _ _ K). right. exists m0, i, r. auto.
    + rewrite <- (fo_mode _ _ _ _ K _ H). right. left. eauto.
Qed.
Lemma sorted_app_l l1 l2 : StronglySorted lt (l1 ++ l2) -> StronglySorted lt l1.
Proof. induction l1 as [|x l1 IH]; intros H; [constructor|]. inversion H; subst. constructor; auto. apply Forall_app in H3 as (H3 & _). assumption. Qed.
Lemma sorted_drop l1 x l2 : StronglySorted lt (l1 ++ x :: l2) -> StronglySorted lt (l1 ++ l2).
Proof.
  induction l1 as [|y l1 IH]; cbn; intros H; inversion H as [|? ? S F]; subst; [assumption|]. constructor; auto.
  apply Forall_app in F as (F1 & F2). inversion F2; subst. apply Forall_app. auto.
Qed.

Lemma plain_invokes f e log : (forall i, e <> VInvoke f i) -> invokes f (log ++ [e]) = invokes f log.
Proof.
  intros H. rewrite invokes_app. destruct e; cbn; rewrite ?app_nil_r; auto. destruct (_ =? _) eqn:Q; [|apply app_nil_r].
  apply Nat.eqb_eq in Q. subst. exfalso. eapply H; eauto.
Qed.
Lemma by_fire f e log g m : by_call f e -> In (VFire g m) (log ++ [e]) -> In (VFire g m) log.
Proof. intros B H. apply in_snoc in H as [H| ->]; [assumption|contradiction]. Qed.
Lemma fok_over f m p log e : fok f m p log -> by_call f e -> (forall i, e <> VInvoke f i) -> fok f m FOver (log ++ [e]).
Proof.
  intros K B X. constructor; auto; try discriminate.
  - rewrite plain_invokes by assumption. cbn. rewrite app_nil_r. eapply sorted_app_l, K.
  - intros i [].
  - intros i [].
  - intros m' H. eapply (fo_mode _ _ _ _ K), by_fire; eauto.
Qed.
(** what was owed before is owed after *)
Lemma fok_go f m p p' log e : fok f m p log -> p <> FOver -> p' <> FNew -> by_call f e ->
  StronglySorted lt (invokes f (log ++ [e]) ++ pend p') -> incl (pend p') (snap_of p') ->
  (forall i, In (VListen i) log -> ~ In (VClosed i) log -> ~ In (VDropped i) log -> p = FNew \/ In i (invokes f log) \/ In i (pend p) ->
     In i (invokes f (log ++ [e])) \/ In i (pend p')) ->
  (forall s i r, p' = FRead s i r -> In (VRead f i) (log ++ [e])) ->
  (forall i, In i (pend p') -> seen_by f i (log ++ [e])) ->
  e <> VExit f -> (forall i r, e = VRet f i r -> ~ halting m r) -> fok f m p' (log ++ [e]).
Proof.
  intros K N N' B S J A R Q X1 X2. constructor; auto.
  - intros Y. contradiction.
  - intros m' a b i X Y Z W. destruct (snoc_split _ _ _ _ _ X) as [(-> & -> & ->)|(b' & -> & X')]; [contradiction|].
    right. right. apply A.
    + rewrite X'. apply in_or_app. auto.
    + intros V. apply Z. apply in_snoc. auto.
    + intros V. apply W. apply in_snoc. auto.
    + destruct (fo_all _ _ _ _ K m' a b' i X' Y) as [H|[H|H]]; auto; try contradiction; intros V; [apply Z|apply W]; apply in_snoc; auto.
  - intros m' H. eapply (fo_mode _ _ _ _ K), by_fire; eauto.
  - intros H. exfalso. destruct (not_ended _ _ _ _ _ K N H) as [->|[(i & r & -> & W)|(m' & ->)]]; [congruence|eapply X2; eauto|contradiction].
Qed.

Lemma halting_stops m b : halting m (Some b) <-> x_stops m b = true.
Proof. destruct m, b; unfold halting; cbn; intuition (discriminate || auto). Qed.

Lemma xinv_step s a : xinv s -> xinv (x_step s a).
Proof.
  destruct s as [reg made closed dropped fires log]. intros I. pose proof (rinv_step _ a (xi_r _ I)) as R'.
  pose proof (xi_r _ I) as R. destruct a as [|i|i|m|f|f r]; cbn [x_step] in *.
  - eapply xinv_other; eauto.
  - destruct (i <? made); [|assumption]. eapply xinv_other; eauto.
  - destruct (i <? made); [|assumption]. eapply xinv_other; eauto.
  - destruct reg as [|i0 reg0].
    + pose proof (xinv_new _ _ _ _ _ _ m I) as J.
      change [VFire (length fires) m; VExit (length fires)] with ([VFire (length fires) m] ++ [VExit (length fires)]) in *. rewrite app_assoc in *.
      assert (E : nth_error (fires ++ [(m, FNew)]) (length fires) = Some (m, FNew)) by (rewrite nth_error_app2, Nat.sub_diag by lia; reflexivity).
      rewrite <- (x_put_snoc (m, FOver) (m, FNew) fires) in *. eapply xinv_call; eauto.
      * cbn. intros m' a b i X Y Z W. exfalso. pose proof (xi_r _ J) as Q. apply (ri_keep _ Q i).
        -- apply (ri_listen _ Q). cbn. rewrite X. apply in_or_app. auto.
        -- intros V. apply (ri_dropped _ Q) in V. auto.
      * reflexivity.
      * eapply fok_over; [exact (xi_ok _ J _ _ _ E)|reflexivity|discriminate].
    + now apply xinv_new.
  - destruct (nth_error fires f) as [[m [|snap [|i rest]|snap i rest|snap i rest|]]|] eqn:E; try assumption; pose proof (xi_ok _ I _ _ _ E) as K; cbn in K.
    + eapply xinv_call; eauto; [exact Logic.I|reflexivity|].
      pose proof (fo_new _ _ _ _ K eq_refl) as Z. eapply fok_go; eauto; try discriminate.
      * reflexivity.
      * rewrite plain_invokes, Z by discriminate. apply (ri_sorted _ R).
      * cbn. apply incl_refl.
      * intros i A _ B _. right. apply (ri_keep _ R); cbn in *; [now apply (ri_listen _ R)|]. intros V. now apply (ri_dropped _ R) in V.
      * cbn. intros i H. exists log, []. split; [reflexivity|]. apply (ri_listen _ R). cbn.
        pose proof (ri_below _ R) as F. cbn in F. rewrite Forall_forall in F. auto.
    + eapply xinv_call; eauto; [|reflexivity|].
      * cbn. intros m' a b i X Y Z W. apply invokes_in. destruct (fo_all _ _ _ _ K m' a b i X Y Z W) as [H|[H|[H|H]]]; try discriminate; [assumption|contradiction].
      * eapply fok_over; [exact K|reflexivity|discriminate].
    + destruct (x_mem i closed) eqn:Mi.
      * apply x_mem_in in Mi. pose proof (proj1 (ri_closed _ R i) Mi) as Ci. cbn in Ci.
        destruct I as [R0 L N T O]. cbn in *. constructor; cbn; auto.
        -- intros g. now rewrite x_put_length.
        -- intros g. rewrite x_put_length. apply T.
        -- intros g m0 p0 H. apply x_put_get in H as [(<- & H)|(D & H)]; [injection H as -> ->|auto].
           destruct K as [A B C D F G H J]. constructor; cbn in *; auto; try discriminate.
           ++ eapply sorted_drop; eauto.
           ++ intros x X. apply B. now right.
           ++ intros m' a b j X Y Z W. destruct (D m' a b j X Y Z W) as [V|[V|[V|[V|V]]]]; try discriminate; auto. subst j. contradiction.
           ++ intros X. specialize (J X). discriminate.
      * apply x_mem_notin in Mi. eapply xinv_call; eauto; [|reflexivity|].
        -- cbn. intros V. apply Mi. now apply (ri_closed _ R).
        -- eapply fok_go; eauto; try discriminate.
           ++ reflexivity.
           ++ rewrite plain_invokes by discriminate. apply K.
           ++ apply (fo_incl _ _ _ _ K).
           ++ intros j _ _ _ [H|H]; [discriminate|]. rewrite plain_invokes by discriminate. assumption.
           ++ intros s j r H. injection H as <- <- <-. apply in_snoc. auto.
           ++ intros j H. apply seen_snoc. now apply (fo_seen _ _ _ _ K).
    + assert (Q : invokes f (log ++ [VInvoke f i]) = invokes f log ++ [i]) by (rewrite invokes_app; cbn; now rewrite Nat.eqb_refl).
      eapply xinv_call; eauto; [|reflexivity|].
      * cbn. split; [eapply (fo_read _ _ _ _ K); eauto|]. split; [apply (fo_seen _ _ _ _ K); now left|].
        split; [intros V; apply (fo_ended _ _ _ _ K) in V; discriminate|]. pose proof (fo_sorted _ _ _ _ K) as V. cbn in V.
        change (i :: rest) with ([i] ++ rest) in V. rewrite app_assoc in V. eapply sorted_app_l; eauto.
      * eapply fok_go; eauto; try discriminate.
        -- reflexivity.
        -- rewrite Q, <- app_assoc. apply K.
        -- intros x X. apply (fo_incl _ _ _ _ K). now right.
        -- intros j _ _ _ [H|[H|[H|H]]]; [discriminate| | |]; rewrite Q, in_snoc; auto.
        -- intros j H. apply seen_snoc. apply (fo_seen _ _ _ _ K). now right.
  - destruct (nth_error fires f) as [[m [|snap [|i rest]|snap i rest|snap i rest|]]|] eqn:E; try assumption. pose proof (xi_ok _ I _ _ _ E) as K; cbn in K.
    destruct r as [b|]; [destruct (x_stops m b) eqn:Hs|].
    + eapply xinv_call; eauto; [exact Logic.I|reflexivity|]. eapply fok_over; [exact K|reflexivity|discriminate].
    + eapply xinv_call; eauto; [exact Logic.I|reflexivity|]. eapply fok_go; eauto; try discriminate.
      * reflexivity.
      * rewrite plain_invokes by discriminate. apply K.
      * apply (fo_incl _ _ _ _ K).
      * intros j _ _ _ [H|H]; [discriminate|]. rewrite plain_invokes by discriminate. assumption.
      * intros j H. apply seen_snoc. now apply (fo_seen _ _ _ _ K).
      * intros j r H. injection H as <- <-. rewrite halting_stops. congruence.
    + eapply xinv_call; eauto; [exact Logic.I|reflexivity|]. eapply fok_over; [exact K|reflexivity|discriminate].
Qed.
Lemma xinv_new_state : xinv x_new.
Proof.
  constructor; cbn.
  - constructor; cbn; try tauto; try constructor; try lia.
  - constructor; intros; try (destruct a; discriminate). + destruct a; [cbn in *; subst|discriminate]. tauto. + constructor.
  - intros f. split; [intros (m & [])|lia].
  - intros f e _ [].
  - intros [|f]; discriminate.
Qed.
Lemma xinv_fold acts s : xinv s -> xinv (fold_left x_step acts s).
Proof. revert s. induction acts as [|x acts IH]; intros s H; [assumption|]. cbn. apply IH. now apply xinv_step. Qed.
Lemma xinv_run acts : xinv (x_run acts).
Proof. apply xinv_fold, xinv_new_state. Qed.

(** ** a listener nobody refers to any more *)
Definition gone (i : nat) (s : xst) : Prop := i < x_made s /\ ~ In i (x_reg s) /\ ~ held i (x_fires s).
Lemma x_log_grows s a : exists b, x_log (x_step s a) = x_log s ++ b.
Proof.
  destruct s as [reg made closed dropped fires log]. destruct a as [|i|i|m|f|f r]; cbn [x_step x_log].
  - eauto.
  - destruct (i <? made); cbn; [eauto|]. exists []. now rewrite app_nil_r.
  - destruct (i <? made); cbn; [eauto|]. exists []. now rewrite app_nil_r.
  - destruct reg; cbn; eauto.
  - destruct (nth_error fires f) as [[m [|snap [|i rest]|snap i rest|snap i rest|]]|]; try destruct (x_mem i closed); cbn;
      first [eexists; reflexivity | exists []; now rewrite app_nil_r].
  - destruct (nth_error fires f) as [[m [|snap [|i rest]|snap i rest|snap i rest|]]|]; try (exists []; cbn; now rewrite app_nil_r).
    destruct r as [b|]; [destruct (x_stops m b)|]; cbn; eauto.
Qed.
Lemma not_held_put f m p m' p' fires i : ~ held i fires -> nth_error fires f = Some (m, p) -> (In i (snap_of p') -> In i (snap_of p)) ->
  ~ held i (x_put f (m', p') fires).
Proof.
  intros H E S (m0 & p0 & K & L). apply x_put_in in K as [K|K]; [injection K as -> ->|].
  - apply H. exists m, p. split; [eapply nth_error_In; eauto|auto].
  - apply H. exists m0, p0. auto.
Qed.
Lemma gone_step i s a : xinv s -> gone i s -> gone i (x_step s a) /\ forall f b, x_log (x_step s a) = x_log s ++ b -> ~ In (VInvoke f i) b.
Proof.
  destruct s as [reg made closed dropped fires log]. intros I (A & B & C). cbn in A, B, C.
  assert (N : forall (l : list xev) f j, l = l ++ f :: j -> False) by (intros l; induction l as [|x l IH]; intros f0 j H; [discriminate|injection H as H; eauto]).
  assert (Z : forall g b, log = log ++ b -> ~ In (VInvoke g i) b) by (intros g [|e b] H; [intros []|exfalso; eapply N, H]).
  assert (Z1 : forall e, (forall g, e <> VInvoke g i) -> forall g b, log ++ [e] = log ++ b -> ~ In (VInvoke g i) b).
  { intros e H g b X. apply app_inv_head in X. subst b. intros [Y|[]]. eapply H; eauto. }
  assert (Cl : forall d fs, ~ In i (x_clean reg d fs)) by (intros d fs H; apply x_clean_in in H as (H & _); auto).
  destruct a as [|j|j|m|f|f r]; cbn [x_step].
  - split; [split; [cbn; lia|split; cbn; auto]|cbn; apply Z1; discriminate]. intros H. apply in_snoc in H as [H|H]; [auto|lia].
  - destruct (j <? made); (split; [split; [cbn; lia|split; cbn; auto]|cbn]); [apply Z1; discriminate|auto].
  - destruct (j <? made); (split; [split; [cbn; lia|split; cbn; auto]|cbn]); [apply Z1; discriminate|auto].
  - assert (H : forall q, snap_of q = [] -> ~ held i (fires ++ [(m, q)])).
    { intros q Q (m0 & p0 & K & L). apply in_snoc in K as [K|K]; [apply C; exists m0, p0; auto|]. injection K as <- <-. rewrite Q in L. contradiction. }
    destruct reg; (split; [split; [cbn; lia|split; cbn; auto]|cbn]); [|apply Z1; discriminate].
    intros g b X. apply app_inv_head in X. subst b. intros [Y|[Y|[]]]; discriminate.
  - destruct (nth_error fires f) as [[m [|snap [|k rest]|snap k rest|snap k rest|]]|] eqn:E.
    + split; [split; [cbn; lia|split; cbn; auto]|cbn; apply Z1; discriminate]. intros (m0 & p0 & K & L). apply x_put_in in K as [K|K].
      * injection K as -> ->. auto.
      * apply C. exists m0, p0. auto.
    + split; [split; [cbn; lia|split; cbn; auto]|cbn; apply Z1; discriminate]. eapply not_held_put; eauto. cbn. tauto.
    + destruct (x_mem k closed); (split; [split; [cbn; lia|split; cbn; auto]|cbn]); try (eapply not_held_put; eauto); auto. apply Z1; discriminate.
    + split; [split; [cbn; lia|split; cbn; auto]|cbn; apply Z1].
      * eapply not_held_put; eauto.
      * intros g X. injection X as _ ->. apply C. exists m, (FRead snap i rest). split; [eapply nth_error_In; eauto|].
        apply (fo_incl _ _ _ _ (xi_ok _ I _ _ _ E)). now left.
    + split; [split; [cbn; lia|split; cbn; auto]|cbn; auto].
    + split; [split; [cbn; lia|split; cbn; auto]|cbn; auto].
    + split; [split; [cbn; lia|split; cbn; auto]|cbn; auto].
  - destruct (nth_error fires f) as [[m [|snap rest|snap k rest|snap k rest|]]|] eqn:E; try (split; [split; [cbn; lia|split; cbn; auto]|cbn; now auto]).
    destruct r as [b|]; [destruct (x_stops m b)|]; (split; [split; [cbn; lia|split; cbn; auto]|cbn; apply Z1; discriminate]); eapply not_held_put; eauto; cbn; tauto.
Qed.
Lemma gone_fold i acts s : xinv s -> gone i s -> forall f b, x_log (fold_left x_step acts s) = x_log s ++ b -> ~ In (VInvoke f i) b.
Proof.
  revert s. induction acts as [|a acts IH]; intros s I G f b E; cbn in E.
  - destruct b as [|e b]; [intros []|]. exfalso. clear - E. induction (x_log s) as [|x l IH]; [discriminate|injection E as E; auto].
  - destruct (gone_step i s a I G) as (G' & H). destruct (x_log_grows s a) as (b1 & E1).
    assert (X : exists b2, x_log (fold_left x_step acts (x_step s a)) = x_log (x_step s a) ++ b2).
    { clear. generalize (x_step s a). induction acts as [|y acts IH]; intros t; [exists []; now rewrite app_nil_r|].
      cbn. destruct (IH (x_step t y)) as (b2 & ->). destruct (x_log_grows t y) as (b3 & ->). rewrite <- app_assoc. eauto. }
    destruct X as (b2 & X). pose proof X as X'. rewrite E, E1, <- app_assoc in X'. apply app_inv_head in X'. subst b.
    rewrite in_app_iff. intros [Y|Y]; [eapply H; eauto|]. eapply (IH _ (xinv_step _ a I) G'); eauto.
Qed.
Lemma quiescent_gone i s : xinv s -> quiescent (x_log s) -> In (VDropped i) (x_log s) -> gone i s.
Proof.
  intros I Q D. pose proof (xi_r _ I) as R.
  assert (H : ~ held i (x_fires s)).
  { intros (m & p & K & L). apply In_nth_error in K as (f & K).
    assert (F : f < length (x_fires s)) by (apply nth_error_Some; congruence). apply (xi_fires _ I) in F as (m' & F).
    apply Q in F. apply (fo_ended _ _ _ _ (xi_ok _ I _ _ _ K)) in F. subst p. contradiction. }
  apply (ri_dropped _ R) in D. split; [|split; [|assumption]].
  - now apply (ri_made _ R).
  - intros X. apply H. now apply (ri_held _ R).
Qed.
