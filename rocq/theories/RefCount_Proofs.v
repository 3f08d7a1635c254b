From Coq Require Import List ZArith Lia Bool.
From Verif Require Import PyBase RefCount_Model RefCount_Spec.
Import ListNotations.
Open Scope Z_scope.

Lemma balance_app a b : balance (a ++ b) = balance a + balance b.
Proof. induction a as [|[] a IH]; simpl; lia. Qed.

(** The invariant: counts, and where the hook is. *)
Record rc_inv (s : rc) : Prop := {
  inv_count : rc_count s = balance (rc_log s);
  inv_pos : 0 <= rc_count s;
  inv_nonneg : never_negative (rc_log s);
  inv_active : rc_active s = true -> ~ In EvHook (rc_log s) /\ (forall u v, rc_log s = u ++ v -> ~ ends_at_zero u);
  inv_inactive : rc_active s = false ->
    exists t1 t2, rc_log s = t1 ++ EvHook :: t2 /\ ends_at_zero t1 /\ ~ In EvHook t1 /\ ~ In EvHook t2 /\
       (forall u v, t1 = u ++ v -> v <> [] -> ~ ends_at_zero u) }.

Lemma app_snoc_split {A} (l : list A) x u v :
  l ++ [x] = u ++ v -> (v = [] /\ u = l ++ [x]) \/ (exists v', v = v' ++ [x] /\ l = u ++ v').
Proof.
  intros H. destruct v as [|y v] using rev_ind.
  - left. rewrite app_nil_r in H. auto.
  - right. rewrite app_assoc in H. apply app_inj_tail in H as [H ->]. eauto.
Qed.

Lemma never_negative_snoc t e : never_negative t -> 0 <= balance (t ++ [e]) -> never_negative (t ++ [e]).
Proof.
  intros Hn Hb u v E. destruct (app_snoc_split _ _ _ _ E) as [[-> ->]|(v' & -> & ->)]; [exact Hb|].
  apply (Hn u v'). reflexivity.
Qed.

Lemma rc_inv_new : rc_inv rc_new.
Proof.
  constructor; simpl; try lia; try discriminate.
  - intros u v E. destruct u; [simpl; lia|discriminate].
  - intros _. split; [tauto|]. intros u v E. destruct u; [|discriminate].
    intros (t0 & E0 & _). destruct t0; discriminate.
Qed.

(** appending a plain (non hook) event that is not a first checked drop to zero keeps the invariant *)
Lemma rc_inv_plain s c e :
  rc_inv s -> e <> EvHook -> c = balance (rc_log s ++ [e]) -> 0 <= c ->
  (rc_active s = true -> ~ (e = EvRemove true /\ c = 0)) ->
  rc_inv (rc_emit (Rc c (rc_active s) (rc_log s)) e).
Proof.
  intros [I1 I2 I3 I4 I5] He Hc Hpos Hz. constructor; simpl.
  - exact Hc.
  - exact Hpos.
  - apply never_negative_snoc; [exact I3|lia].
  - intros Ha. destruct (I4 Ha) as [Hn Hu]. split.
    + rewrite in_app_iff. intros [H|[H|[]]]; [tauto|congruence].
    + intros u v E. destruct (app_snoc_split _ _ _ _ E) as [[-> ->]|(v' & -> & E')]; [|eapply Hu; exact E'].
      intros (t0 & E0 & Hb). apply app_inj_tail in E0 as [_ ->]. apply (Hz Ha). split; [reflexivity|lia].
  - intros Ha. destruct (I5 Ha) as (t1 & t2 & E & Hz1 & Hn1 & Hn2 & Hu).
    exists t1, (t2 ++ [e]). rewrite E, <- app_assoc. simpl. repeat split; auto.
    rewrite in_app_iff. intros [H|[H|[]]]; [tauto|congruence].
Qed.


Lemma rc_step_inactive d hook s o :
  rc_inv s -> rc_active s = false ->
  exists s' e, rc_step d hook s o = Some (s', e) /\ rc_inv s' /\ rc_active s' = false.
Proof.
  intros Hi Ha. pose proof Hi as [I1 I2 _ _ _].
  destruct o as [|check]; destruct d; simpl.
  1,2: (eexists _, _; split; [reflexivity|]; split; [|exact Ha];
    apply (rc_inv_plain s); auto; [discriminate|rewrite balance_app; simpl; lia|lia|congruence]).
  - destruct (Z.leb_spec (rc_count s) 0); [eexists _, _; eauto|].
    rewrite Ha. simpl. eexists _, _; split; [reflexivity|]. split; [|reflexivity].
    rewrite <- Ha. apply (rc_inv_plain s); auto; [discriminate|rewrite balance_app; simpl; lia|lia|congruence].
  - destruct (Z.leb_spec (rc_count s) 0); [eexists _, _; eauto|].
    rewrite Ha. simpl. eexists _, _; split; [reflexivity|]. split; [|reflexivity].
    rewrite <- Ha. apply (rc_inv_plain s); auto; [discriminate|rewrite balance_app; simpl; lia|lia|congruence].
Qed.

Lemma rc_script_inactive d hook l s :
  rc_inv s -> rc_active s = false ->
  exists s' e, rc_script (rc_step d hook) s l = Some (s', e) /\ rc_inv s' /\ rc_active s' = false.
Proof.
  revert s. induction l as [|o l IH]; intros s Hi Ha; simpl; [eauto|].
  destruct (rc_step_inactive d hook s o Hi Ha) as (s' & e & E & Hi' & Ha'). rewrite E.
  destruct e; [eauto|]. apply IH; assumption.
Qed.

Lemma rc_step_inv d hook s o :
  rc_inv s -> exists s' e, rc_step (S d) hook s o = Some (s', e) /\ rc_inv s'.
Proof.
  intros Hi. pose proof Hi as [I1 I2 I3 I4 I5].
  destruct o as [|check]; cbn [rc_step].
  - eexists _, _; split; [reflexivity|].
    apply (rc_inv_plain s); auto; [discriminate|rewrite balance_app; simpl; lia|lia|].
    intros _ [H _]; discriminate.
  - destruct (Z.leb_spec (rc_count s) 0) as [Hle|Hgt]; [eexists _, _; eauto|].
    cbn [rc_emit rc_active rc_count].
    destruct (rc_active s && (rc_count s - 1 =? 0) && check)%bool eqn:Hc.
    + apply andb_prop in Hc as [Hc ->]. apply andb_prop in Hc as [Ha Hz]. apply Z.eqb_eq in Hz.
      edestruct (rc_script_inactive d hook hook) as (s' & e & E & Hi' & Ha').
      3:{ rewrite E. eauto. }
      2:{ reflexivity. }
      constructor; cbn [rc_emit rc_count rc_active rc_log].
      * rewrite !balance_app. simpl. lia.
      * lia.
      * apply never_negative_snoc; [apply never_negative_snoc; [exact I3|]|]; rewrite ?balance_app; simpl; lia.
      * discriminate.
      * intros _. destruct (I4 Ha) as [Hn Hu]. exists (rc_log s ++ [EvRemove true]), [].
        split; [reflexivity|]. split.
        { exists (rc_log s). split; [reflexivity|]. rewrite balance_app. simpl. lia. }
        split; [rewrite in_app_iff; intros [H|[H|[]]]; [tauto|discriminate]|].
        split; [tauto|].
        intros u v E0 Hv. destruct (app_snoc_split _ _ _ _ E0) as [[-> _]|(v' & -> & E')]; [congruence|].
        eapply Hu. exact E'.
    + eexists _, _; split; [reflexivity|].
      change (rc_inv (rc_emit (Rc (rc_count s - 1) (rc_active s) (rc_log s)) (EvRemove check))).
      apply (rc_inv_plain s); auto; [discriminate|rewrite balance_app; simpl; lia|lia|].
      intros Ha [Hch Hz]. injection Hch as ->. rewrite Ha, Hz in Hc. discriminate.
Qed.

Lemma rc_run_inv d hook s h :
  rc_inv s -> exists s', rc_run (S d) hook s h = Some s' /\ rc_inv s'.
Proof.
  revert s. induction h as [|o h IH]; intros s Hi; cbn [rc_run]; [eauto|].
  destruct (rc_step_inv d hook s o Hi) as (s' & e & E & Hi'). rewrite E. apply IH. exact Hi'.
Qed.

Lemma no_second_hook t1 t2 u1 u2 :
  t1 ++ EvHook :: t2 = u1 ++ EvHook :: u2 -> ~ In EvHook t1 -> ~ In EvHook t2 -> t1 = u1 /\ t2 = u2.
Proof.
  revert u1. induction t1 as [|x t1 IH]; intros [|y u1] E H1 H2; simpl in *.
  - injection E as ->. auto.
  - injection E as <- ->. exfalso. apply H2. rewrite in_app_iff. simpl. auto.
  - injection E as -> _. tauto.
  - injection E as -> E. destruct (IH u1 E) as [-> ->]; auto.
Qed.

Lemma refcount_lemma d hook h :
  exists s, rc_run (S d) hook rc_new h = Some s /\
    rc_count s = balance (rc_log s) /\ never_negative (rc_log s) /\ hook_discipline (rc_log s).
Proof.
  destruct (rc_run_inv d hook rc_new h rc_inv_new) as (s & E & [I1 I2 I3 I4 I5]).
  exists s. split; [exact E|]. split; [exact I1|]. split; [exact I3|].
  destruct (rc_active s) eqn:Ha.
  - destruct (I4 eq_refl) as [Hn Hu]. split.
    + intros t1 t2 E'. exfalso. apply Hn. rewrite E', in_app_iff. simpl. auto.
    + intros t1 t2 E' Hz. exfalso. exact (Hu t1 t2 E' Hz).
  - destruct (I5 eq_refl) as (t1 & t2 & E' & Hz & Hn1 & Hn2 & Hu). split.
    + intros u1 u2 Eu. rewrite E' in Eu. destruct (no_second_hook _ _ _ _ Eu Hn1 Hn2) as [<- <-].
      repeat split; auto.
    + intros _ _ _ _. rewrite E', in_app_iff. simpl. auto.
Qed.

Lemma remove_at_zero_lemma d hook s check :
  rc_count s = 0 -> rc_step d hook s (RemoveRef check) = Some (s, Some AssertionError).
Proof. intros H. destruct d; simpl; rewrite H; reflexivity. Qed.

Lemma log_extends_step d hook s o s' e :
  rc_step d hook s o = Some (s', e) -> exists t, rc_log s' = rc_log s ++ t.
Proof.
  revert s o s' e. induction d as [|d IH]; intros s o s' e.
  - destruct o as [|check]; cbn [rc_step].
    + intros [= <- <-]. simpl. eauto.
    + destruct (rc_count s <=? 0); [intros [= <- <-]; exists []; rewrite app_nil_r; reflexivity|].
      cbn [rc_emit rc_active rc_count]. destruct (_ && _ && _)%bool; [discriminate|].
      intros [= <- <-]. simpl. eauto.
  - assert (Hs : forall l s s' e, rc_script (rc_step d hook) s l = Some (s', e) -> exists t, rc_log s' = rc_log s ++ t).
    { clear s o s' e. intros l. induction l as [|o l IHl]; intros s s' e; simpl.
      - intros [= <- <-]. exists []. rewrite app_nil_r. reflexivity.
      - destruct (rc_step d hook s o) as [[s1 [e1|]]|] eqn:E; [| |discriminate].
        + intros [= <- <-]. eapply IH. exact E.
        + intros E2. destruct (IH _ _ _ _ E) as [t1 H1]. destruct (IHl _ _ _ E2) as [t2 H2].
          rewrite H2, H1, <- app_assoc. eauto. }
    destruct o as [|check]; cbn [rc_step].
    + intros [= <- <-]. simpl. eauto.
    + destruct (rc_count s <=? 0); [intros [= <- <-]; exists []; rewrite app_nil_r; reflexivity|].
      cbn [rc_emit rc_active rc_count]. destruct (_ && _ && _)%bool.
      * intros E. destruct (Hs _ _ _ _ E) as [t H]. rewrite H. simpl. rewrite <- !app_assoc. eauto.
      * intros [= <- <-]. simpl. eauto.
Qed.

(** the client's own operations are in the trace *)
Lemma add_ref_lemma d hook s :
  rc_step d hook s AddRef = Some (Rc (rc_count s + 1) (rc_active s) (rc_log s ++ [EvAdd]), None).
Proof. destruct d; reflexivity. Qed.

Lemma remove_ref_lemma d hook s check s' e :
  0 < rc_count s -> rc_step d hook s (RemoveRef check) = Some (s', e) ->
  exists t, rc_log s' = rc_log s ++ EvRemove check :: t /\
    (t <> [] -> exists t', t = EvHook :: t') /\ (t = [] -> rc_count s' = rc_count s - 1 /\ e = None).
Proof.
  intros Hp. destruct d as [|d]; cbn [rc_step];
    (destruct (Z.leb_spec (rc_count s) 0); [lia|]); cbn [rc_emit rc_active rc_count];
    destruct (_ && _ && _)%bool.
  - discriminate.
  - intros [= <- <-]. exists []. simpl. split; [reflexivity|]. split; [congruence|auto].
  - intros E.
    assert (Hs : forall l s s' e, rc_script (rc_step d hook) s l = Some (s', e) -> exists t, rc_log s' = rc_log s ++ t).
    { clear. intros l. induction l as [|o l IHl]; intros s s' e; simpl.
      - intros [= <- <-]. exists []. rewrite app_nil_r. reflexivity.
      - destruct (rc_step d hook s o) as [[s1 [e1|]]|] eqn:E; [| |discriminate].
        + intros [= <- <-]. eapply log_extends_step. exact E.
        + intros E2. destruct (log_extends_step _ _ _ _ _ _ E) as [t1 H1]. destruct (IHl _ _ _ E2) as [t2 H2].
          rewrite H2, H1, <- app_assoc. eauto. }
    destruct (Hs _ _ _ _ E) as [t H1]. simpl in H1. exists (EvHook :: t). split.
    { rewrite H1, <- !app_assoc. reflexivity. }
    split; [eauto|discriminate].
  - intros [= <- <-]. exists []. simpl. split; [reflexivity|]. split; [congruence|auto].
Qed.
