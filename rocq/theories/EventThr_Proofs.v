(** Lemmas about events used by threads. *)
From Coq Require Import List Bool Arith Lia Sorted.
From Verif Require Import PyBase EventThr_Model EventThr_Spec.
Import ListNotations.

Lemma x_put_length {X} i (x : X) l : length (x_put i x l) = length l.
Proof. revert i. induction l as [|y l IH]; intros [|i]; cbn; auto. Qed.
Lemma x_put_same {X} i (x y : X) l : nth_error l i = Some y -> nth_error (x_put i x l) i = Some x.
Proof. revert i. induction l as [|z l IH]; intros [|i]; cbn; try discriminate; auto. Qed.
Lemma x_put_other {X} i j (x : X) l : i <> j -> nth_error (x_put i x l) j = nth_error l j.
Proof. revert i j. induction l as [|z l IH]; intros [|i] [|j] H; cbn; auto; contradiction. Qed.
Lemma x_put_get {X} i j (x y : X) l : nth_error (x_put i x l) j = Some y -> (i = j /\ y = x) \/ (i <> j /\ nth_error l j = Some y).
Proof.
  intros H. destruct (Nat.eq_dec i j) as [->|N]; [left|right; now rewrite x_put_other in H]. split; auto.
  destruct (nth_error l j) eqn:E; [rewrite (x_put_same _ _ _ _ E) in H; congruence|].
  apply nth_error_None in E. rewrite <- (x_put_length j x l) in E. apply nth_error_None in E. congruence.
Qed.
Lemma x_put_in {X} i (x y : X) l : In y (x_put i x l) -> y = x \/ In y l.
Proof. intros H. apply In_nth_error in H as (j & H). apply x_put_get in H as [(_ & ->)|(_ & H)]; auto. right. eapply nth_error_In; eauto. Qed.
Lemma x_mem_in i l : x_mem i l = true <-> In i l.
Proof. unfold x_mem. rewrite existsb_exists. split; [intros (x & H & E); apply Nat.eqb_eq in E; now subst|intros H; exists i; now rewrite Nat.eqb_refl]. Qed.
Lemma x_mem_notin i l : x_mem i l = false <-> ~ In i l.
Proof. rewrite <- x_mem_in. destruct (x_mem i l); intuition congruence. Qed.
Lemma snoc_split {X} (l a b : list X) e x : l ++ [e] = a ++ x :: b ->
  (b = [] /\ e = x /\ l = a) \/ exists b', b = b' ++ [e] /\ l = a ++ x :: b'.
Proof.
  intros H. destruct b as [|z b0].
  - left. apply app_inj_tail in H as [-> ->]. auto.
  - right. destruct (exists_last (l := z :: b0) ltac:(discriminate)) as (b' & y & E). rewrite E in *.
    change (a ++ x :: b' ++ [y]) with (a ++ (x :: b') ++ [y]) in H. rewrite app_assoc in H. apply app_inj_tail in H as [-> ->]. eauto.
Qed.
Lemma in_snoc {X} (x y : X) l : In x (l ++ [y]) <-> In x l \/ y = x.
Proof. rewrite in_app_iff. cbn. intuition. Qed.
Lemma invokes_app f a b : invokes f (a ++ b) = invokes f a ++ invokes f b.
Proof. induction a as [|[] a IH]; cbn; auto. destruct (_ =? _); cbn; now rewrite IH. Qed.
Lemma invokes_in f i l : In i (invokes f l) <-> In (VInvoke f i) l.
Proof.
  induction l as [|[] l IH]; cbn; try (rewrite IH; intuition discriminate); [tauto|].
  destruct (_ =? _) eqn:E; [apply Nat.eqb_eq in E; subst|apply Nat.eqb_neq in E]; cbn; rewrite IH; intuition congruence.
Qed.

(** ** which listeners are registered *)
Definition held (i : nat) (fires : list (mode * xpc)) : Prop := exists m p, In (m, p) fires /\ In i (snap_of p).
Lemma x_clean_in i reg dropped fires : In i (x_clean reg dropped fires) <-> In i reg /\ (~ In i dropped \/ held i fires).
Proof.
  unfold x_clean. rewrite filter_In, orb_true_iff, negb_true_iff, x_mem_notin, existsb_exists. split.
  - intros (H & [K|((m & p) & K & L)]); split; auto. right. exists m, p. apply x_mem_in in L. auto.
  - intros (H & [K|(m & p & K & L)]); split; auto. right. exists (m, p). split; [assumption|]. now apply x_mem_in.
Qed.
Lemma sorted_filter (P : nat -> bool) l : StronglySorted lt l -> StronglySorted lt (filter P l).
Proof.
  induction 1 as [|x l S IH F]; cbn; [constructor|]. destruct (P x); auto. constructor; auto.
  apply Forall_forall. intros y H. apply filter_In in H as (H & _). revert y H. now apply Forall_forall.
Qed.
Lemma sorted_snoc l n : StronglySorted lt l -> Forall (fun i => i < n) l -> StronglySorted lt (l ++ [n]).
Proof.
  induction 1 as [|x l S IH F]; intros G; cbn; [repeat constructor|]. inversion G; subst. constructor; auto.
  apply Forall_app. auto.
Qed.

Record rinv (s : xst) : Prop := {
  ri_sorted : StronglySorted lt (x_reg s);
  ri_below : Forall (fun i => i < x_made s) (x_reg s);
  ri_listen : forall i, In (VListen i) (x_log s) <-> i < x_made s;
  ri_closed : forall i, In i (x_closed s) <-> In (VClosed i) (x_log s);
  ri_dropped : forall i, In i (x_dropped s) <-> In (VDropped i) (x_log s);
  ri_made : forall i, In i (x_dropped s) -> i < x_made s;
  ri_keep : forall i, i < x_made s -> ~ In i (x_dropped s) -> In i (x_reg s);
  ri_held : forall i, In i (x_reg s) -> In i (x_dropped s) -> held i (x_fires s) }.

(** an event of a call changes nothing of this *)
Definition ofcall (e : xev) : Prop := match e with VListen _ | VClosed _ | VDropped _ => False | _ => True end.
Lemma rinv_call reg made closed dropped fires log fires' e : rinv (Xs reg made closed dropped fires log) -> ofcall e ->
  (forall i, held i fires -> held i fires') -> rinv (Xs reg made closed dropped fires' (log ++ [e])).
Proof.
  intros [A B C D E M F G] O H. constructor; cbn in *; auto.
  - intros i. rewrite in_snoc, C. destruct e; cbn in O; intuition discriminate.
  - intros i. rewrite in_snoc, D. destruct e; cbn in O; intuition discriminate.
  - intros i. rewrite in_snoc, E. destruct e; cbn in O; intuition discriminate.
Qed.
Lemma rinv_silent reg made closed dropped fires log fires' : rinv (Xs reg made closed dropped fires log) ->
  (forall i, held i fires -> held i fires') -> rinv (Xs reg made closed dropped fires' log).
Proof. intros [A B C D E M F G] H. constructor; cbn in *; auto. Qed.
Lemma rinv_over reg made closed dropped fires log fires' e : rinv (Xs reg made closed dropped fires log) -> ofcall e ->
  rinv (Xs (x_clean reg dropped fires') made closed dropped fires' (log ++ [e])).
Proof.
  intros [A B C D E M F G] O. constructor; cbn in *; auto.
  - now apply sorted_filter.
  - apply Forall_forall. intros i H. apply x_clean_in in H as (H & _). revert i H. now apply Forall_forall.
  - intros i. rewrite in_snoc, C. destruct e; cbn in O; intuition discriminate.
  - intros i. rewrite in_snoc, D. destruct e; cbn in O; intuition discriminate.
  - intros i. rewrite in_snoc, E. destruct e; cbn in O; intuition discriminate.
  - intros i H K. apply x_clean_in. auto.
  - intros i H K. apply x_clean_in in H as (H & [L|L]); tauto.
Qed.
Lemma held_put f m m' p p' fires i : nth_error fires f = Some (m, p) -> (In i (snap_of p) -> In i (snap_of p')) ->
  held i fires -> held i (x_put f (m', p') fires).
Proof.
  intros E H (m0 & p0 & K & L). apply In_nth_error in K as (j & K). destruct (Nat.eq_dec f j) as [->|N].
  - rewrite E in K. injection K as <- <-. exists m', p'. split; [|auto]. eapply nth_error_In, x_put_same, E.
  - exists m0, p0. split; [|assumption]. apply (nth_error_In _ j). now rewrite x_put_other.
Qed.
Lemma rinv_step s a : rinv s -> rinv (x_step s a).
Proof.
  destruct s as [reg made closed dropped fires log]. intros I. destruct a as [|i|i|m|f|f r]; cbn [x_step].
  - destruct I as [A B C D E M F G]; constructor; cbn in *.
    + now apply sorted_snoc.
    + apply Forall_app. split; [|repeat constructor]. eapply Forall_impl; [|exact B]. cbn. lia.
    + intros i. rewrite in_snoc, C. split; [intros [H|H]; [lia|injection H as <-; lia]|]. intros H.
      destruct (Nat.eq_dec i made) as [->|N]; [auto|left; lia].
    + intros i. rewrite in_snoc, D. intuition discriminate.
    + intros i. rewrite in_snoc, E. intuition discriminate.
    + intros i H. apply M in H. lia.
    + intros i H K. apply in_snoc. destruct (Nat.eq_dec made i) as [->|N]; [auto|]. left. apply F; [lia|assumption].
    + intros i H K. apply in_snoc in H as [H|<-]; auto. apply E in K.
      apply E, M in K. lia.
  - destruct (i <? made); [|assumption]. destruct I as [A B C D E M F G]; constructor; cbn in *; auto.
    + intros j. rewrite in_snoc, C. intuition discriminate.
    + intros j. rewrite in_snoc, D. intuition congruence.
    + intros j. rewrite in_snoc, E. intuition discriminate.
  - destruct (i <? made) eqn:L0; [|assumption]. apply Nat.ltb_lt in L0. destruct I as [A B C D E M F G]; constructor; cbn in *; auto.
    + now apply sorted_filter.
    + apply Forall_forall. intros j H. apply x_clean_in in H as (H & _). revert j H. now apply Forall_forall.
    + intros j. rewrite in_snoc, C. intuition discriminate.
    + intros j. rewrite in_snoc, D. intuition discriminate.
    + intros j. rewrite in_snoc, E. intuition congruence.
    + intros j [<-|H]; auto.
    + intros j H K. apply x_clean_in. split; [apply F|left]; cbn; tauto.
    + intros j H K. apply x_clean_in in H as (H & [L|L]); cbn in *; tauto.
  - assert (H : forall q i, held i fires -> held i (fires ++ [(m, q)])).
    { intros q i (m0 & p0 & K & L). exists m0, p0. split; [apply in_or_app|]; auto. }
    destruct reg.
    + change [VFire (length fires) m; VExit (length fires)] with ([VFire (length fires) m] ++ [VExit (length fires)]).
      rewrite app_assoc. eapply rinv_call; [|exact Logic.I|intros i K; exact K]. eapply rinv_call; eauto. exact Logic.I.
    + eapply rinv_call; eauto. exact Logic.I.
  - destruct (nth_error fires f) as [[m [|snap [|i rest]|snap i rest|snap i rest|]]|] eqn:E; try assumption.
    + eapply rinv_call; eauto; [exact Logic.I|]. intros i. eapply held_put; eauto. cbn. tauto.
    + eapply rinv_over; eauto. exact Logic.I.
    + destruct (x_mem i closed).
      * eapply rinv_silent; eauto. intros j. eapply held_put; eauto.
      * eapply rinv_call; eauto; [exact Logic.I|]. intros j. eapply held_put; eauto.
    + eapply rinv_call; eauto; [exact Logic.I|]. intros j. eapply held_put; eauto.
  - destruct (nth_error fires f) as [[m [|snap [|i rest]|snap i rest|snap i rest|]]|] eqn:E; try assumption.
    destruct r as [b|]; [destruct (x_stops m b)|].
    + eapply rinv_over; eauto. exact Logic.I.
    + eapply rinv_call; eauto; [exact Logic.I|]. intros j. eapply held_put; eauto.
    + eapply rinv_over; eauto. exact Logic.I.
Qed.

(** ** the calls *)
Definition pend (p : xpc) : list nat :=
  match p with FNew | FOver => [] | FList _ r | FIn _ _ r => r | FRead _ i r => i :: r end.
Definition seen_by (f i : nat) (log : list xev) : Prop := exists a1 a2, log = a1 ++ VSnap f :: a2 /\ In (VListen i) a1.

Record fok (f : nat) (m : mode) (p : xpc) (log : list xev) : Prop := {
  fo_sorted : StronglySorted lt (invokes f log ++ pend p);
  fo_incl : incl (pend p) (snap_of p);
  fo_new : p = FNew -> invokes f log = [];
  fo_all : forall m' a b i, log = a ++ VFire f m' :: b -> In (VListen i) a -> ~ In (VClosed i) log -> ~ In (VDropped i) log ->
           p = FNew \/ p = FOver \/ In i (invokes f log) \/ In i (pend p);
  fo_read : forall s i r, p = FRead s i r -> In (VRead f i) log;
  fo_seen : forall i, In i (pend p) -> seen_by f i log;
  fo_mode : forall m', In (VFire f m') log -> m' = m;
  fo_ended : ended f log -> p = FOver }.

Definition foreign (f : nat) (e : xev) : Prop :=
  match e with VFire g _ | VInvoke g _ | VRet g _ _ | VExit g => g <> f | _ => True end.
Lemma foreign_invokes f e log : foreign f e -> invokes f (log ++ [e]) = invokes f log.
Proof. intros H. rewrite invokes_app. destruct e; cbn; try apply app_nil_r. cbn in H. apply Nat.eqb_neq in H. rewrite H. apply app_nil_r. Qed.
Lemma seen_snoc f i e log : seen_by f i log -> seen_by f i (log ++ [e]).
Proof. intros (a1 & a2 & -> & H). exists a1, (a2 ++ [e]). rewrite <- app_assoc. auto. Qed.
Lemma foreign_ended f e log : foreign f e -> ended f (log ++ [e]) -> ended f log.
Proof.
  intros H [K|(m & i & r & K & L & N)].
  - apply in_snoc in K as [K| ->]; [left; assumption|]. cbn in H. congruence.
  - right. exists m, i, r. apply in_snoc in K as [K| ->]; [|cbn in H; congruence]. apply in_snoc in L as [L| ->]; [|cbn in H; congruence]. auto.
Qed.
Lemma fok_mono f m p log e : fok f m p log -> foreign f e -> fok f m p (log ++ [e]).
Proof.
  intros [A B C D E F G H] O. constructor; rewrite ?(foreign_invokes f e log O); auto.
  - intros m' a b i X Y Z W. destruct (snoc_split _ _ _ _ _ X) as [(-> & -> & ->)|(b' & -> & X')]; [cbn in O; congruence|].
    eapply D; eauto; intros V; [apply Z|apply W]; apply in_snoc; auto.
  - intros s i r X. apply in_snoc. left. eapply E; eauto.
  - intros i X. apply seen_snoc. auto.
  - intros m' X. apply in_snoc in X as [X| ->]; auto. cbn in O. congruence.
  - intros X. apply H. eapply foreign_ended; eauto.
Qed.

Definition by_call (f : nat) (e : xev) : Prop :=
  match e with VSnap g | VRead g _ | VInvoke g _ | VRet g _ _ | VExit g => g = f | _ => False end.
Record linv (log : list xev) : Prop := {
  li_exit : forall f m a b c i, log = a ++ VFire f m :: b ++ VExit f :: c -> In (VListen i) a ->
            ~ In (VClosed i) (a ++ b) -> ~ In (VDropped i) (a ++ b) -> In (VInvoke f i) b;
  li_read : forall f i a b, log = a ++ VClosed i :: b -> ~ In (VRead f i) b;
  li_close : forall f i a b, log = a ++ VClosed i :: b -> In (VInvoke f i) b -> In (VRead f i) a;
  li_seen : forall f i a b, log = a ++ VInvoke f i :: b -> seen_by f i a;
  li_before : forall f m a b e, log = a ++ VFire f m :: b -> by_call f e -> ~ In e a;
  li_over : forall f a b i, log = a ++ b -> ended f a -> ~ In (VInvoke f i) b;
  li_sorted : forall f, StronglySorted lt (invokes f log) }.
(** what is needed of a new event *)
Definition fresh (log : list xev) (e : xev) : Prop :=
  match e with
  | VFire f _ => forall e', by_call f e' -> ~ In e' log
  | VRead f i => ~ In (VClosed i) log
  | VInvoke f i => In (VRead f i) log /\ seen_by f i log /\ ~ ended f log /\ StronglySorted lt (invokes f log ++ [i])
  | VExit f => forall m a b i, log = a ++ VFire f m :: b -> In (VListen i) a -> ~ In (VClosed i) log -> ~ In (VDropped i) log -> In (VInvoke f i) log
  | _ => True
  end.
Lemma linv_snoc log e : linv log -> fresh log e -> linv (log ++ [e]).
Proof.
  intros [A B C D E F G] O. constructor.
  - intros f m a b c i X Y Z W. change (VFire f m :: b ++ VExit f :: c) with ((VFire f m :: b) ++ VExit f :: c) in X. rewrite app_assoc in X.
    destruct (snoc_split _ _ _ _ _ X) as [(-> & -> & X')|(c' & -> & X')].
    + cbn in O. assert (V : In (VInvoke f i) log).
      { eapply O; eauto; rewrite X'; intros V; [apply Z|apply W]; apply in_app_iff in V as [V|[V|V]]; try discriminate; apply in_or_app; auto. }
      rewrite X' in V. apply in_app_iff in V as [V|[V|V]]; [|discriminate|assumption]. exfalso. eapply (E f m a b (VInvoke f i)); eauto. reflexivity.
    + rewrite <- app_assoc in X'. eapply A; eauto.
  - intros f i a b X Y. destruct (snoc_split _ _ _ _ _ X) as [(-> & -> & X')|(b' & -> & X')]; [contradiction|].
    apply in_snoc in Y as [Y| ->]; [eapply B; eauto|]. cbn in O. apply O. rewrite X'. apply in_or_app. right. now left.
  - intros f i a b X Y. destruct (snoc_split _ _ _ _ _ X) as [(-> & -> & X')|(b' & -> & X')]; [contradiction|].
    apply in_snoc in Y as [Y| ->]; [eapply C; eauto|]. cbn in O. destruct O as (O & _). rewrite X' in O.
    apply in_app_iff in O as [O|[O|O]]; [assumption|discriminate|]. exfalso. eapply B; eauto.
  - intros f i a b X. destruct (snoc_split _ _ _ _ _ X) as [(-> & -> & ->)|(b' & -> & X')]; [apply O|eapply D; eauto].
  - intros f m a b e' X Y Y'. destruct (snoc_split _ _ _ _ _ X) as [(-> & -> & ->)|(b' & -> & X')]; [eapply O; eauto|eapply E; eauto].
  - intros f a b i X Y Z. destruct b as [|x b]; [contradiction|]. destruct (exists_last (l := x :: b) ltac:(discriminate)) as (b' & y & V).
    rewrite V in *. rewrite app_assoc in X. apply app_inj_tail in X as [-> ->]. apply in_snoc in Z as [Z| ->]; [eapply F; eauto|].
    destruct O as (_ & _ & O & _). apply O. destruct Y as [Y|(m & j & r & Y & Y' & N)].
    + left. apply in_or_app. auto.
    + right. exists m, j, r. rewrite !in_app_iff. auto.
  - intros f. rewrite invokes_app. destruct e; cbn; rewrite ?app_nil_r; auto.
    destruct (_ =? _) eqn:Q; [apply Nat.eqb_eq in Q; subst; apply O|rewrite app_nil_r; auto].
Qed.

Record xinv (s : xst) : Prop := {
  xi_r : rinv s;
  xi_log : linv (x_log s);
  xi_fires : forall f, (exists m, In (VFire f m) (x_log s)) <-> f < length (x_fires s);
  xi_late : forall f e, length (x_fires s) <= f -> In e (x_log s) -> ~ by_call f e;
  xi_ok : forall f m p, nth_error (x_fires s) f = Some (m, p) -> fok f m p (x_log s) }.
