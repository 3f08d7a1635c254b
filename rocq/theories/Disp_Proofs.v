(** Proofs for Disp_Props. *)
From Coq Require Import Arith Bool List Lia Setoid.
From Verif Require Import Disp_Model Disp_Spec.
Import ListNotations.

Ltac expose := unfold at_d, at_c, say, set_event, set_lock, lower, set_break, no_thread, stamp, tick, signal in *;
  cbn [d_break d_event d_done d_lock d_thread d_now d_last d_pc d_cl d_log] in *.
Lemma upd_same {X} (f : nat -> X) t x : upd f t x t = x.
Proof. unfold upd. rewrite Nat.eqb_refl. reflexivity. Qed.
Lemma upd_other {X} (f : nat -> X) t x u : u <> t -> upd f t x u = f u.
Proof. intros H. unfold upd. destruct (Nat.eqb_spec u t); [contradiction|reflexivity]. Qed.
Lemma count_app f l l' : count f (l ++ l') = count f l + count f l'.
Proof. unfold count. rewrite filter_app, app_length. reflexivity. Qed.

(** all the steps *)
Inductive stepped (i : nat) (s : disp) : disp -> Prop :=
  | SNone : stepped i s s
  | STrigger t : stepped i s (say (Trig t) (set_event true s))
  | SCallWait t : d_cl s t = Idle -> stepped i s (at_c t WLock s)
  | SCallClose t : d_cl s t = Idle -> stepped i s (at_c t XLock s)
  | STick n : stepped i s (tick n s)
  | SMove m s' : go i m s = Some s' -> stepped i s s'.
Inductive moved (i : nat) (s : disp) : disp -> Prop :=
  | MWait : d_pc s = DWait -> d_event s = true -> moved i s (at_d DLock s)
  | MLock : d_pc s = DLock -> d_lock s = None -> moved i s (at_d DClear (set_lock (Some Disp) s))
  | MClear : d_pc s = DClear -> moved i s (at_d DUnlock (set_event false s))
  | MUnlock : d_pc s = DUnlock -> moved i s (at_d DTest1 (set_lock None s))
  | MTest1 c : d_pc s = DTest1 -> c = (if d_break s then DEnd else DLoop false) -> moved i s (at_d c s)
  | MLoop f c : d_pc s = DLoop f -> c = (if d_break s then DAfter f else DElapsed f) -> moved i s (at_d c s)
  | MEarly f : d_pc s = DElapsed f -> d_now s - d_last s < i -> moved i s (say Early (at_d (DSleep f) s))
  | MOver f : d_pc s = DElapsed f -> i <= d_now s - d_last s -> moved i s (at_d (DAfter f) s)
  | MSleep f f' : d_pc s = DSleep f -> (d_event s = true -> f' = true \/ f' = f) -> moved i s (at_d (DClear2 f') s)
  | MClear2 f : d_pc s = DClear2 f -> moved i s (at_d (DLoop f) (set_event false s))
  | MAfter f : d_pc s = DAfter f -> moved i s (at_d DTest2 (if f then set_event true s else s))
  | MTest2 c : d_pc s = DTest2 -> c = (if d_break s then DEnd else DStart) -> moved i s (at_d c s)
  | MStart : d_pc s = DStart -> moved i s (say (Start (d_now s)) (at_d DRunning s))
  | MOk : d_pc s = DRunning -> moved i s (say (EndOk (d_now s)) (at_d DOk s))
  | MRaise : d_pc s = DRunning -> moved i s (say (EndRaise (d_now s)) (at_d DLast s))
  | MSignal : d_pc s = DOk -> moved i s (say Signal (at_d DLast (signal s)))
  | MLast : d_pc s = DLast -> moved i s (at_d DWait (stamp s))
  | MWLock t : d_cl s t = WLock -> d_lock s = None -> moved i s (at_c t WClear (set_lock (Some (Cl t)) s))
  | MWClear t : d_cl s t = WClear -> moved i s (say (WaitCall t) (at_c t WSet (lower s)))
  | MWSet t : d_cl s t = WSet -> moved i s (say (Trig t) (at_c t WUnlock (set_event true s)))
  | MWUnlock t : d_cl s t = WUnlock -> moved i s (at_c t WCheck (set_lock None s))
  | MWReady t : d_cl s t = WCheck -> d_done s = true -> moved i s (say (WaitRet t) (at_c t Idle s))
  | MWBlock t : d_cl s t = WCheck -> d_done s = false -> moved i s (at_c t WBlocked s)
  | MWWoken t : d_cl s t = WWoken -> moved i s (say (WaitRet t) (at_c t Idle s))
  | MXLock t : d_cl s t = XLock -> d_lock s = None -> moved i s (at_c t XBreak (set_lock (Some (Cl t)) s))
  | MXBreak t : d_cl s t = XBreak -> moved i s (say (Broke t) (at_c t XSet (set_break s)))
  | MXSet t : d_cl s t = XSet -> moved i s (at_c t XUnlock (set_event true s))
  | MXUnlock t : d_cl s t = XUnlock -> moved i s (at_c t XRead (set_lock None s))
  | MXRead t : d_cl s t = XRead -> d_thread s = true -> moved i s (at_c t XJoin s)
  | MXErr t : d_cl s t = XRead -> d_thread s = false -> moved i s (say (CloseErr t) (at_c t Idle s))
  | MXJoin t : d_cl s t = XJoin -> d_pc s = DEnd -> moved i s (at_c t XNone s)
  | MXNone t : d_cl s t = XNone -> moved i s (say (CloseRet t) (at_c t Idle (no_thread s))).
Lemma step_stepped i s a : stepped i s (step i s a).
Proof.
  destruct a as [t|t|t|n|m]; cbn [step].
  - apply STrigger.
  - destruct (d_cl s t) eqn:E; try apply SNone. apply SCallWait. exact E.
  - destruct (d_cl s t) eqn:E; try apply SNone. apply SCallClose. exact E.
  - apply STick.
  - destruct (go i m s) as [s'|] eqn:E; [apply (SMove i s m); exact E|apply SNone].
Qed.
Lemma go_moved i m s s' : go i m s = Some s' -> moved i s s'.
Proof.
  destruct m as [| | |t]; cbn [go].
  - unfold go_disp. destruct (d_pc s) eqn:E.
    + destruct (d_event s) eqn:Ee; [|discriminate]. intros [= <-]. apply MWait; assumption.
    + destruct (d_lock s) eqn:El; [discriminate|]. intros [= <-]. apply MLock; assumption.
    + intros [= <-]. apply MClear; assumption.
    + intros [= <-]. apply MUnlock; assumption.
    + intros [= <-]. apply MTest1; [assumption|reflexivity].
    + intros [= <-]. eapply MLoop; [eassumption|reflexivity].
    + destruct (Nat.ltb_spec (d_now s - d_last s) i); intros [= <-]; [eapply MEarly; eauto|eapply MOver; eauto].
    + destruct (d_event s) eqn:Ee; [|discriminate]. intros [= <-]. eapply MSleep; eauto.
    + intros [= <-]. eapply MClear2; eassumption.
    + intros [= <-]. eapply MAfter; eassumption.
    + intros [= <-]. apply MTest2; [assumption|reflexivity].
    + intros [= <-]. apply MStart; assumption.
    + intros [= <-]. apply MOk; assumption.
    + intros [= <-]. apply MSignal; assumption.
    + intros [= <-]. apply MLast; assumption.
    + discriminate.
  - unfold go_timeout. destruct (d_pc s) eqn:E; try discriminate. intros [= <-]. eapply MSleep; eauto.
  - unfold go_raise. destruct (d_pc s) eqn:E; try discriminate. intros [= <-]. apply MRaise. exact E.
  - unfold go_client. destruct (d_cl s t) eqn:E; try discriminate.
    + destruct (d_lock s) eqn:El; [discriminate|]. intros [= <-]. apply MWLock; assumption.
    + intros [= <-]. apply MWClear; assumption.
    + intros [= <-]. apply MWSet; assumption.
    + intros [= <-]. apply MWUnlock; assumption.
    + destruct (d_done s) eqn:Ed; intros [= <-]; [apply MWReady; assumption|apply MWBlock; assumption].
    + intros [= <-]. apply MWWoken; assumption.
    + destruct (d_lock s) eqn:El; [discriminate|]. intros [= <-]. apply MXLock; assumption.
    + intros [= <-]. apply MXBreak; assumption.
    + intros [= <-]. apply MXSet; assumption.
    + intros [= <-]. apply MXUnlock; assumption.
    + destruct (d_thread s) eqn:Ed; intros [= <-]; [apply MXRead; assumption|apply MXErr; assumption].
    + destruct (d_pc s) eqn:Ed; try discriminate. intros [= <-]. apply MXJoin; assumption.
    + intros [= <-]. apply MXNone; assumption.
Qed.
Lemma run_inv (P : disp -> Prop) i : (forall s s', stepped i s s' -> P s -> P s') -> forall l s, P s -> P (run i l s).
Proof. intros H l. induction l as [|a l IH]; intros s Hs; [exact Hs|]. cbn. apply IH. apply (H s); [apply step_stepped|exact Hs]. Qed.
Ltac all_steps H := destruct H as [|t|t Ht|t Ht|n|m s' H];
  [ | | | |
  |apply go_moved in H;
   destruct H as [Hp He|Hp Hl|Hp|Hp|c Hp Hc|f c Hp Hc|f Hp Hlt|f Hp Hle|f f' Hp Hf|f Hp|f Hp|c Hp Hc|Hp|Hp|Hp|Hp|Hp
     |t Ht Hl|t Ht|t Ht|t Ht|t Ht Hd|t Ht Hd|t Ht|t Ht Hl|t Ht|t Ht|t Ht|t Ht Hth|t Ht Hth|t Ht Hp|t Ht]].

(** the lock *)
Definition d_holds (c : dpc) : bool := match c with DClear | DUnlock => true | _ => false end.
Definition c_holds (c : cpc) : bool := match c with WClear | WSet | WUnlock | XBreak | XSet | XUnlock => true | _ => false end.
Definition locks (s : disp) : Prop :=
  (d_lock s = Some Disp <-> d_holds (d_pc s) = true) /\ forall t, d_lock s = Some (Cl t) <-> c_holds (d_cl s t) = true.
Lemma locks_pc s c s' : locks s -> d_pc s' = c -> d_cl s' = d_cl s -> d_lock s' = d_lock s -> d_holds c = d_holds (d_pc s) -> locks s'.
Proof. intros [H1 H2] Ep Ec El Hc. unfold locks. rewrite El, Ep, Ec, Hc. split; assumption. Qed.
Lemma locks_cl s t c s' : locks s -> d_cl s' = upd (d_cl s) t c -> d_lock s' = d_lock s -> d_pc s' = d_pc s -> c_holds c = c_holds (d_cl s t) -> locks s'.
Proof.
  intros [H1 H2] Ec El Ep Hc. unfold locks. rewrite El, Ep, Ec. split; [exact H1|]. intros u. unfold upd. destruct (Nat.eqb_spec u t) as [->|]; [rewrite Hc|]; apply H2.
Qed.
Lemma locks_take s t c s' : locks s -> d_lock s = None -> d_cl s' = upd (d_cl s) t c -> d_lock s' = Some (Cl t) -> d_pc s' = d_pc s -> c_holds c = true -> locks s'.
Proof.
  intros [H1 H2] Hl Ec El Ep Hc. unfold locks. rewrite El, Ep, Ec. rewrite Hl in H1. split.
  - rewrite <- H1. split; discriminate.
  - intros u. unfold upd. destruct (Nat.eqb_spec u t) as [->|Hn]; [rewrite Hc; tauto|]. rewrite <- H2, Hl. split; congruence.
Qed.
Lemma locks_give s t c s' : locks s -> c_holds (d_cl s t) = true -> d_cl s' = upd (d_cl s) t c -> d_lock s' = None -> d_pc s' = d_pc s -> c_holds c = false -> locks s'.
Proof.
  intros [H1 H2] Ht Ec El Ep Hc. unfold locks. rewrite El, Ep, Ec. apply H2 in Ht. rewrite Ht in H1. split.
  - rewrite <- H1. split; discriminate.
  - intros u. unfold upd. destruct (Nat.eqb_spec u t) as [->|Hn]; [rewrite Hc; split; discriminate|]. rewrite <- H2, Ht. split; congruence.
Qed.
Lemma step_locks i s s' : stepped i s s' -> locks s -> locks s'.
Proof.
  intros H HL. all_steps H; expose.
  all: try exact HL.
  all: try (eapply locks_pc; [exact HL|reflexivity|reflexivity|reflexivity|]; rewrite Hp; reflexivity).
  all: try (eapply (locks_cl s t); [exact HL|reflexivity|reflexivity|reflexivity|]; rewrite Ht; reflexivity).
  all: try (eapply (locks_take s t); [exact HL|exact Hl|reflexivity|reflexivity|reflexivity|reflexivity]).
  all: try (eapply (locks_give s t); [exact HL|rewrite Ht; reflexivity|reflexivity|reflexivity|reflexivity|reflexivity]).
  - split; cbn; [split; reflexivity|]. intros u. destruct HL as [_ H2]. rewrite <- H2, Hl. split; discriminate.
  - split; cbn; [split; discriminate|]. intros u. destruct HL as [H1 H2]. rewrite <- H2. rewrite (proj2 H1) by (rewrite Hp; reflexivity). split; discriminate.
  - eapply locks_pc; [exact HL|reflexivity|reflexivity|reflexivity|]. rewrite Hp, Hc. destruct (d_break s); reflexivity.
  - eapply locks_pc; [exact HL|reflexivity|reflexivity|reflexivity|]. rewrite Hp, Hc. destruct (d_break s); reflexivity.
  - destruct f; (eapply locks_pc; [exact HL|reflexivity|reflexivity|reflexivity|]; rewrite Hp; reflexivity).
  - eapply locks_pc; [exact HL|reflexivity|reflexivity|reflexivity|]. rewrite Hp, Hc. destruct (d_break s); reflexivity.
  - destruct HL as [H1 H2]. split; cbn; [rewrite H1, Hp; reflexivity|]. intros u. rewrite H2. destruct (d_cl s u); reflexivity.
Qed.

(** an unserved trigger *)
Definition pend1 (b : bool) (e : event) : bool := match e with Trig _ => true | Start _ => false | _ => b end.
Definition pend (l : list event) : bool := fold_left pend1 l false.
Lemma pend_snoc l e : pend (l ++ [e]) = pend1 (pend l) e.
Proof. unfold pend. rewrite fold_left_app. reflexivity. Qed.
Lemma pend_unserved l : unserved l -> pend l = true.
Proof.
  intros (l1 & t & l2 & -> & Hn). unfold pend. rewrite fold_left_app. cbn [fold_left pend1].
  induction l2 as [|e l2 IH]; [reflexivity|]. cbn [fold_left]. assert (E : pend1 true e = true).
  { destruct e; try reflexivity. destruct (Hn n). left. reflexivity. }
  rewrite E. apply IH. intros n Hin. apply (Hn n). right. exact Hin.
Qed.
Definition way (c : dpc) : bool :=
  match c with DUnlock | DTest1 | DLoop _ | DElapsed _ | DSleep _ | DClear2 _ | DAfter _ | DTest2 | DStart => true | _ => false end.
Definition served (s : disp) : Prop := pend (d_log s) = true -> d_break s = true \/ d_event s = true \/ way (d_pc s) = true.
Lemma step_served i s s' : stepped i s s' -> served s -> served s'.
Proof.
  intros H HS. unfold served in *. all_steps H; expose; rewrite ?pend_snoc; cbn [pend1]; rewrite ?Hp in *; cbn [way] in *; auto.
  - intros Hq. specialize (HS Hq). rewrite Hc. destruct (d_break s); [left; reflexivity|right; right; reflexivity].
  - intros Hq. specialize (HS Hq). rewrite Hc. destruct (d_break s); [left; reflexivity|right; right; reflexivity].
  - intros Hq. specialize (HS Hq). rewrite Hc. destruct (d_break s); [left; reflexivity|right; right; reflexivity].
Qed.

(** closing *)
Definition way_end (c : dpc) : bool := match c with DEnd => true | DStart => false | _ => way c end.
Definition broken (s : disp) : Prop := d_break s = true -> d_event s = true \/ way_end (d_pc s) = true \/ exists t, d_cl s t = XSet.
Lemma keep_xset f t c : (exists u, f u = XSet) -> f t <> XSet -> exists u, upd f t c u = XSet.
Proof. intros [u Hu] Hn. exists u. rewrite upd_other; [exact Hu|]. intros ->. contradiction. Qed.
Lemma step_broken i s s' : stepped i s s' -> broken s -> broken s'.
Proof.
  intros H HS. unfold broken in *. all_steps H; expose; rewrite ?Hp in *; cbn [way way_end] in *; auto.
  all: try (intros Hb; destruct (HS Hb) as [G|[G|G]]; auto; right; right; apply keep_xset; [exact G|rewrite Ht; discriminate]).
  - intros Hb. rewrite Hc, Hb. auto.
  - intros Hb. rewrite Hc, Hb. auto.
  - intros Hb. rewrite Hc, Hb. auto.
  - intros Hb. destruct (HS Hb) as [G|[G|[u Hu]]]; auto; right; right; exists u; rewrite Hu; reflexivity.
  - intros _. right. right. exists t. apply upd_same.
Qed.
Definition closed_ok (s : disp) : Prop :=
  (forall t, d_cl s t = XNone -> d_pc s = DEnd) /\
  (forall t, In (CloseRet t) (d_log s) -> d_pc s = DEnd) /\
  (d_thread s = false <-> exists t, In (CloseRet t) (d_log s)) /\
  (forall t, closing (d_cl s t) = true -> d_break s = true) /\
  (forall t, In (Broke t) (d_log s) -> d_break s = true).
Lemma in_snoc {X} (x e : X) l : In x (l ++ [e]) <-> In x l \/ x = e.
Proof. rewrite in_app_iff. simpl. intuition. Qed.
Lemma closed_log s s' : closed_ok s -> (d_log s' = d_log s \/ exists e, d_log s' = d_log s ++ [e] /\ match e with Broke _ | CloseRet _ => False | _ => True end) ->
  d_thread s' = d_thread s -> d_break s' = d_break s -> (forall t, d_cl s' t = XNone -> d_cl s t = XNone \/ d_pc s' = DEnd) -> (forall t, closing (d_cl s' t) = true -> closing (d_cl s t) = true) ->
  (d_pc s = DEnd -> d_pc s' = DEnd) -> closed_ok s'.
Proof.
  intros (H1 & H2 & H3 & H4 & H5) Hl Et Eb H6 H7 H8.
  assert (Hret : forall t, In (CloseRet t) (d_log s') <-> In (CloseRet t) (d_log s)).
  { intros t. destruct Hl as [->|(e & -> & He)]; [tauto|]. rewrite in_snoc. split; [intros [G|<-]; [exact G|destruct He]|auto]. }
  assert (Hbr : forall t, In (Broke t) (d_log s') -> In (Broke t) (d_log s)).
  { intros t. destruct Hl as [->|(e & -> & He)]; [tauto|]. rewrite in_snoc. intros [G|<-]; [exact G|destruct He]. }
  split; [|split; [|split; [|split]]].
  - intros t Ht. destruct (H6 t Ht) as [G|G]; [apply H8, (H1 t G)|exact G].
  - intros t Ht. apply H8, (H2 t), Hret, Ht.
  - rewrite Et, H3. split; intros [t Ht]; exists t; apply Hret; exact Ht.
  - intros t Ht. rewrite Eb. apply (H4 t), H7, Ht.
  - intros t Ht. rewrite Eb. apply (H5 t), Hbr, Ht.
Qed.
Ltac one_log := first [left; reflexivity|right; eexists; split; [reflexivity|exact I]].
Ltac cl_at t Ht := let u := fresh "u" in let Hu := fresh "Hu" in intros u; unfold upd; destruct (Nat.eqb_spec u t) as [->|]; [rewrite ?Ht; try discriminate; intros Hu; auto|auto].
Lemma step_closed i s s' : stepped i s s' -> closed_ok s -> closed_ok s'.
Proof.
  intros H HS. all_steps H; try exact HS.
  all: try (apply (closed_log s); [exact HS|one_log|reflexivity|reflexivity| | |]; expose; auto; try (rewrite Hp; discriminate); cl_at t Ht; fail).
  - destruct f; (apply (closed_log s); [exact HS|one_log|reflexivity|reflexivity| | |]; expose; auto; rewrite Hp; discriminate).
  - apply (closed_log s); [exact HS|one_log|reflexivity|reflexivity| | |]; expose; try (rewrite Hp; discriminate); intros u; destruct (d_cl s u); cbn [wake]; auto; discriminate.
  - destruct HS as (H1 & H2 & H3 & H4 & H5). split; [|split; [|split; [|split]]]; expose; auto.
    + intros u. unfold upd. destruct (Nat.eqb_spec u t) as [->|]; [discriminate|eauto].
    + intros u. rewrite in_snoc. intros [G|G]; [eauto|discriminate].
    + rewrite H3. split; intros [u Hu]; exists u; rewrite in_snoc in *; [auto|]. destruct Hu as [G|G]; [exact G|discriminate].
  - destruct HS as (H1 & H2 & H3 & H4 & H5). assert (He : d_pc s = DEnd) by (apply (H1 t Ht)). split; [|split; [|split; [|split]]]; expose; auto.
    + split; [|reflexivity]. intros _. exists t. apply in_snoc. auto.
    + intros u. unfold upd. destruct (Nat.eqb_spec u t) as [->|]; [discriminate|eauto].
    + intros u. rewrite in_snoc. intros [G|G]; [eauto|discriminate].
Qed.

(** starts after the break flag was set *)
Fixpoint since (l : list event) : list event := match l with [] => [] | Broke _ :: l' => l' | _ :: l' => since l' end.
Definition nb (l : list event) : nat := count is_start (since l).
Lemma since_snoc l e : since (l ++ [e]) = since l ++ [e] \/ since (l ++ [e]) = [].
Proof.
  induction l as [|x l IH]; [destruct e; right; reflexivity|]. cbn [app since]. destruct x; try exact IH. left. reflexivity.
Qed.
Lemma nb_snoc l e : nb (l ++ [e]) <= nb l + (if is_start e then 1 else 0).
Proof. unfold nb. destruct (since_snoc l e) as [->| ->]; [rewrite count_app; unfold count; cbn [filter]; destruct (is_start e); simpl; lia|unfold count; simpl; lia]. Qed.
Lemma nb_zero l : (forall t, ~ In (Broke t) l) -> nb l = 0.
Proof.
  intros H. unfold nb. assert (E : since l = []); [|rewrite E; reflexivity]. induction l as [|e l IH]; [reflexivity|].
  assert (Hl : forall t, ~ In (Broke t) l) by (intros t Hin; apply (H t); right; exact Hin). destruct e; try (apply IH; exact Hl). destruct (H t). left. reflexivity.
Qed.
Lemma nb_split l1 t l2 : count is_start l2 <= nb (l1 ++ Broke t :: l2).
Proof.
  unfold nb. induction l1 as [|e l1 IH]; [reflexivity|]. cbn [app since]. destruct e; try exact IH. rewrite count_app. unfold count. cbn [filter is_start]. lia.
Qed.
Definition few (s : disp) : Prop := nb (d_log s) <= 1 /\ (d_pc s = DStart -> nb (d_log s) = 0).
Lemma few_keep s s' : few s -> (d_log s' = d_log s \/ exists e, d_log s' = d_log s ++ [e] /\ is_start e = false) -> (d_pc s' = DStart -> d_pc s = DStart) -> few s'.
Proof.
  intros [H1 H2] Hl Hp. assert (Hle : nb (d_log s') <= nb (d_log s)).
  { destruct Hl as [->|(e & -> & He)]; [reflexivity|]. assert (H := nb_snoc (d_log s) e). rewrite He in H. lia. }
  split; [lia|]. intros Hs. specialize (H2 (Hp Hs)). lia.
Qed.
Ltac one_log2 := first [left; reflexivity|right; eexists; split; [reflexivity|reflexivity]].
Lemma step_few i s s' : stepped i s s' -> closed_ok s -> few s -> few s'.
Proof.
  intros H HC HS. all_steps H; try exact HS.
  all: try (apply (few_keep s); [exact HS|one_log2|]; expose; try discriminate; auto; fail).
  - apply (few_keep s); [exact HS|one_log2|]. expose. rewrite Hc. destruct (d_break s); discriminate.
  - apply (few_keep s); [exact HS|one_log2|]. expose. rewrite Hc. destruct (d_break s); discriminate.
  - destruct f; (apply (few_keep s); [exact HS|one_log2|]; expose; discriminate).
  - split; expose; [apply HS|]. intros Hs. apply nb_zero. intros t Hin. destruct HC as (_ & _ & _ & _ & H5). rewrite (H5 t Hin) in Hc. congruence.
  - destruct HS as [H1 H2]. specialize (H2 Hp). split; expose; [|discriminate]. assert (H := nb_snoc (d_log s) (Start (d_now s))). cbn [is_start] in H. lia.
Qed.

(** the interval *)
Definition ends (l : list event) (a : nat) : Prop := In (EndOk a) l \/ In (EndRaise a) l.
Definition spaced (i : nat) (s : disp) : Prop :=
  d_last s <= d_now s /\ (forall a, ends (d_log s) a -> a <= d_now s) /\
  (d_pc s = DOk \/ d_pc s = DLast \/ forall a, ends (d_log s) a -> a <= d_last s) /\
  match d_pc s with DAfter _ | DTest2 => d_break s = true \/ d_last s + i <= d_now s | DStart => d_last s + i <= d_now s | _ => True end.
Lemma ends_snoc l e a : ends (l ++ [e]) a <-> ends l a \/ e = EndOk a \/ e = EndRaise a.
Proof. unfold ends. rewrite !in_snoc. intuition. Qed.
Lemma spaced_log i s s' : spaced i s -> (d_log s' = d_log s \/ exists e, d_log s' = d_log s ++ [e] /\ match e with EndOk _ | EndRaise _ => False | _ => True end) ->
  d_last s' = d_last s -> d_now s <= d_now s' -> (d_pc s' = d_pc s \/ d_pc s <> DOk /\ d_pc s <> DLast) -> (d_break s = true -> d_break s' = true) ->
  match d_pc s' with DAfter _ | DTest2 => d_break s' = true \/ d_last s + i <= d_now s' | DStart => d_last s + i <= d_now s' | _ => True end -> spaced i s'.
Proof.
  intros (H1 & H2 & H3 & H4) Hl El En Hp Hb Hm.
  assert (He : forall a, ends (d_log s') a -> ends (d_log s) a).
  { intros a. destruct Hl as [->|(e & -> & He)]; [auto|]. rewrite ends_snoc. intros [G|[G|G]]; [exact G| |]; rewrite G in He; destruct He. }
  split; [lia|]. split; [intros a Ha; specialize (H2 a (He a Ha)); lia|]. split.
  - destruct Hp as [->|[G1 G2]].
    + destruct H3 as [H3|[H3|H3]]; auto. right. right. intros a Ha. rewrite El. auto.
    + destruct H3 as [H3|[H3|H3]]; [contradiction|contradiction|]. right. right. intros a Ha. rewrite El. auto.
  - rewrite El. exact Hm.
Qed.
Lemma step_spaced i s s' : stepped i s s' -> spaced i s -> spaced i s'.
Proof.
  intros H HS. assert (HM := proj2 (proj2 (proj2 HS))). all_steps H; try exact HS.
  all: try (apply (spaced_log i s); [exact HS|one_log|reflexivity|reflexivity|left; reflexivity|auto|]; expose; destruct (d_pc s); auto; lia).
  all: try (apply (spaced_log i s); [exact HS|one_log|reflexivity|reflexivity|right; rewrite Hp; split; discriminate|auto|]; expose; auto; fail).
  - apply (spaced_log i s); [exact HS|one_log|reflexivity|expose; lia|left; reflexivity|auto|]; expose; destruct (d_pc s); auto; try (destruct HM; [left; assumption|right; lia]); lia.
  - apply (spaced_log i s); [exact HS|one_log|reflexivity|reflexivity|right; rewrite Hp; split; discriminate|auto|]; expose. rewrite Hc. destruct (d_break s); exact I.
  - apply (spaced_log i s); [exact HS|one_log|reflexivity|reflexivity|right; rewrite Hp; split; discriminate|auto|]; expose. rewrite Hc. destruct (d_break s); [left; reflexivity|exact I].
  - apply (spaced_log i s); [exact HS|one_log|reflexivity|reflexivity|right; rewrite Hp; split; discriminate|auto|]; expose. right. destruct HS as [HS _]. lia.
  - rewrite Hp in HM. destruct f; (apply (spaced_log i s); [exact HS|one_log|reflexivity|reflexivity|right; rewrite Hp; split; discriminate|auto|]; expose; exact HM).
  - rewrite Hp in HM. apply (spaced_log i s); [exact HS|one_log|reflexivity|reflexivity|right; rewrite Hp; split; discriminate|auto|]; expose. rewrite Hc.
    destruct (d_break s); [exact I|]. destruct HM; [discriminate|assumption].
  - destruct HS as (H1 & H2 & H3 & H4). split; [exact H1|]. split; [|split; [left; reflexivity|exact I]]. expose. intros a. rewrite ends_snoc. intros [G|[G|G]]; [auto|injection G as ->; lia|discriminate].
  - destruct HS as (H1 & H2 & H3 & H4). split; [exact H1|]. split; [|split; [right; left; reflexivity|exact I]]. expose. intros a. rewrite ends_snoc. intros [G|[G|G]]; [auto|discriminate|injection G as ->; lia].
  - destruct HS as (H1 & H2 & H3 & H4). split; [exact H1|]. split; [|split; [right; left; reflexivity|exact I]]. expose. intros a. rewrite ends_snoc. intros [G|[G|G]]; [auto|discriminate|discriminate].
  - destruct HS as (H1 & H2 & H3 & H4). split; [reflexivity|]. split; [exact H2|]. split; [right; right; exact H2|exact I].
Qed.

(** waiting *)
Definition called (t : nat) (l : list event) : Prop := exists a b, l = a ++ WaitCall t :: b /\ ~ In (WaitCall t) b.
Definition answered (t : nat) (l : list event) : Prop := exists a b, l = a ++ WaitCall t :: b /\ In Signal b /\ ~ In (WaitCall t) b.
Definition waits (s : disp) : Prop :=
  forall t, match d_cl s t with
            | WSet | WUnlock | WCheck => called t (d_log s) /\ (d_done s = true -> answered t (d_log s))
            | WBlocked => called t (d_log s)
            | WWoken => answered t (d_log s)
            | _ => True
            end.
Lemma called_snoc t l e : called t l -> e <> WaitCall t -> called t (l ++ [e]).
Proof. intros (a & b & -> & H) He. exists a, (b ++ [e]). rewrite <- app_assoc. split; [reflexivity|]. rewrite in_snoc. intuition congruence. Qed.
Lemma answered_snoc t l e : answered t l -> e <> WaitCall t -> answered t (l ++ [e]).
Proof. intros (a & b & -> & H1 & H) He. exists a, (b ++ [e]). rewrite <- app_assoc. split; [reflexivity|]. rewrite !in_snoc. intuition congruence. Qed.
Lemma called_signal t l : called t l -> answered t (l ++ [Signal]).
Proof. intros (a & b & -> & H). exists a, (b ++ [Signal]). rewrite <- app_assoc. split; [reflexivity|]. rewrite !in_snoc. intuition congruence. Qed.
Lemma called_new t l : called t (l ++ [WaitCall t]).
Proof. exists l, []. split; [reflexivity|auto]. Qed.
Lemma waits_log s s' : waits s -> (d_log s' = d_log s \/ exists e, d_log s' = d_log s ++ [e] /\ match e with WaitCall _ => False | _ => True end) ->
  d_done s' = d_done s -> (forall t, d_cl s' t = d_cl s t \/ match d_cl s' t with WUnlock | WCheck => d_cl s t = WSet \/ d_cl s t = WUnlock | WBlocked => d_cl s t = WCheck | WSet | WWoken => False | _ => True end) -> waits s'.
Proof.
  intros H Hl Ed Hc t. specialize (H t). specialize (Hc t). rewrite Ed.
  assert (C : called t (d_log s) -> called t (d_log s')). { destruct Hl as [->|(e & -> & He)]; [auto|]. intros G. apply called_snoc; [exact G|]. intros ->. destruct He. }
  assert (A : answered t (d_log s) -> answered t (d_log s')). { destruct Hl as [->|(e & -> & He)]; [auto|]. intros G. apply answered_snoc; [exact G|]. intros ->. destruct He. }
  destruct Hc as [->|Hc]; [destruct (d_cl s t); intuition|]. destruct (d_cl s' t); try exact I; try (destruct Hc; fail).
  - destruct Hc as [Hc|Hc]; rewrite Hc in H; intuition.
  - destruct Hc as [Hc|Hc]; rewrite Hc in H; intuition.
  - rewrite Hc in H; intuition.
Qed.
Lemma step_waits i s s' : stepped i s s' -> waits s -> waits s'.
Proof.
  intros H HS. all_steps H; try exact HS.
  all: try (apply (waits_log s); [exact HS|one_log|reflexivity|]; expose; auto; fail).
  all: try (apply (waits_log s); [exact HS|one_log|reflexivity|]; expose; intros u; unfold upd; destruct (Nat.eqb_spec u t) as [->|]; [right; auto|left; reflexivity]).
  - destruct f; (apply (waits_log s); [exact HS|one_log|reflexivity|]; expose; auto).
  - intros u. specialize (HS u). expose. destruct (d_cl s u); cbn [wake]; try exact I.
    + split; [apply called_snoc; [apply HS|discriminate]|]. intros _. apply called_signal, HS.
    + split; [apply called_snoc; [apply HS|discriminate]|]. intros _. apply called_signal, HS.
    + split; [apply called_snoc; [apply HS|discriminate]|]. intros _. apply called_signal, HS.
    + apply called_signal, HS.
    + apply answered_snoc; [apply HS|discriminate].
  - intros u. specialize (HS u). expose. unfold upd. destruct (Nat.eqb_spec u t) as [->|Hn].
    + split; [apply called_new|discriminate].
    + assert (Hne : WaitCall t <> WaitCall u) by congruence. destruct (d_cl s u); try exact I.
      * split; [apply called_snoc; [apply HS|exact Hne]|discriminate].
      * split; [apply called_snoc; [apply HS|exact Hne]|discriminate].
      * split; [apply called_snoc; [apply HS|exact Hne]|discriminate].
      * apply called_snoc; [apply HS|exact Hne].
      * apply answered_snoc; [apply HS|exact Hne].
Qed.
