(** Lemmas about networks of promises. *)
From Coq Require Import List Bool Arith Lia.
From Verif Require Import PyBase PromNet_Model PromNet_Spec.
Import ListNotations.

Section Proofs.
  Context {V : Type} (fns : nat -> prog V).
  Notation evals := (evals fns).
  Notation p_step := (p_step fns).
  Notation p_run := (p_run fns).

  Lemma evals_det c r n : evals c r n -> forall r' n', evals c r' n' -> r = r' /\ n = n'.
  Proof.
    induction 1 as [r|j k x n r m H1 IH1 H2 IH2]; intros r' n' H; inversion H; subst; [auto|].
    match goal with A : evals (fns j) _ _, B : evals (k _) _ _ |- _ => destruct (IH1 _ _ A); subst; destruct (IH2 _ _ B); subst end. auto.
  Qed.

  (** ** positions *)
  Lemma put_length {X} t (x : X) l : length (put t x l) = length l.
  Proof. revert t. induction l as [|y l IH]; intros [|t]; cbn; auto. Qed.
  Lemma put_same {X} t (x y : X) l : nth_error l t = Some y -> nth_error (put t x l) t = Some x.
  Proof. revert t. induction l as [|z l IH]; intros [|t]; cbn; try discriminate; auto. Qed.
  Lemma put_other {X} t t' (x : X) l : t <> t' -> nth_error (put t x l) t' = nth_error l t'.
  Proof.
    revert t t'. induction l as [|z l IH]; intros [|t] [|t'] H; cbn; auto; try contradiction.
  Qed.
  Lemma held_spec j (ths : list (pthread V)) : forall t, held j t ths = true <->
    exists t' th, t' <> t /\ nth_error ths t' = Some th /\ holds j th = true.
  Proof.
    induction ths as [|th ths IH]; intros t; cbn.
    - split; [intros X; discriminate X|]. intros (t0 & th & _ & H & _). destruct t0; discriminate H.
    - destruct t as [|t].
      + rewrite existsb_exists. split.
        * intros (th' & H & Hh). apply In_nth_error in H as [n H]. exists (S n), th'. auto.
        * intros ([|t'] & th' & N & H & Hh); [contradiction|]. cbn in H. exists th'. split; [|exact Hh]. eapply nth_error_In; eauto.
      + rewrite orb_true_iff, IH. split.
        * intros [H|(t' & th' & N & H & Hh)]; [exists 0, th; auto|exists (S t'), th'; auto].
        * intros ([|t'] & th' & N & H & Hh); cbn in H; [injection H as <-; auto|right; exists t', th'; auto].
  Qed.
  Lemma holds_in j (th : pthread V) : holds j th = true <-> exists c, In (j, c) (frames th).
  Proof.
    unfold holds. rewrite existsb_exists. split.
    - intros ([i c] & H & E). apply Nat.eqb_eq in E. cbn in E. subst. eauto.
    - intros (c & H). exists (j, c). split; [exact H|]. apply Nat.eqb_refl.
  Qed.

  (** ** what holds whatever the functions are *)
  Definition resid (c p : prog V) : Prop := forall r n, evals c r n -> exists n', evals p r n'.
  Fixpoint chain (fs : list (nat * prog V)) (cl : prog V) : Prop :=
    match fs with
    | [] => True
    | (i, c) :: fs' => (exists k, cur (Th fs' cl) = Read i k) /\ chain fs' cl
    end.
  Definition tok (orig : prog V) (th : pthread V) : Prop :=
    resid (client th) orig /\ Forall (fun f => resid (snd f) (fns (fst f))) (frames th) /\ chain (frames th) (client th).
  Definition vok (f : nat -> option V) : Prop := forall j v, f j = Some v -> exists n, evals (fns j) (Ok v) n.
  Definition sok (clients : list (prog V)) (s : pstate V) : Prop := vok (vals s) /\ Forall2 tok clients (thr s).

  Lemma chain_top i c c' fs cl : chain ((i, c) :: fs) cl -> chain ((i, c') :: fs) cl.
  Proof. auto. Qed.
  Lemma tok_set_cur orig th c : tok orig th -> resid c (cur th) -> tok orig (set_cur c th).
  Proof.
    destruct th as [fs cl]. destruct fs as [|[i d] fs]; unfold tok, set_cur, cur; cbn; intros (A & B & C) R.
    - repeat split; auto. intros r n H. destruct (R r n H) as (n1 & H1). eauto.
    - split; [exact A|]. split; [|exact C]. inversion B as [|? ? B1 B2]; subst. constructor; [|exact B2]. cbn in *.
      intros r n H. destruct (R r n H) as (n1 & H1). eauto.
  Qed.
  Lemma tok_push orig th j k : tok orig th -> cur th = Read j k -> tok orig (Th ((j, fns j) :: frames th) (client th)).
  Proof.
    destruct th as [fs cl]. unfold tok. cbn. intros (A & B & C) R. split; [exact A|]. split.
    - constructor; [|exact B]. intros r n H. cbn in *. eauto.
    - split; eauto.
  Qed.
  Lemma resid_read j k x n : evals (fns j) x n -> resid (k x) (Read j k).
  Proof. intros H r m Hk. eexists. eapply ev_read; eauto. Qed.
  Lemma tok_pop orig i r fs cl : tok orig (Th ((i, Ret r) :: fs) cl) -> (exists n, evals (fns i) r n) /\ tok orig (resume r (Th fs cl)).
  Proof.
    unfold tok. cbn. intros (A & B & [[k K] C]). inversion B as [|? ? B1 B2]; subst. cbn in B1.
    destruct (B1 r 0 (ev_ret _ _)) as (n & Hn). split; [eauto|]. unfold resume. rewrite K.
    apply tok_set_cur; [split; auto|]. rewrite K. eapply resid_read; eauto.
  Qed.

  Lemma forall2_put {X Y} (R : X -> Y -> Prop) t y : forall l l', Forall2 R l l' ->
    (forall x, nth_error l t = Some x -> R x y) -> Forall2 R l (put t y l').
  Proof.
    intros l l' H. revert t. induction H as [|a b l l' Hab H IH]; intros t Hy; [constructor|]. destruct t as [|t]; cbn.
    - constructor; auto.
    - constructor; auto.
  Qed.
  Lemma forall2_nth {X Y} (R : X -> Y -> Prop) t x y : forall l l', Forall2 R l l' ->
    nth_error l t = Some x -> nth_error l' t = Some y -> R x y.
  Proof.
    intros l l' H. revert t. induction H as [|a b l l' Hab H IH]; intros [|t]; cbn; try discriminate; [congruence|apply IH].
  Qed.

  Lemma forall2_nth_r {X Y} (R : X -> Y -> Prop) t y : forall l l', Forall2 R l l' ->
    nth_error l' t = Some y -> exists x, nth_error l t = Some x /\ R x y.
  Proof.
    intros l l' H. revert t. induction H as [|a b l l' Hab H IH]; intros [|t]; cbn; try discriminate; [intros [= <-]; eauto|apply IH].
  Qed.

  (** the three kinds of steps *)
  Lemma step_cases (s s' : pstate V) t : p_step s t = Some s' -> exists th, nth_error (thr s) t = Some th /\
    ((exists j k v, cur th = Read j k /\ vals s j = Some v /\ held j t (thr s) = false /\
        s' = Ps (vals s) (put t (set_cur (k (Ok v)) th) (thr s)) (log s)) \/
     (exists j k, cur th = Read j k /\ vals s j = None /\ held j t (thr s) = false /\
        s' = Ps (vals s) (put t (Th ((j, fns j) :: frames th) (client th)) (thr s)) (j :: log s)) \/
     (exists i r fs, frames th = (i, Ret r) :: fs /\
        s' = Ps (match r with Ok v => upd (vals s) i v | Err _ => vals s end) (put t (resume r (Th fs (client th))) (thr s)) (log s))).
  Proof.
    unfold PromNet_Model.p_step. destruct (nth_error (thr s) t) as [th|]; [|discriminate]. intros H. exists th. split; [reflexivity|].
    destruct (cur th) as [r|j k] eqn:C.
    - destruct (frames th) as [|[i c] fs] eqn:F; [discriminate|]. injection H as <-. right. right. exists i, r, fs. split; [|reflexivity].
      unfold cur in C. rewrite F in C. now subst.
    - destruct (held j t (thr s)) eqn:Hh; [discriminate|]. destruct (vals s j) as [v|] eqn:E; injection H as <-.
      + left. exists j, k, v. auto.
      + right. left. exists j, k. auto.
  Qed.

  Lemma sok_step clients s t s' : sok clients s -> p_step s t = Some s' -> sok clients s'.
  Proof.
    intros [Hv Ht] H. apply step_cases in H as (th & Hth & [(j & k & v & C & E & _ & ->)|[(j & k & C & E & _ & ->)|(i & r & fs & F & ->)]]); split; cbn; auto.
    - apply forall2_put; [exact Ht|]. intros c Hc. pose proof (forall2_nth _ _ _ _ _ _ Ht Hc Hth) as T.
      apply tok_set_cur; [exact T|]. rewrite C. destruct (Hv j v E) as (n & Hn). eapply resid_read; eauto.
    - apply forall2_put; [exact Ht|]. intros c Hc. pose proof (forall2_nth _ _ _ _ _ _ Ht Hc Hth) as T. eapply tok_push; eauto.
    - destruct (forall2_nth_r _ _ _ _ _ Ht Hth) as (c & Hc & T). destruct th as [fs0 cl]. cbn in F. subst fs0. apply tok_pop in T as [(n & Hn) _].
      destruct r as [v|e]; [|exact Hv]. intros j w. unfold upd. destruct (Nat.eqb_spec j i) as [->|]; [intros [= <-]; eauto|apply Hv].
    - apply forall2_put; [exact Ht|]. intros c Hc. pose proof (forall2_nth _ _ _ _ _ _ Ht Hc Hth) as T.
      destruct th as [fs0 cl]. cbn in F. subst fs0. now apply tok_pop in T as [_ T].
  Qed.
  Lemma sok_run clients sched : forall s, sok clients s -> sok clients (p_run s sched).
  Proof.
    induction sched as [|t sched IH]; intros s H; cbn; [exact H|]. apply IH. destruct (p_step s t) eqn:E; [eapply sok_step; eauto|exact H].
  Qed.
  Lemma sok_init clients : sok clients (p_init clients).
  Proof.
    split; cbn; [intros ? ?; discriminate|]. induction clients as [|c l IH]; cbn; constructor; [|exact IH].
    unfold tok. cbn. repeat split; auto. intros r n H. eauto.
  Qed.

  Lemma vals_step clients s t s' j v : sok clients s -> p_step s t = Some s' -> vals s j = Some v -> vals s' j = Some v.
  Proof.
    intros [Hv Ht] H E. pose proof (sok_step clients s t s' (conj Hv Ht) H) as [Hv' _].
    apply step_cases in H as (th & Hth & [(j0 & k & v0 & C & _ & _ & ->)|[(j0 & k & C & _ & _ & ->)|(i & r & fs & F & ->)]]); cbn in *; auto.
    destruct r as [w|e]; [|exact E]. unfold upd in *. destruct (Nat.eqb_spec j i) as [->|]; [|exact E].
    destruct (Hv i v E) as (n & Hn). specialize (Hv' i w). cbn in Hv'. rewrite Nat.eqb_refl in Hv'. destruct (Hv' eq_refl) as (m & Hm).
    destruct (evals_det _ _ _ Hn _ _ Hm). congruence.
  Qed.

  Definition exclusive (s : pstate V) : Prop := forall t t' th th' j, nth_error (thr s) t = Some th -> nth_error (thr s) t' = Some th' ->
    holds j th = true -> holds j th' = true -> t = t'.
  Lemma holds_set_cur j c (th : pthread V) : holds j (set_cur c th) = holds j th.
  Proof. destruct th as [[|[i d] fs] cl]; reflexivity. Qed.
  Lemma holds_resume j r (th : pthread V) : holds j (resume r th) = holds j th.
  Proof. unfold resume. destruct (cur th); [reflexivity|apply holds_set_cur]. Qed.
  Lemma exclusive_put s t th th0 vs lg : exclusive s -> nth_error (thr s) t = Some th0 ->
    (forall j, holds j th = true -> holds j th0 = true \/ held j t (thr s) = false) -> exclusive (Ps vs (put t th (thr s)) lg).
  Proof.
    intros H N Hh a b tha thb j Ha Hb Ja Jb. cbn in Ha, Hb.
    assert (X : forall c thc, c <> t -> nth_error (thr s) c = Some thc -> holds j thc = true -> holds j th = true -> False).
    { intros c thc Nc Hc Jc Jt. destruct (Hh j Jt) as [J0|J0].
      - apply Nc. eapply H; eauto.
      - assert (held j t (thr s) = true) by (apply held_spec; exists c, thc; auto). congruence. }
    destruct (Nat.eq_dec a t) as [Ea|Na]; destruct (Nat.eq_dec b t) as [Eb|Nb]; try subst a; try subst b.
    - reflexivity.
    - rewrite (put_same _ _ _ _ N) in Ha. injection Ha as <-. rewrite put_other in Hb by auto. exfalso. eapply X; eauto.
    - rewrite (put_same _ _ _ _ N) in Hb. injection Hb as <-. rewrite put_other in Ha by auto. exfalso. eapply X; eauto.
    - rewrite put_other in Ha, Hb by auto. eapply H; eauto.
  Qed.
  Lemma exclusive_step s t s' : exclusive s -> p_step s t = Some s' -> exclusive s'.
  Proof.
    intros H E. apply step_cases in E as (th & Hth & [(j & k & v & C & _ & _ & ->)|[(j & k & C & _ & Hh & ->)|(i & r & fs & F & ->)]]).
    - eapply exclusive_put; eauto. intros i. rewrite holds_set_cur. auto.
    - eapply exclusive_put; eauto. intros i. unfold holds. cbn. intros O. apply orb_prop in O as [O|O]; [|auto].
      apply Nat.eqb_eq in O. subst. auto.
    - eapply exclusive_put; eauto. intros j. rewrite holds_resume. intros J. left. unfold holds in *. rewrite F. cbn in *. now rewrite J, orb_true_r.
  Qed.
  Lemma exclusive_run sched : forall s, exclusive s -> exclusive (p_run s sched).
  Proof.
    induction sched as [|t sched IH]; intros s H; cbn; [exact H|]. apply IH. destruct (p_step s t) eqn:E; [eapply exclusive_step; eauto|exact H].
  Qed.
  Lemma init_frames clients t (th : pthread V) : nth_error (thr (p_init clients)) t = Some th -> frames th = [] /\ nth_error clients t = Some (client th).
  Proof. cbn. rewrite nth_error_map. destruct (nth_error clients t); [|discriminate]. cbn. intros [= <-]. auto. Qed.
  Lemma exclusive_init clients : exclusive (p_init clients).
  Proof.
    intros t t' th th' j H _ J. apply init_frames in H as [F _]. unfold holds in J. rewrite F in J. discriminate.
  Qed.

  (** ** if the threads' code terminates when run alone *)
  Definition low (c p : prog V) : Prop := exists r n m, evals c r n /\ evals p r m /\ n <= m.
  Fixpoint pending (fs : list (nat * prog V)) (cl : prog V) (r : res V) (N : nat) : Prop :=
    match fs with
    | [] => exists j k r', cl = Read j k /\ evals (k r) r' N
    | (i, c) :: fs' => exists j k r' n N', c = Read j k /\ evals (k r) r' n /\ pending fs' cl r' N' /\ N = n + 1 + N'
    end.
  Definition left (th : pthread V) (N : nat) : Prop :=
    match frames th with
    | [] => exists r, evals (client th) r N
    | (i, c) :: fs => exists r n N', evals c r n /\ pending fs (client th) r N' /\ N = n + 1 + N'
    end.
  Lemma left_cur th N : left th N -> exists r n, evals (cur th) r n.
  Proof. unfold left, cur. destruct (frames th) as [|[i c] fs]; [intros (r & H); eauto|intros (r & n & N' & H & _); eauto]. Qed.
  Lemma left_set_cur th N j k x n : left th N -> cur th = Read j k -> evals (fns j) x n ->
    exists N', left (set_cur (k x) th) N' /\ N' < N.
  Proof.
    unfold left, cur, set_cur. intros H C Hx. destruct (frames th) as [|[i c] fs]; cbn.
    - destruct H as (r & H). rewrite C in H. inversion H as [|? ? x' n' ? m A B]; subst.
      destruct (evals_det _ _ _ Hx _ _ A); subst. exists m. split; [eauto|lia].
    - subst c. destruct H as (r & n0 & N' & H & P & ->). inversion H as [|? ? x' n' ? m A B]; subst.
      destruct (evals_det _ _ _ Hx _ _ A); subst. exists (m + 1 + N'). split; [exists r, m, N'; auto|lia].
  Qed.
  Lemma left_push th N j k : left th N -> cur th = Read j k -> exists N', left (Th ((j, fns j) :: frames th) (client th)) N' /\ N' < N.
  Proof.
    unfold left, cur. intros H C. destruct (frames th) as [|[i c] fs]; cbn.
    - destruct H as (r & H). rewrite C in H. inversion H as [|? ? x n ? m A B]; subst.
      exists (n + 1 + m). split; [|lia]. exists x, n, m. split; [exact A|]. split; [|reflexivity]. rewrite C. eauto 6.
    - subst c. destruct H as (r & n0 & N' & H & P & ->). inversion H as [|? ? x n ? m A B]; subst.
      exists (n + 1 + (m + 1 + N')). split; [|lia]. exists x, n, (m + 1 + N'). split; [exact A|]. split; [|reflexivity].
      exists j, k, r, m, N'. auto.
  Qed.
  Lemma left_pop i r fs cl N : left (Th ((i, Ret r) :: fs) cl) N -> exists N', left (resume r (Th fs cl)) N' /\ N' < N.
  Proof.
    unfold left. cbn. intros (r0 & n & N' & H & P & ->). inversion H; subst. exists N'. split; [|lia].
    destruct fs as [|[i' c] fs]; cbn in P |- *.
    - destruct P as (j & k & r' & -> & E). cbn. eauto.
    - destruct P as (j & k & r' & n & N'' & -> & E & P & ->). cbn. exists r', n, N''. auto.
  Qed.

  (** along the stack the work gets less *)
  Lemma stack_costs cl : forall fs i c r m, Forall (fun f => low (snd f) (fns (fst f))) fs -> chain fs cl ->
    evals (cur (Th fs cl)) r m -> In (i, c) fs -> exists x n, evals (fns i) x n /\ m <= n.
  Proof.
    induction fs as [|[i0 c0] fs IH]; intros i c r m L C E H; [destruct H|].
    inversion L as [|? ? L1 L2]; subst. cbn in L1, E. destruct L1 as (r1 & n1 & m1 & E1 & E2 & Le).
    destruct (evals_det _ _ _ E _ _ E1); subst. destruct H as [[= -> ->]|H]; [eauto|].
    destruct C as [[k K] C]. destruct fs as [|f fs']; [destruct H|]. pose proof (Forall_inv L2) as L3.
    destruct f as [i1 c1]. cbn in K. subst c1. cbn in L3. destruct L3 as (r2 & n2 & m2 & E3 & E4 & Le2).
    inversion E3 as [|? ? x n ? m A B]; subst. destruct (evals_det _ _ _ E2 _ _ A); subst.
    destruct (IH i c r2 (2 + n + m) L2 C E3 H) as (y & p & P1 & P2). exists y, p. split; [exact P1|lia].
  Qed.
  Definition tlow (th : pthread V) : Prop := Forall (fun f => low (snd f) (fns (fst f))) (frames th) /\ exists N, left th N.
  Definition slow (clients : list (prog V)) (s : pstate V) : Prop := sok clients s /\ forall th, In th (thr s) -> tlow th.

  Lemma low_set_cur th j k x n : Forall (fun f => low (snd f) (fns (fst f))) (frames th) -> cur th = Read j k -> evals (fns j) x n ->
    Forall (fun f => low (snd f) (fns (fst f))) (frames (set_cur (k x) th)).
  Proof.
    unfold cur, set_cur. intros H C Hx. destruct (frames th) as [|[i c] fs]; [constructor|]. subst c. cbn.
    inversion H as [|? ? L1 L2]; subst. constructor; [|exact L2]. cbn in *. destruct L1 as (r & p & q & E1 & E2 & Le).
    inversion E1 as [|? ? x' n' ? m A B]; subst. destruct (evals_det _ _ _ Hx _ _ A); subst. exists r, m, q. repeat split; auto. lia.
  Qed.
  Lemma in_put {X} t (x y : X) l : In y (put t x l) -> y = x \/ In y l.
  Proof. revert t. induction l as [|z l IH]; intros [|t]; cbn; [tauto|tauto|intuition|]. intros [->|H]; [auto|]. destruct (IH t H); auto. Qed.
  Lemma slow_step clients s t s' : slow clients s -> p_step s t = Some s' -> slow clients s' /\
    exists th th', nth_error (thr s) t = Some th /\ thr s' = put t th' (thr s) /\ forall N, left th N -> exists N', left th' N' /\ N' < N.
  Proof.
    intros [Hs Hl] E. pose proof (sok_step clients s t s' Hs E) as Hs'.
    apply step_cases in E as (th & Hth & K). destruct (Hl th (nth_error_In _ _ Hth)) as [L (N & HN)].
    assert (X : exists th', thr s' = put t th' (thr s) /\ Forall (fun f => low (snd f) (fns (fst f))) (frames th') /\ forall N, left th N -> exists N', left th' N' /\ N' < N).
    { destruct K as [(j & k & v & C & Ev & _ & ->)|[(j & k & C & Ev & _ & ->)|(i & r & fs & F & ->)]]; cbn.
      - destruct (proj1 Hs j v Ev) as (n & Hn). exists (set_cur (k (Ok v)) th). split; [reflexivity|]. split; [eapply low_set_cur; eauto|]. intros N0 H0. eapply left_set_cur; eauto.
      - exists (Th ((j, fns j) :: frames th) (client th)). split; [reflexivity|]. split; [|intros N0 H0; eapply left_push; eauto].
        cbn. constructor; [|exact L]. cbn. destruct (left_cur _ _ HN) as (r & n & H). rewrite C in H. inversion H as [|? ? x n' ? m A B]; subst.
        exists x, n', n'. repeat split; auto.
      - destruct th as [fs0 cl]. cbn in F. subst fs0. cbn [client]. exists (resume r (Th fs cl)). split; [reflexivity|].
        split; [|intros N0 H0; eapply left_pop; eauto].
        destruct (forall2_nth_r _ _ _ _ _ (proj2 Hs) Hth) as (c & Hc & T). pose proof T as (_ & _ & [[k K] _]). apply tok_pop in T as [(n & Hn) _].
        cbn [client] in K. unfold resume. rewrite K. eapply low_set_cur; eauto. cbn. inversion L; assumption. }
    destruct X as (th' & E1 & L' & HN'). split; [|exists th, th'; auto].
    split; [exact Hs'|]. intros th0 H0. rewrite E1 in H0. apply in_put in H0 as [->|H0]; [|auto]. destruct (HN' N HN) as (N' & X & _). split; eauto.
  Qed.
  Lemma slow_run clients sched : forall s, slow clients s -> slow clients (p_run s sched).
  Proof.
    induction sched as [|t sched IH]; intros s H; cbn; [exact H|]. apply IH. destruct (p_step s t) eqn:E; [|exact H]. eapply slow_step; eauto.
  Qed.
  Lemma slow_init clients : Forall (terminates fns) clients -> slow clients (p_init clients).
  Proof.
    intros H. split; [apply sok_init|]. cbn. intros th Hth. apply in_map_iff in Hth as (c & <- & Hc). split; [constructor|].
    rewrite Forall_forall in H. destruct (H c Hc) as (r & n & E). exists n. cbn. eauto.
  Qed.

  Lemma left_put t th th' N' : forall ths Ns, Forall2 left ths Ns -> nth_error ths t = Some th -> left th' N' ->
    (forall N, nth_error Ns t = Some N -> N' < N) -> exists Ns', Forall2 left (put t th' ths) Ns' /\ list_sum Ns' < list_sum Ns.
  Proof.
    intros ths Ns H. revert t. induction H as [|a n ths Ns Ha H IH]; intros [|t] E Hl Hd; cbn in *; try discriminate.
    - exists (N' :: Ns). split; [constructor; auto|]. specialize (Hd n eq_refl). cbn. lia.
    - destruct (IH t E Hl Hd) as (Ns' & H1 & H2). exists (n :: Ns'). split; [constructor; auto|]. unfold list_sum in *; cbn [fold_right] in *; lia.
  Qed.
  Lemma steps_bound clients sched : forall s Ns, slow clients s -> Forall2 left (thr s) Ns -> steps fns s sched <= list_sum Ns.
  Proof.
    induction sched as [|t sched IH]; intros s Ns Hs HN; cbn; [lia|]. destruct (p_step s t) as [s'|] eqn:E; [|now apply IH].
    destruct (slow_step _ _ _ _ Hs E) as (Hs' & th & th' & Hth & E1 & D).
    assert (X : exists N, nth_error Ns t = Some N /\ left th N).
    { clear - HN Hth. revert t Hth. induction HN as [|a n ths Ns Ha H IH]; intros [|t]; cbn; try discriminate; [intros [= <-]; eauto|apply IH]. }
    destruct X as (N & EN & HL). destruct (D N HL) as (N' & HL' & Lt).
    destruct (left_put t th th' N' _ _ HN Hth HL') as (Ns' & H1 & H2). { intros N0 H0. congruence. }
    rewrite <- E1 in H1. specialize (IH s' Ns' Hs' H1). lia.
  Qed.

  (** ** no deadlock *)
  Lemma can_step_ret s t th r : nth_error (thr s) t = Some th -> cur th = Ret r -> frames th <> [] -> p_step s t <> None.
  Proof.
    intros H C F. unfold PromNet_Model.p_step. rewrite H, C. destruct (frames th) as [|[i c] fs]; [contradiction|discriminate].
  Qed.
  Lemma can_step_read clients s : slow clients s -> forall N t th j k x n, n < N -> nth_error (thr s) t = Some th -> cur th = Read j k ->
    evals (fns j) x n -> exists t', p_step s t' <> None.
  Proof.
    intros Hs. induction N as [|N IH]; intros t th j k x n Lt Hth C E; [lia|].
    destruct (held j t (thr s)) eqn:Hh.
    - apply held_spec in Hh as (t' & th' & _ & Hth' & J). apply holds_in in J as (c & J).
      destruct (cur th') as [r|j' k'] eqn:C'.
      + exists t'. eapply can_step_ret; eauto. intros X. now rewrite X in J.
      + destruct (proj2 Hs th' (nth_error_In _ _ Hth')) as [L (M & HM)]. destruct (left_cur _ _ HM) as (r & m & Em).
        destruct (forall2_nth_r _ _ _ _ _ (proj2 (proj1 Hs)) Hth') as (c0 & _ & (_ & _ & CH)).
        destruct th' as [fs cl]. cbn in *. destruct (stack_costs cl fs j c r m L CH Em J) as (y & p & P1 & P2).
        destruct (evals_det _ _ _ P1 _ _ E); subst. rewrite C' in Em. inversion Em as [|? ? x' n' ? m' A B]; subst.
        eapply (IH t' _ j' k' x' n'); eauto. lia.
    - exists t. unfold PromNet_Model.p_step. rewrite Hth, C, Hh. destruct (vals s j); discriminate.
  Qed.

  (** ** a function that returns is called once *)
  Definition active (j : nat) (s : pstate V) : Prop := vals s j <> None \/ exists th, In th (thr s) /\ holds j th = true.
  Definition once (j : nat) (s : pstate V) : Prop := count_occ Nat.eq_dec (log s) j <= 1 /\ (In j (log s) <-> active j s).
  Lemma put_in {X} t (x y : X) l : nth_error l t = Some y -> In x (put t x l).
  Proof. intros H. eapply nth_error_In. eapply put_same; eauto. Qed.
  Lemma in_put_other {X} t (x y z : X) l : nth_error l t = Some y -> In z l -> In z (put t x l) \/ z = y.
  Proof.
    intros H Hz. apply In_nth_error in Hz as [n Hn]. destruct (Nat.eq_dec t n) as [->|N]; [right; congruence|]. left.
    eapply nth_error_In. rewrite put_other; eauto.
  Qed.
  Lemma once_step clients s t s' j v n : slow clients s -> evals (fns j) (Ok v) n -> once j s -> p_step s t = Some s' -> once j s'.
  Proof.
    intros Hs Ej [Hc Ha] E. apply step_cases in E as (th & Hth & [(i & k & w & C & _ & _ & ->)|[(i & k & C & Ev & Hh & ->)|(i & r & fs & F & ->)]]).
    - split; cbn; [exact Hc|]. rewrite Ha. unfold active. cbn. split; (intros [H|(th0 & H & J)]; [auto|right]).
      + destruct (in_put_other _ (set_cur (k (Ok w)) th) _ _ _ Hth H) as [H1| ->]; [eauto|].
        exists (set_cur (k (Ok w)) th). split; [eapply put_in; eauto|now rewrite holds_set_cur].
      + apply in_put in H as [->|H]; [|eauto]. rewrite holds_set_cur in J. exists th. split; [eapply nth_error_In; eauto|exact J].
    - assert (N : i = j -> ~ active j s).
      { intros -> [H|(th0 & H & J)]; [congruence|]. apply In_nth_error in H as [t0 H].
        destruct (Nat.eq_dec t0 t) as [->|Nt].
        - assert (th0 = th) by congruence. subst th0. destruct (proj2 Hs th (nth_error_In _ _ Hth)) as [L (M & HM)].
          destruct (left_cur _ _ HM) as (r & m & Em).
          destruct (forall2_nth_r _ _ _ _ _ (proj2 (proj1 Hs)) Hth) as (c0 & _ & (_ & _ & CH)).
          apply holds_in in J as (c & J). destruct th as [fs cl]. cbn in *.
          destruct (stack_costs cl fs j c r m L CH Em J) as (y & p & P1 & P2). rewrite C in Em.
          inversion Em as [|? ? x' n' ? m' A B]; subst. destruct (evals_det _ _ _ P1 _ _ A). lia.
        - assert (held j t (thr s) = true) by (apply held_spec; eauto). congruence. }
      split; cbn [log].
      + cbn. destruct (Nat.eq_dec i j) as [X|X]; [|exact Hc]. specialize (N X). rewrite <- Ha in N.
        apply (count_occ_not_In Nat.eq_dec) in N. lia.
      + unfold active. cbn. rewrite Ha. split.
        * intros [->|[H|(th0 & H & J)]]; [|auto|].
          -- right. eexists. split; [eapply put_in; eauto|]. unfold holds. cbn. now rewrite Nat.eqb_refl.
          -- right. destruct (in_put_other _ (Th ((i, fns i) :: frames th) (client th)) _ _ _ Hth H) as [H1| ->]; [eauto|].
             eexists. split; [eapply put_in; eauto|]. unfold holds in *. cbn. now rewrite J, orb_true_r.
        * intros [H|(th0 & H & J)]; [right; left; exact H|]. apply in_put in H as [->|H].
          -- unfold holds in J. cbn in J. apply orb_prop in J as [J|J]; [left; now apply Nat.eqb_eq|].
             right. right. exists th. split; [eapply nth_error_In; eauto|exact J].
          -- right. right. eauto.
    - assert (R : i = j -> r = Ok v).
      { intros ->. destruct (forall2_nth_r _ _ _ _ _ (proj2 (proj1 Hs)) Hth) as (c0 & _ & T). destruct th as [fs0 cl]. cbn in F. subst fs0.
        apply tok_pop in T as [(m & Hm) _]. destruct (evals_det _ _ _ Ej _ _ Hm). congruence. }
      split; cbn; [exact Hc|]. rewrite Ha. unfold active. cbn. split.
      + intros [H|(th0 & H & J)].
        * left. destruct r as [w|]; [|exact H]. unfold upd. destruct (j =? i); [discriminate|exact H].
        * destruct (Nat.eq_dec i j) as [X|X].
          -- left. rewrite (R X). unfold upd. rewrite X, Nat.eqb_refl. discriminate.
          -- right. destruct (in_put_other _ (resume r (Th fs (client th))) _ _ _ Hth H) as [H1| ->]; [eauto|].
             eexists. split; [eapply put_in; eauto|]. rewrite holds_resume. unfold holds in *. rewrite F in J. cbn in *.
             destruct (Nat.eqb_spec i j); [contradiction|exact J].
      + assert (T : holds i th = true) by (unfold holds; rewrite F; cbn; now rewrite Nat.eqb_refl).
        intros [H|(th0 & H & J)].
        * destruct (Nat.eq_dec i j) as [<-|X]; [right; exists th; split; [eapply nth_error_In; eauto|exact T]|].
          left. destruct r as [w|]; [|exact H]. unfold upd in H. destruct (Nat.eqb_spec j i); [congruence|exact H].
        * right. apply in_put in H as [->|H]; [|eauto]. rewrite holds_resume in J. exists th. split; [eapply nth_error_In; eauto|].
          unfold holds in *. rewrite F. cbn in *. now rewrite J, orb_true_r.
  Qed.
End Proofs.
