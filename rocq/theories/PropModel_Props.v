(** Properties C57 - C59 of Model.py. *)
From Coq Require Import List ZArith Arith Bool Lia Sorted.
From Verif Require Import PyBase PropModel_Model PropModel_Spec.
Import ListNotations.

Section Set_.
  Context {V : Type} (cmp : V -> V -> bool).

  Lemma not_equal_differs cur new : not_equal cmp cur new = true <-> differs cmp new cur.
  Proof.
    destruct cur as [c|], new as [n|]; cbn; try tauto.
    - rewrite negb_true_iff. tauto.
    - split; [discriminate | tauto].
  Qed.
  Lemma agrees_not_differs new held : agrees cmp new held <-> (held = new \/ ~ differs cmp new held).
  Proof.
    unfold agrees, differs. split.
    - intros [E | (n & h & -> & -> & E)]; [now left | right]. congruence.
    - intros [E | D]; [now left |].
      destruct new as [n|], held as [h|]; cbn in D; try tauto.
      right. exists n, h. destruct (cmp n h); tauto.
  Qed.

  (** C57: setting a value that differs stores it, announces it once and calls the callback once, in this order;
      setting one that does not changes nothing. *)
  Theorem pm_set (m : pmodel V) (new : option V) :
    (differs cmp new (p_value m) ->
       p_value (set_value cmp new m) = new /\
       p_log (set_value cmp new m) = (if p_callback m then [Called new] else []) ++ Notified :: p_log m) /\
    (~ differs cmp new (p_value m) -> set_value cmp new m = m).
  Proof.
    unfold set_value. rewrite <- not_equal_differs.
    destruct (not_equal cmp (p_value m) new); split; intros H; try congruence; try tauto.
    cbn. destruct (p_callback m); auto.
  Qed.

  Lemma set_agrees new m : agrees cmp new (p_value (set_value cmp new m)).
  Proof.
    apply agrees_not_differs. destruct (not_equal cmp (p_value m) new) eqn:E.
    - left. unfold set_value. now rewrite E.
    - right. unfold set_value. rewrite E. rewrite <- not_equal_differs. congruence.
  Qed.
  Lemma set_callback new m : p_callback (set_value cmp new m) = p_callback m.
  Proof. unfold set_value. now destruct (not_equal cmp (p_value m) new). Qed.

  (** C57: after any assignments the value agrees with the last one. *)
  Theorem pm_history (m : pmodel V) (l : list (option V)) (last : option V) :
    agrees cmp last (p_value (fold_left (fun m v => set_value cmp v m) (l ++ [last]) m)).
  Proof. rewrite fold_left_app. cbn. apply set_agrees. Qed.

  (** ** C58 *)
  Lemma srun_app l1 l2 (m : smodel V) : srun cmp (l1 ++ l2) m = srun cmp l2 (srun cmp l1 m).
  Proof. apply fold_left_app. Qed.

  Lemma srun_open l : forall (m : smodel V) v0, ~ In SClose l -> s_listening m = true -> agrees cmp v0 (p_value (s_model m)) ->
    s_listening (srun cmp l m) = true /\ s_refs (srun cmp l m) = s_refs m /\
    agrees cmp (last_fired v0 l) (p_value (s_model (srun cmp l m))).
  Proof.
    induction l as [|o l IH]; intros m v0 NC L A; [auto |].
    assert (NC' : ~ In SClose l) by (intros H; apply NC; now right).
    change (srun cmp (o :: l) m) with (srun cmp l (fst (sstep cmp m o))).
    destruct o as [v| |]; cbn [sstep fst last_fired].
    - rewrite L. apply (IH (SModel (set_value cmp v (s_model m)) (s_refs m) true) v NC' eq_refl). apply set_agrees.
    - apply (IH (SModel (PModel (p_value (s_model m)) true (p_log (s_model m))) (s_refs m) (s_listening m)) v0 NC' L A).
    - exfalso. apply NC. now left.
  Qed.
  Lemma srun_closed l : forall (m : smodel V), s_listening m = false ->
    s_listening (srun cmp l m) = false /\ s_refs (srun cmp l m) = s_refs m /\
    p_value (s_model (srun cmp l m)) = p_value (s_model m) /\ p_log (s_model (srun cmp l m)) = p_log (s_model m).
  Proof.
    induction l as [|o l IH]; intros m L; [auto |].
    change (srun cmp (o :: l) m) with (srun cmp l (fst (sstep cmp m o))).
    destruct o as [v| |]; cbn [sstep fst]; rewrite ?L; cbn [fst]; try (apply IH; exact L).
    destruct (IH (SModel (PModel (p_value (s_model m)) true (p_log (s_model m))) (s_refs m) false) eq_refl) as (A & B & C & D).
    auto.
  Qed.

  (** C58: while open, the model's value agrees with the stream's latest value and one reference is held. *)
  Theorem sm_follows (initial stream_value : option V) (l : list (sop V)) :
    ~ In SClose l ->
    let m := srun cmp l (stream_model cmp initial stream_value) in
    agrees cmp (last_fired stream_value l) (p_value (s_model m)) /\ s_refs m = 1.
  Proof.
    intros NC m. destruct (srun_open l (stream_model cmp initial stream_value) stream_value NC eq_refl) as (_ & R & A).
    - apply set_agrees.
    - auto.
  Qed.

  (** C58: close releases the one reference; whatever happens afterwards leaves value, announcements and references
      alone, and a second close is an error. *)
  Theorem sm_closed (initial stream_value : option V) (l1 l2 : list (sop V)) :
    ~ In SClose l1 ->
    let before := srun cmp l1 (stream_model cmp initial stream_value) in
    let after := srun cmp (l1 ++ SClose :: l2) (stream_model cmp initial stream_value) in
    p_value (s_model after) = p_value (s_model before) /\ p_log (s_model after) = p_log (s_model before) /\
    s_refs after = 0 /\ snd (sstep cmp after SClose) = Err AttributeError.
  Proof.
    intros NC before after. subst after. rewrite srun_app. fold before.
    destruct (srun_open l1 (stream_model cmp initial stream_value) stream_value NC eq_refl) as (L & R & _).
    { apply set_agrees. }
    fold before in L, R.
    change (srun cmp (SClose :: l2) before) with (srun cmp l2 (fst (sstep cmp before SClose))).
    cbn [sstep]. rewrite L. cbn [fst].
    destruct (srun_closed l2 (SModel (close_model (s_model before)) (s_refs before - 1) false) eq_refl) as (A & B & C & D).
    rewrite C, D, B. cbn [sstep]. rewrite A. cbn. rewrite R. cbn. auto.
  Qed.

  (** ** C59 *)
  Lemma remove_nat_In k l j : In j (remove_nat k l) <-> In j l /\ j <> k.
  Proof. unfold remove_nat. rewrite filter_In, negb_true_iff, Nat.eqb_neq. tauto. Qed.
  Lemma existsb_In k l : existsb (Nat.eqb k) l = true <-> In k l.
  Proof.
    rewrite existsb_exists. split.
    - intros (x & H & E). apply Nat.eqb_eq in E. now subst.
    - intros H. exists k. split; [exact H | apply Nat.eqb_refl].
  Qed.
  Lemma remove_In k l j : In j (remove Nat.eq_dec k l) <-> In j l /\ j <> k.
  Proof.
    split.
    - apply in_remove.
    - intros [H N]. now apply in_in_remove.
  Qed.

  Definition same_running (running : list nat) (m : fmodel V) : Prop := forall k, In k (f_running m) <-> In k running.
  Lemma frun_inv l : forall (m : fmodel V) running acc, same_running running m -> wf_evals running (f_next m) l ->
    (match acc with Some (_, v) => agrees cmp v (p_value (f_model m)) | None => True end) ->
    let m' := frun cmp l m in
    f_count m' = (f_count m + Z.of_nat (count_starts l) - Z.of_nat (count_finishes l))%Z /\
    (match last_finished acc l with Some (_, v) => agrees cmp v (p_value (f_model m')) | None => p_value (f_model m') = p_value (f_model m) end).
  Proof.
    induction l as [|o l IH]; intros m running acc S W A.
    { cbn. split; [lia | destruct acc as [[? ?]|]; auto]. }
    change (frun cmp (o :: l) m) with (frun cmp l (fstep cmp m o)). cbv zeta.
    destruct o as [|k v|k]; cbn [wf_evals] in W; cbn [last_finished count_starts count_finishes].
    - cbn [fstep]. destruct (IH (start m) (f_next m :: running) acc) as [C Q].
      + intros k. cbn. rewrite in_app_iff, (S k). cbn. tauto.
      + exact W.
      + exact A.
      + split; [rewrite C; cbn; lia | exact Q].
    - destruct W as [I W]. cbn [fstep].
      replace (existsb (Nat.eqb k) (f_running m)) with true by (symmetry; apply existsb_In; now apply S).
      match goal with |- context [frun cmp l ?x] => set (m1 := x) end.
      destruct (IH m1 (remove Nat.eq_dec k running) (Some (k, v))) as [C Q].
      + intros j. cbn. rewrite remove_nat_In, remove_In, (S j). tauto.
      + exact W.
      + apply set_agrees.
      + split; [rewrite C; cbn; lia |].
        destruct (last_finished (Some (k, v)) l) as [[? ?]|] eqn:E; [exact Q |].
        exfalso. clear -E. revert E. generalize (k, v). induction l as [|[| |] l IHl]; cbn; intros; try discriminate; eauto.
    - destruct W as [I W]. cbn [fstep].
      replace (existsb (Nat.eqb k) (f_running m)) with true by (symmetry; apply existsb_In; now apply S).
      match goal with |- context [frun cmp l ?x] => set (m1 := x) end.
      destruct (IH m1 (remove Nat.eq_dec k running) acc) as [C Q]; [| exact W | exact A |].
      + intros j. cbn. rewrite remove_nat_In, remove_In, (S j). tauto.
      + split; [rewrite C; cbn; lia | exact Q].
  Qed.

  Lemma func_inv initial : same_running [0] (func_model (V:=V) initial).
  Proof. intros k. cbn. tauto. Qed.

  (** C59: the value is that of the evaluation that finished last, whatever the order they were started in. *)
  Theorem fm_value (initial : option V) (l : list (fop V)) :
    wf_evals [0] 1 l ->
    let m := frun cmp l (func_model initial) in
    match last_finished None l with
    | Some (_, v) => agrees cmp v (p_value (f_model m))
    | None => p_value (f_model m) = initial
    end.
  Proof. intros W m. exact (proj2 (frun_inv l (func_model initial) [0] None (func_inv initial) W I)). Qed.

  (** The pending count is the evaluations started less those that finished normally. *)
  Theorem fm_count (initial : option V) (l : list (fop V)) :
    wf_evals [0] 1 l ->
    f_count (frun cmp l (func_model initial)) = (1 + Z.of_nat (count_starts l) - Z.of_nat (count_finishes l))%Z.
  Proof. intros W. exact (proj1 (frun_inv l (func_model initial) [0] None (func_inv initial) W I)). Qed.

  Fixpoint raise_order (l : list (fop V)) : list nat :=
    match l with [] => [] | Raise k :: l' => k :: raise_order l' | _ :: l' => raise_order l' end.
  Fixpoint left_running (running : list nat) (next : nat) (l : list (fop V)) : list nat :=
    match l with
    | [] => running
    | Start :: l' => left_running (next :: running) (S next) l'
    | Finish k _ :: l' | Raise k :: l' => left_running (remove Nat.eq_dec k running) next l'
    end.
  Lemma remove_length k l : NoDup l -> In k l -> length l = S (length (remove Nat.eq_dec k l)).
  Proof.
    induction l as [|a l IH]; intros N H; [destruct H |]. inversion N; subst. cbn.
    destruct (Nat.eq_dec k a) as [->|D].
    - now rewrite notin_remove.
    - cbn. f_equal. apply IH; auto. destruct H; [congruence | auto].
  Qed.
  Lemma remove_NoDup k l : NoDup l -> NoDup (remove Nat.eq_dec k l).
  Proof.
    induction l as [|a l IH]; intros N; cbn; [constructor |]. inversion N; subst.
    destruct (Nat.eq_dec k a); [auto |]. constructor; [| auto]. rewrite remove_In. tauto.
  Qed.
  Lemma finish_order_length (l : list (fop V)) : length (finish_order l) = count_finishes l.
  Proof. induction l as [|[| |] l IH]; cbn; congruence. Qed.
  Lemma evals_account l : forall running next, wf_evals (V:=V) running next l -> NoDup running -> (forall k, In k running -> k < next) ->
    length running + count_starts l = count_finishes l + length (raise_order l) + length (left_running running next l) /\
    (forall j, In j running \/ next <= j < next + count_starts l ->
       In j (left_running running next l) \/ In j (finish_order l) \/ In j (raise_order l)) /\
    (forall j, In j (finish_order l) \/ In j (raise_order l) -> In j running \/ next <= j < next + count_starts l).
  Proof.
    induction l as [|o l IH]; intros running next W N B.
    { cbn. split; [lia |]. split; [intros j [H | H]; [auto | lia] | tauto]. }
    destruct o as [|k v|k]; cbn [wf_evals] in W.
    - destruct (IH (next :: running) (S next)) as (C & D & E); auto.
      + constructor; [| exact N]. intros H. apply B in H. lia.
      + intros k [<- | H]; [lia | apply B in H; lia].
      + cbn in *. split; [lia |]. split.
        * intros j H. apply D. destruct (Nat.eq_dec next j); [tauto |]. destruct H; [tauto | right; lia].
        * intros j H. destruct (E j H) as [[<- | H'] | H']; [right; lia | tauto | right; lia].
    - destruct W as [I W]. destruct (IH (remove Nat.eq_dec k running) next W) as (C & D & E).
      + now apply remove_NoDup.
      + intros j H. apply remove_In in H. now apply B.
      + cbn. rewrite (remove_length k running N I). split; [lia |]. split.
        * intros j H. destruct (Nat.eq_dec k j) as [->|K]; [tauto |].
          destruct (D j) as [?|[?|?]]; auto. rewrite remove_In. destruct H; [left; auto | tauto].
        * intros j [[<- | H] | H]; [tauto | |]; (destruct (E j) as [H'|H']; [tauto | apply remove_In in H'; tauto | tauto]).
    - destruct W as [I W]. destruct (IH (remove Nat.eq_dec k running) next W) as (C & D & E).
      + now apply remove_NoDup.
      + intros j H. apply remove_In in H. now apply B.
      + cbn. rewrite (remove_length k running N I). split; [lia |]. split.
        * intros j H. destruct (Nat.eq_dec k j) as [->|K]; [tauto |].
          destruct (D j) as [?|[?|?]]; auto. rewrite remove_In. destruct H; [left; auto | tauto].
        * intros j [H | [<- | H]]; [| tauto |]; (destruct (E j) as [H'|H']; [tauto | apply remove_In in H'; tauto | tauto]).
  Qed.
  Lemma evals_account0 l : wf_evals (V:=V) [0] 1 l ->
    S (count_starts l) = count_finishes l + length (raise_order l) + length (left_running [0] 1 l) /\
    (forall j, j <= count_starts l -> In j (left_running [0] 1 l) \/ In j (finish_order l) \/ In j (raise_order l)) /\
    (forall j, In j (finish_order l) \/ In j (raise_order l) -> j <= count_starts l).
  Proof.
    intros W. destruct (evals_account l [0] 1 W) as (A & B & C).
    - repeat constructor. intros [].
    - intros k [<- | []]. lia.
    - cbn in A. split; [lia |]. split.
      + intros j H. apply B. destruct j; [left; now left | right; lia].
      + intros j H. destruct (C j H) as [[<- | []] | H']; lia.
  Qed.

  (** C59: nothing is pending exactly when every evaluation started has finished normally. *)
  Theorem fm_pending_zero (initial : option V) (l : list (fop V)) :
    wf_evals [0] 1 l ->
    (f_count (frun cmp l (func_model initial)) = 0%Z <-> forall j, j <= count_starts l -> In j (finish_order l)).
  Proof.
    intros W. rewrite (fm_count initial l W). destruct (evals_account0 l W) as (A & B & C). split.
    - intros E j H. destruct (B j H) as [H' | [H' | H']]; [| exact H' |].
      + destruct (left_running [0] 1 l); [destruct H' | cbn in A; lia].
      + destruct (raise_order l); [destruct H' | cbn in A; lia].
    - intros H. assert (L : length (seq 0 (S (count_starts l))) <= length (finish_order l)).
      { apply NoDup_incl_length; [apply seq_NoDup |]. intros j J. apply in_seq in J. apply H. lia. }
      rewrite seq_length, finish_order_length in L. lia.
  Qed.

  Lemma raise_order_In k l : In (Raise k) l -> In k (raise_order l).
  Proof.
    induction l as [|o l IH]; [intros [] |]. intros [-> | H]; [now left |].
    destruct o; cbn; auto.
  Qed.

  (** FINDING: once an evaluation has raised, the count stays positive, so _run_until_complete never ends. *)
  Theorem fm_raise_pending_refuted (initial : option V) (k : nat) (l : list (fop V)) :
    wf_evals [0] 1 l -> In (Raise k) l -> (0 < f_count (frun cmp l (func_model initial)))%Z.
  Proof.
    intros W R. rewrite (fm_count initial l W). destruct (evals_account0 l W) as (A & _ & _).
    apply raise_order_In in R. destruct (raise_order l); [destruct R | cbn in A; lia].
  Qed.

  Lemma last_finished_order l : forall acc, match last_finished (V:=V) acc l with
    | Some (k, v) => (In (Finish k v) l /\ exists p, finish_order l = p ++ [k]) \/ (acc = Some (k, v) /\ finish_order l = [])
    | None => acc = None /\ finish_order l = [] end.
  Proof.
    induction l as [|[|k v|k] l IH]; intros acc; cbn.
    - destruct acc as [[? ?]|]; auto.
    - specialize (IH acc). destruct (last_finished acc l) as [[? ?]|]; [destruct IH as [[? ?] | ?]; auto | auto].
    - specialize (IH (Some (k, v))). destruct (last_finished (Some (k, v)) l) as [[k' v']|].
      + left. destruct IH as [[H (p & E)] | [E F]].
        * split; [auto |]. exists (k :: p). now rewrite E.
        * injection E as <- <-. split; [auto |]. exists []. now rewrite F.
      + destruct IH; discriminate.
    - specialize (IH acc). destruct (last_finished acc l) as [[? ?]|]; [destruct IH as [[? ?] | ?]; auto | auto].
  Qed.
  Lemma sorted_last_max (p : list nat) (k : nat) : StronglySorted lt (p ++ [k]) -> forall j, In j (p ++ [k]) -> j <= k.
  Proof.
    induction p as [|a p IH]; cbn; intros S j H; [destruct H as [<- | []]; lia |].
    inversion S; subst. destruct H as [<- | H]; [| now apply IH].
    rewrite Forall_forall in *. apply Nat.lt_le_incl. match goal with F : forall x, _ -> _ |- _ => apply F end.
    apply in_or_app. right. now left.
  Qed.
  Lemma finish_order_In k l : In k (finish_order l) <-> exists v : option V, In (Finish k v) l.
  Proof.
    induction l as [|[|k' v'|k'] l IH]; cbn; split.
    - tauto. - intros (v & []).
    - intros H. apply IH in H as (v & H). eauto.
    - intros (v & [E | H]); [discriminate |]. apply IH. eauto.
    - intros [<- | H]; [eauto |]. apply IH in H as (v & H). eauto.
    - intros (v & [E | H]); [injection E; auto |]. right. apply IH. eauto.
    - intros H. apply IH in H as (v & H). eauto.
    - intros (v & [E | H]); [discriminate |]. apply IH. eauto.
  Qed.

  (** C59: when evaluations finish in the order they were started, and the newest one has, the value is the newest's. *)
  Theorem fm_in_order (initial : option V) (l : list (fop V)) :
    wf_evals [0] 1 l -> StronglySorted lt (finish_order l) -> In (count_starts l) (finish_order l) ->
    exists v, In (Finish (count_starts l) v) l /\ agrees cmp v (p_value (f_model (frun cmp l (func_model initial)))).
  Proof.
    intros W S N. pose proof (fm_value initial l W) as Q. pose proof (last_finished_order l None) as O.
    destruct (evals_account0 l W) as (_ & _ & B). cbv zeta in Q.
    destruct (last_finished None l) as [[k v]|].
    - destruct O as [[I (p & E)] | [E _]]; [| discriminate]. exists v. split; [| exact Q].
      replace (count_starts l) with k; [exact I |].
      rewrite E in S, N. pose proof (sorted_last_max p k S _ N).
      assert (k <= count_starts l). { apply B. left. rewrite E. apply in_or_app. right. now left. }
      lia.
    - destruct O as [_ E]. rewrite E in N. destruct N.
  Qed.

  (** Each normal end announces "value" once itself, besides the announcement (and callback) of the setter. *)
  Theorem fm_finish_announces (m : fmodel V) (k : nat) (v : option V) :
    In k (f_running m) -> p_callback (f_model m) = false ->
    (differs cmp v (p_value (f_model m)) -> p_log (f_model (fstep cmp m (Finish k v))) = Notified :: Notified :: p_log (f_model m)) /\
    (~ differs cmp v (p_value (f_model m)) -> p_log (f_model (fstep cmp m (Finish k v))) = Notified :: p_log (f_model m)).
  Proof.
    intros I C. cbn [fstep]. replace (existsb (Nat.eqb k) (f_running m)) with true by (symmetry; now apply existsb_In).
    destruct (pm_set (f_model m) v) as [P Q]. split; intros H; cbn.
    - destruct (P H) as [_ ->]. now rewrite C.
    - now rewrite (Q H).
  Qed.
End Set_.

(** FINDING: an evaluation started earlier that finishes later overwrites the newer value. *)
Theorem fm_late_refuted :
  ~ (forall (l : list (fop nat)) (v : option nat), wf_evals [0] 1 l ->
       (forall j, j <= count_starts l -> In j (finish_order l)) -> In (Finish (count_starts l) v) l ->
       agrees Nat.eqb v (p_value (f_model (frun Nat.eqb l (func_model None))))).
Proof.
  intros H. specialize (H [Start; Finish 1 (Some 20); Finish 0 (Some 10)] (Some 20)).
  destruct H as [E | (n & h & E & F & G)].
  - cbn. tauto.
  - cbn. intros [|[|j]] J; [tauto | tauto | lia].
  - cbn. tauto.
  - discriminate E.
  - cbn in F. injection E as <-. injection F as <-. discriminate G.
Qed.

(** The two-announcement run with a callback, an unchanged value and a None. *)
Example pm_case :
  let m := PModel (Some 3) true [] in
  set_value Nat.eqb (Some 3) m = m /\
  p_log (set_value Nat.eqb (Some 4) m) = [Called (Some 4); Notified] /\
  p_log (set_value Nat.eqb None m) = [Called None; Notified].
Proof. repeat split. Qed.
(** a comparison that ignores the last digit keeps the value held *)
Example pm_cmp_case : p_value (set_value (fun a b => a / 10 =? b / 10) (Some 37) (PModel (Some 31) false [])) = Some 31.
Proof. reflexivity. Qed.
Example sm_case :
  let m := srun Nat.eqb [Fired (Some 2); Fired (Some 2); SetCallback; Fired None; SClose; Fired (Some 9)] (stream_model Nat.eqb (Some 7) (Some 1)) in
  p_value (s_model m) = None /\ s_refs m = 0 /\ p_log (s_model m) = [Called None; Notified; Notified; Notified].
Proof. repeat split. Qed.
Example fm_case :
  let m := frun Nat.eqb [Start; Finish 0 (Some 10); Start; Finish 1 (Some 10); Finish 2 (Some 30)] (func_model None) in
  p_value (f_model m) = Some 30 /\ f_count m = 0%Z /\ length (p_log (f_model m)) = 5.
Proof. repeat split. Qed.
Example fm_raise_case : f_count (frun Nat.eqb [Start; Raise 0; Finish 1 (Some 1)] (func_model None)) = 1%Z.
Proof. reflexivity. Qed.

Print Assumptions pm_set.
Print Assumptions pm_history.
Print Assumptions sm_follows.
Print Assumptions sm_closed.
Print Assumptions fm_value.
Print Assumptions fm_count.
Print Assumptions fm_pending_zero.
Print Assumptions fm_raise_pending_refuted.
Print Assumptions fm_in_order.
Print Assumptions fm_finish_announces.
Print Assumptions fm_late_refuted.
