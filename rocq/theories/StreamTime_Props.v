(** Properties C64 and C65 of Stream.py. *)
From Coq Require Import List Arith Bool Lia.
From Verif Require Import PyBase Stream_Model StreamTime_Model StreamTime_Spec Stream_Props.
Import ListNotations.

(** ** C64 *)
Section Debounce_.
  Context {V : Type}.
  Lemma d_reacts r : forall s : dstream V, fold_left d_changed r s = match r with [] => s | _ => DStream (last r (d_value s)) true (d_open s) end.
  Proof.
    induction r as [|x r IH]; intros s; [reflexivity |]. cbn [fold_left]. rewrite IH.
    destruct r as [|y r]; [reflexivity |]. rewrite (last_cons_default (y :: r)). reflexivity.
  Qed.
  Lemma d_run l : forall s : dstream V, d_open s = true -> ~ In DClose l ->
    fst (run_out d_step s l) = DStream (d_latest (d_task s) (d_value s) l) (d_waiting (d_task s) l) true.
  Proof.
    induction l as [|e l IH]; intros s O N; [destruct s; cbn in *; now subst |].
    assert (N' : ~ In DClose l) by (intros X; apply N; now right). cbn [run_out].
    assert (S1 : d_open (fst (d_step s e)) = true /\
      d_latest (d_task s) (d_value s) (e :: l) = d_latest (d_task (fst (d_step s e))) (d_value (fst (d_step s e))) l /\
      d_waiting (d_task s) (e :: l) = d_waiting (d_task (fst (d_step s e))) l).
    { destruct e as [v|r|]; cbn [d_step d_latest d_waiting].
      - rewrite O. cbn. auto.
      - destruct (d_task s) eqn:T; cbn [fst]; [| rewrite T; auto]. rewrite d_reacts. destruct r; cbn; auto.
      - exfalso. apply N. now left. }
    destruct S1 as (O1 & E1 & E2). destruct (d_step s e) as [s1 o1]. cbn [fst] in *. specialize (IH s1 O1 N').
    destruct (run_out d_step s1 l) as [s2 o2]. cbn [fst] in *. now rewrite E1, E2.
  Qed.

  (** After any schedule: the end of a pending delay fires exactly one value, the latest input at that moment; without
      a pending delay there is no end, and no other event fires anything. *)
  Theorem debounce_fires (v0 : V) (l : list (devent V)) (e : devent V) :
    ~ In DClose l ->
    let r := run_out d_step (d_make v0) l in
    snd (run_out d_step (d_make v0) (l ++ [e])) = snd r ++
      match e with DExpire _ => if d_waiting true l then [Fire (d_latest true v0 l)] else [] | _ => [] end.
  Proof.
    intros N r. subst r. rewrite run_out_snoc. cbn [snd]. f_equal.
    rewrite (d_run l (d_make v0) eq_refl N). cbn [d_make d_task d_value].
    destruct e as [v|r|]; cbn; try reflexivity. now destruct (d_waiting true l).
  Qed.

  (** If no listener sets the input during a fire: whenever no delay is pending the last value fired is the latest
      input. *)
  Theorem debounce_delivered (v0 : V) (l : list (devent V)) :
    Forall quiet l -> d_waiting true l = false ->
    exists f, snd (run_out d_step (d_make v0) l) = f ++ [Fire (d_latest true v0 l)].
  Proof.
    intros Q W. assert (N : forall l' : list (devent V), Forall quiet l' -> ~ In DClose l').
    { intros l' Q' H. rewrite Forall_forall in Q'. exact (Q' _ H). }
    induction l as [|e l IH] using rev_ind; [discriminate W |].
    apply Forall_app in Q as [Q Qe]. inversion Qe as [|? ? Qe' _]; subst.
    assert (WA : forall w (a b : list (devent V)), d_waiting w (a ++ b) = d_waiting (d_waiting w a) b).
    { clear. intros w a. revert w. induction a as [|[v|r|] a IH]; intros w b; cbn; auto. }
    assert (LA : forall w v (a b : list (devent V)), d_latest w v (a ++ b) = d_latest (d_waiting w a) (d_latest w v a) b).
    { clear. intros w v a. revert w v. induction a as [|[x|r|] a IH]; intros w v b; cbn; auto. }
    rewrite WA in W. rewrite (debounce_fires v0 l e (N l Q)), LA.
    destruct e as [v|r|]; cbn in W |- *; [discriminate | | destruct Qe'].
    cbn in Qe'. subst r. cbn. destruct (d_waiting true l) eqn:E.
    - eauto.
    - rewrite app_nil_r. now apply IH.
  Qed.

  (** Every input made while no task waits starts one. *)
  Theorem debounce_input_waits (s : dstream V) (v : V) : d_open s = true -> d_task (fst (d_step s (DInput v))) = true.
  Proof. intros O. cbn. now rewrite O. Qed.

  (** FINDING: the last value a listener sets during the fire is held but no delay is pending for it, so it is not fired
      by any number of later expiries. *)
  Theorem debounce_reaction_lost (s : dstream V) (r : list V) (x : V) (later : list (list V)) :
    d_task s = true ->
    let t := run_out d_step s (DExpire (r ++ [x]) :: map DExpire later) in
    d_value (fst t) = x /\ snd t = [Fire (d_value s)].
  Proof.
    intros T. cbv zeta. cbn [run_out d_step]. rewrite T.
    rewrite fold_left_app. cbn [fold_left d_changed d_value d_open].
    match goal with |- context [run_out d_step ?st _] => set (s1 := st) end.
    assert (K : run_out d_step s1 (map DExpire later) = (s1, [])).
    { induction later as [|y later IH]; [reflexivity |]. cbn [map run_out]. cbn [d_step s1 d_task]. fold s1. now rewrite IH. }
    rewrite K. auto.
  Qed.

  (** After close nothing is fired and inputs are ignored. *)
  Theorem debounce_closed (s : dstream V) (l : list (devent V)) :
    d_open s = true -> ~ In DClose l ->
    run_out d_step s (DClose :: l) = (DStream (d_value s) false false, []).
  Proof.
    intros O N. cbn. rewrite O.
    assert (K : run_out d_step (DStream (d_value s) false false) l = (DStream (d_value s) false false, [])).
    { induction l as [|e l IH]; [reflexivity |]. cbn [run_out].
      assert (E : d_step (DStream (d_value s) false false) e = (DStream (d_value s) false false, [])).
      { destruct e; [reflexivity | reflexivity | exfalso; apply N; now left]. }
      rewrite E, IH; [reflexivity | intros X; apply N; now right]. }
    now rewrite K.
  Qed.
End Debounce_.

(** FINDING, a run: the input is set to 2 during the fire of 1, and 2 is never fired. *)
Theorem debounce_delivered_refuted :
  ~ (forall (v0 : nat) (l : list (devent nat)), ~ In DClose l -> d_waiting true l = false ->
       exists f, snd (run_out d_step (d_make v0) l) = f ++ [Fire (d_latest true v0 l)]).
Proof.
  intros H. destruct (H 1 [DExpire [2]]) as (f & F); [intros [X | []]; discriminate | reflexivity |].
  cbn in F. destruct f as [|a [|b f]]; discriminate.
Qed.

(** ** C65 *)
Section Sample_.
  Context {V : Type}.
  Notation turns l := (concat (map micro l)).
  Lemma run_fst_app {S I O} (step : S -> I -> S * list O) l1 l2 s :
    fst (run_out step s (l1 ++ l2)) = fst (run_out step (fst (run_out step s l1)) l2).
  Proof. now rewrite run_out_app. Qed.

  (** between turns: nothing in progress *)
  Lemma sm_turns (l : list (turn V)) : forall (s : sampler V) acc, sm_in s = None -> sm_pc s = SIdle ->
    sm_pending s = match acc with Some v => v | None => None end ->
    let s' := fst (run_out sm_step s (turns l)) in
    sm_in s' = None /\ sm_pc s' = SIdle /\ sm_dirty s' = fresh_input (sm_dirty s) l /\
    sm_pending s' = match last_input acc l with Some v => v | None => None end.
  Proof.
    induction l as [|t l IH]; intros s acc I P E; [cbn; auto |]. cbv zeta. cbn [map concat]. rewrite run_fst_app.
    destruct s as [pend val dirty inn pc]. cbn in I, P, E. subst inn pc.
    destruct t as [v|]; cbn [micro run_out sm_step sm_in sm_pc sm_dirty sm_pending sm_value fst last_input fresh_input].
    - apply IH; reflexivity.
    - destruct dirty; cbn [sm_step sm_in sm_pc sm_dirty sm_pending sm_value fst run_out]; apply IH; auto.
  Qed.
  Lemma sm_clean (l : list (turn V)) : forall (s : sampler V), sm_in s = None -> sm_pc s = SIdle ->
    (sm_dirty s = false -> sm_value s = sm_pending s) ->
    let s' := fst (run_out sm_step s (turns l)) in sm_dirty s' = false -> sm_value s' = sm_pending s'.
  Proof.
    induction l as [|t l IH]; intros s I P E; [exact E |]. cbv zeta. cbn [map concat]. rewrite run_fst_app.
    destruct s as [pend val dirty inn pc]. cbn in I, P, E. subst inn pc.
    destruct t as [v|]; cbn [micro run_out sm_step sm_in sm_pc sm_dirty sm_pending sm_value fst].
    - apply IH; auto. discriminate.
    - destruct dirty; cbn [sm_step sm_in sm_pc sm_dirty sm_pending sm_value fst run_out]; apply IH; auto.
  Qed.

  (** With whole inputs and samples: after a sample the value is the latest input if there was one, else None. *)
  Theorem sample_value (v0 : option V) (l : list (turn V)) :
    sm_value (fst (run_out sm_step (sm_make v0) (turns (l ++ [Sample])))) =
    match last_input None l with Some v => v | None => None end.
  Proof.
    destruct (sm_turns (l ++ [Sample]) (sm_make v0) None eq_refl eq_refl eq_refl) as (_ & _ & D & P).
    assert (F : forall b, fresh_input b (l ++ [Sample]) = false) by (clear; induction l as [|[|] l IH]; intros b; cbn; auto).
    assert (L : forall a, last_input a (l ++ [Sample]) = last_input a l) by (clear; induction l as [|[|] l IH]; intros a; cbn; auto).
    rewrite F in D. rewrite L in P.
    rewrite (sm_clean (l ++ [Sample]) (sm_make v0) eq_refl eq_refl ltac:(discriminate) D). exact P.
  Qed.

  (** A sample fires once, the latest input, if the input was set since the previous sample or there was none before;
      otherwise it fires nothing.  Inputs fire nothing. *)
  Theorem sample_fires (v0 : option V) (l : list (turn V)) (t : turn V) :
    snd (run_out sm_step (sm_make v0) (turns (l ++ [t]))) = snd (run_out sm_step (sm_make v0) (turns l)) ++
    match t with
    | Sample => if fresh_input true l then [Fire (match last_input None l with Some v => v | None => None end)] else []
    | Input _ => []
    end.
  Proof.
    rewrite map_app, concat_app, run_out_app. cbn [snd]. f_equal. cbn [map concat]. rewrite app_nil_r.
    destruct (sm_turns l (sm_make v0) None eq_refl eq_refl eq_refl) as (I & P & D & E). cbn [sm_dirty sm_make] in D.
    revert I P D E. generalize (fst (run_out sm_step (sm_make v0) (turns l))). intros [pend val dirty inn pc] I P D E.
    cbn in I, P, D, E. subst inn pc dirty pend. destruct t as [v|]; [reflexivity |]. cbn. now destruct (fresh_input true l).
  Qed.

  (** FINDING: the first sample of an input never set replaces the value by None and fires None. *)
  Theorem sample_initial_lost_refuted (v : V) :
    let r := run_out sm_step (sm_make (Some v)) (turns [Sample]) in
    sm_value (sm_make (Some v)) = Some v /\ sm_value (fst r) = None /\ snd r = [Fire None].
  Proof. repeat split. Qed.

  (** Under every interleaving, the latest input is either still marked dirty, being taken, or the value - provided no
      sample took the flag between its two writes. *)
  Lemma sm_untorn (l : list (sevent V)) : forall (s : sampler V) (t : bool),
    let fly := match sm_in s with Some _ => true | None => false end in
    (t = false -> if fly then sm_dirty s = true else sm_dirty s = true \/ sm_pc s = STook \/ sm_value s = sm_pending s) ->
    let s' := fst (run_out sm_step s l) in
    fst (torn fly t l) = (match sm_in s' with Some _ => true | None => false end) /\
    (snd (torn fly t l) = false -> if (match sm_in s' with Some _ => true | None => false end) then sm_dirty s' = true
       else sm_dirty s' = true \/ sm_pc s' = STook \/ sm_value s' = sm_pending s').
  Proof.
    induction l as [|e l IH]; intros s t; cbv zeta; [cbn; auto |]. intros H. cbn [run_out].
    destruct s as [pend val dirty inn pc]. cbn [sm_in sm_dirty sm_pc sm_value sm_pending] in H |- *.
    assert (G : forall s1 o1 t1, sm_step (Sampler pend val dirty inn pc) e = (s1, o1) ->
      torn (match inn with Some _ => true | None => false end) t (e :: l) = torn (match sm_in s1 with Some _ => true | None => false end) t1 l ->
      (t1 = false -> if (match sm_in s1 with Some _ => true | None => false end) then sm_dirty s1 = true else sm_dirty s1 = true \/ sm_pc s1 = STook \/ sm_value s1 = sm_pending s1) ->
      let r := (let (s1, o1) := sm_step (Sampler pend val dirty inn pc) e in let (s2, o2) := run_out sm_step s1 l in (s2, o1 ++ o2)) in
      fst (torn (match inn with Some _ => true | None => false end) t (e :: l)) = (match sm_in (fst r) with Some _ => true | None => false end) /\
      (snd (torn (match inn with Some _ => true | None => false end) t (e :: l)) = false -> if (match sm_in (fst r) with Some _ => true | None => false end) then sm_dirty (fst r) = true
       else sm_dirty (fst r) = true \/ sm_pc (fst r) = STook \/ sm_value (fst r) = sm_pending (fst r))).
    { intros s1 o1 t1 E T K. rewrite E, T. specialize (IH s1 t1 K). cbv zeta in IH.
      destruct (run_out sm_step s1 l) as [s2 o2]. exact IH. }
    destruct e as [v| | | |]; cbn [sm_step sm_in sm_pc sm_dirty sm_pending sm_value] in G |- *.
    - destruct inn as [x|].
      + eapply G; [reflexivity | reflexivity |]. exact H.
      + eapply G; [reflexivity | reflexivity |]. cbn. auto.
    - destruct inn as [x|].
      + eapply G; [reflexivity | reflexivity |]. cbn. intros T. left. now apply H.
      + eapply G; [reflexivity | reflexivity |]. exact H.
    - destruct pc.
      + eapply G; [reflexivity | reflexivity |]. cbn. destruct inn as [x|]; [discriminate |]. intros T.
        destruct (H T) as [-> | [? | ?]]; [tauto | discriminate | tauto].
      + eapply G with (t1 := if (match inn with Some _ => true | None => false end) then true else t); [reflexivity | reflexivity |]. cbn. destruct inn; [discriminate | exact H].
      + eapply G with (t1 := if (match inn with Some _ => true | None => false end) then true else t); [reflexivity | reflexivity |]. cbn. destruct inn; [discriminate | exact H].
    - destruct pc; (eapply G; [reflexivity | reflexivity |]; cbn; intros T; specialize (H T); destruct inn; [tauto |]; try tauto).
    - destruct pc; (eapply G; [reflexivity | reflexivity |]; cbn; intros T; specialize (H T); destruct inn; [tauto |]; try tauto).
      destruct H as [? | [? | ?]]; [tauto | discriminate | tauto].
  Qed.
  Lemma sm_pending_written (l : list (sevent V)) : forall (s : sampler V) acc,
    sm_pending s = match acc with Some v => v | None => None end ->
    sm_pending (fst (run_out sm_step s l)) = match last_written (sm_in s) acc l with Some v => v | None => None end.
  Proof.
    induction l as [|e l IH]; intros s acc E; [exact E |]. cbn [run_out].
    destruct s as [pend val dirty inn pc]. cbn in E. subst pend.
    destruct e as [v| | | |]; cbn [sm_step last_written sm_in sm_pc sm_dirty sm_pending sm_value];
      [destruct inn | destruct inn | destruct pc | destruct pc | destruct pc];
      match goal with |- context [run_out sm_step ?s1 l] =>
        match goal with |- context [last_written ?f ?a l] =>
          specialize (IH s1 a eq_refl); destruct (run_out sm_step s1 l); exact IH end end.
  Qed.

  (** C65, all interleavings: once input and sampler are idle and nothing is marked, the value is the latest input,
      unless a sample took the flag between that input's two writes. *)
  Theorem sample_interleaved (v0 : option V) (l : list (sevent V)) (v : option V) :
    let s := fst (run_out sm_step (sm_make v0) l) in
    sm_in s = None -> sm_pc s = SIdle -> sm_dirty s = false ->
    snd (torn false true l) = false -> last_written None None l = Some v -> sm_value s = v.
  Proof.
    intros s I P D T L.
    destruct (sm_untorn l (sm_make v0) true ltac:(discriminate)) as [_ H]. cbn [sm_make sm_in] in H. fold (sm_make v0) in H.
    change (Sampler None v0 true None SIdle) with (sm_make v0) in H. fold s in H. specialize (H T). rewrite I in H.
    pose proof (sm_pending_written l (sm_make v0) None eq_refl) as W. fold s in W. cbn [sm_make sm_in] in W. rewrite L in W.
    destruct H as [H | [H | H]]; congruence.
  Qed.

  (** Under every interleaving only inputs (or the None held at first) are fired, at most one per sample begun. *)
  Theorem sample_only_inputs (v0 : option V) (l : list (sevent V)) :
    Forall (fun o => exists x, o = Fire x /\ (x = None \/ In x (inputs_of l))) (snd (run_out sm_step (sm_make v0) l)) /\
    length (snd (run_out sm_step (sm_make v0) l)) <= takes l.
  Proof.
    assert (K : forall (l : list (sevent V)) (s : sampler V) (known : list (option V)),
      (sm_pending s = None \/ In (sm_pending s) known) -> (match sm_in s with Some x => In x known | None => True end) ->
      Forall (fun o => exists x, o = Fire x /\ (x = None \/ In x (known ++ inputs_of l))) (snd (run_out sm_step s l)) /\
      length (snd (run_out sm_step s l)) <= takes l + (match sm_pc s with SIdle => 0 | _ => 1 end)).
    { clear. induction l as [|e l IH]; intros s known A B; [cbn; split; [constructor | lia] |].
      assert (M : forall (L : list (option V)) o, (forall x, In x (known ++ inputs_of l) -> In x L) ->
        Forall (fun o => exists x, o = Fire x /\ (x = None \/ In x (known ++ inputs_of l))) o ->
        Forall (fun o => exists x, o = Fire x /\ (x = None \/ In x L)) o).
      { intros L o Q F. eapply Forall_impl; [| exact F]. intros y (x & -> & [-> | X]); eauto. }
      destruct s as [pend val dirty inn pc]. cbn in A, B. cbn [run_out].
      destruct e as [v| | | |]; cbn [sm_step sm_in sm_pc sm_dirty sm_pending sm_value takes inputs_of].
      - destruct inn as [x|].
        + specialize (IH (Sampler pend val dirty (Some x) pc) known A B).
          destruct (run_out sm_step (Sampler pend val dirty (Some x) pc) l) as [s2 o2]. cbn in *. destruct IH as [F L]. split; [| lia].
          eapply M; [| exact F]. intros y. rewrite !in_app_iff. cbn. tauto.
        + specialize (IH (Sampler pend val true (Some v) pc) (known ++ [v])).
          destruct (run_out sm_step (Sampler pend val true (Some v) pc) l) as [s2 o2]. cbn in *. destruct IH as [F L].
          * rewrite in_app_iff. tauto.
          * rewrite in_app_iff. cbn. tauto.
          * rewrite <- app_assoc in F. split; [exact F | lia].
      - destruct inn as [x|].
        + specialize (IH (Sampler x val dirty None pc) known (or_intror B) I).
          destruct (run_out sm_step (Sampler x val dirty None pc) l) as [s2 o2]. cbn in *. exact IH.
        + specialize (IH (Sampler pend val dirty None pc) known A I).
          destruct (run_out sm_step (Sampler pend val dirty None pc) l) as [s2 o2]. cbn in *. exact IH.
      - destruct pc.
        + specialize (IH (Sampler pend val false inn (if dirty then STook else SIdle)) known A B).
          destruct (run_out sm_step (Sampler pend val false inn (if dirty then STook else SIdle)) l) as [s2 o2]. cbn in *.
          destruct IH as [F L]. split; [exact F |]. destruct dirty; lia.
        + specialize (IH (Sampler pend val dirty inn STook) known A B).
          destruct (run_out sm_step (Sampler pend val dirty inn STook) l) as [s2 o2]. cbn in *. destruct IH. split; [auto | lia].
        + specialize (IH (Sampler pend val dirty inn SWrote) known A B).
          destruct (run_out sm_step (Sampler pend val dirty inn SWrote) l) as [s2 o2]. cbn in *. destruct IH. split; [auto | lia].
      - destruct pc.
        + specialize (IH (Sampler pend val dirty inn SIdle) known A B).
          destruct (run_out sm_step (Sampler pend val dirty inn SIdle) l) as [s2 o2]. cbn in *. exact IH.
        + specialize (IH (Sampler pend pend dirty inn SWrote) known A B).
          destruct (run_out sm_step (Sampler pend pend dirty inn SWrote) l) as [s2 o2]. cbn in *. exact IH.
        + specialize (IH (Sampler pend val dirty inn SWrote) known A B).
          destruct (run_out sm_step (Sampler pend val dirty inn SWrote) l) as [s2 o2]. cbn in *. exact IH.
      - destruct pc.
        + specialize (IH (Sampler pend val dirty inn SIdle) known A B).
          destruct (run_out sm_step (Sampler pend val dirty inn SIdle) l) as [s2 o2]. cbn in *. exact IH.
        + specialize (IH (Sampler pend val dirty inn STook) known A B).
          destruct (run_out sm_step (Sampler pend val dirty inn STook) l) as [s2 o2]. cbn in *. exact IH.
        + specialize (IH (Sampler pend val dirty inn SIdle) known A B).
          destruct (run_out sm_step (Sampler pend val dirty inn SIdle) l) as [s2 o2]. cbn in *. destruct IH as [F L].
          split; [| cbn; lia]. constructor; [| exact F]. exists pend. split; [reflexivity |]. rewrite in_app_iff. tauto. }
    destruct (K l (sm_make v0) []) as [F L]; [now left | exact I |]. cbn in F, L. split; [exact F | lia].
  Qed.
End Sample_.

(** FINDING: an input whose flag is taken by a sample before its value is written is not delivered by any later
    sample, until the input is set again. *)
Theorem sample_lost_refuted :
  ~ (forall (l : list (sevent nat)) (v : option nat) (n : nat),
       let s := fst (run_out sm_step (sm_make None) (l ++ concat (repeat [SmpTake; SmpWrite; SmpFire] n))) in
       last_written None None l = Some v -> 0 < n -> sm_value s = v).
Proof.
  intros H. specialize (H [InFlag (Some 1); SmpTake; SmpWrite; SmpFire; InPending] (Some 1) 3). cbn in H.
  discriminate H; [reflexivity | lia].
Qed.

Example debounce_case :
  run_out d_step (d_make 1) [DInput 2; DExpire []; DExpire []; DInput 3; DInput 4; DExpire []] = (DStream 4 false true, [Fire 2; Fire 4]).
Proof. reflexivity. Qed.
Example sample_case :
  let r := run_out sm_step (sm_make (Some 9)) (concat (map micro [Input (Some 1); Input (Some 2); Sample; Sample; Input (Some 3); Sample])) in
  sm_value (fst r) = Some 3 /\ snd r = [Fire (Some 2); Fire (Some 3)].
Proof. split; reflexivity. Qed.
(** an interleaving in which the fire reads a newer pending value than the one stored, and a later sample repairs it *)
Example sample_interleaved_case :
  let l := [InFlag (Some 1); InPending; SmpTake; InFlag (Some 2); SmpWrite; InPending; SmpFire] in
  let r := run_out sm_step (sm_make (Some 9)) l in
  sm_value (fst r) = Some 1 /\ snd r = [Fire (Some 2)] /\ snd (torn false true l) = false /\
  sm_value (fst (run_out sm_step (fst r) [SmpTake; SmpWrite; SmpFire])) = Some 2.
Proof. repeat split. Qed.

Print Assumptions debounce_fires.
Print Assumptions debounce_delivered.
Print Assumptions debounce_input_waits.
Print Assumptions debounce_reaction_lost.
Print Assumptions debounce_closed.
Print Assumptions debounce_delivered_refuted.
Print Assumptions sample_value.
Print Assumptions sample_fires.
Print Assumptions sample_initial_lost_refuted.
Print Assumptions sample_interleaved.
Print Assumptions sample_only_inputs.
Print Assumptions sample_lost_refuted.
