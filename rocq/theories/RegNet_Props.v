(** Listeners of the registry that use it themselves, and threads. *)
From stdpp Require Import gmap sets list.
From Verif Require Import PyBase Registry_Model Registry_Spec Registry_Proofs RegNet_Model RegNet_Spec RegNet_Proofs RegNet_Proofs2.

Section Props.
  Context {C T : Type} `{Countable C} `{Countable T}.
  Variable order : gset C -> list C.
  Notation netT := (net C T).

  (** Whatever the listeners and the threads do, a listener is told of everything since it began to
      listen exactly once, now or later. *)
  Theorem regnet_once (s0 : netT) l acts :
    reached order s0 -> fresh l s0 -> Forall proper acts -> Forall (spares l) acts ->
    let s := nrun order (AListen l :: acts) s0 in
    told l s ++ waits l s ≡ₚ drop (length (r_notes (n_reg s0))) (r_notes (n_reg s)).
  Proof.
    intros R F Pr Sp. cbv zeta.
    apply (paid_run order l (length (r_notes (n_reg s0))) acts (nstep order s0 (AListen l)));
      [apply (views_reached order s0 R)|done|done|apply hears_once_fresh; done|apply paid_fresh; done].
  Qed.

  (** If the registry is used only when nothing is under way and by one thread, also in that order. *)
  Theorem regnet_in_turn (s0 : netT) l acts :
    reached order s0 -> fresh l s0 -> n_stacks s0 = [[]] -> Forall proper acts -> Forall (spares l) acts ->
    throughout order in_turn (nstep order s0 (AListen l)) acts ->
    let s := nrun order (AListen l :: acts) s0 in
    told l s ++ waits l s = drop (length (r_notes (n_reg s0))) (r_notes (n_reg s)).
  Proof.
    intros R F Es Pr Sp Th. cbv zeta.
    destruct (orderly_run order l (length (r_notes (n_reg s0))) acts (nstep order s0 (AListen l))) as (fs & E1 & _ & _ & E2).
    - apply (views_reached order s0 R).
    - done.
    - done.
    - apply hears_once_fresh; done.
    - done.
    - exists []. split; [exact Es|]. split; [exists [], []; split; [done|]; split; [constructor|left; done]|].
      split; [done|]. simpl. rewrite drop_all, app_nil_r. exact (proj1 (proj2 F)).
    - change (nrun order (AListen l :: acts) s0) with (nrun order acts (nstep order s0 (AListen l))).
      rewrite <- E2. rewrite waits_frames. unfold frames. rewrite E1. simpl. rewrite app_nil_r. done.
  Qed.

  (** Counting what was told gives what is registered, whatever the order it was told in: provided the
      types are named and [fire_existing_component_registered_events] is not used. *)
  Theorem regnet_count (s0 : netT) l c t acts :
    reached order s0 -> fresh l s0 -> quiet s0 ->
    Forall proper acts -> Forall (spares l) acts -> Forall loopless acts -> Forall (named_act c) acts ->
    let s := nrun order (AListen l :: acts) s0 in
    waits l s = [] ->
    (listed (n_reg s0) c t <-> listed (n_reg s) c t) /\ tally c t (told l s) = 0%Z \/
    ~ listed (n_reg s0) c t /\ listed (n_reg s) c t /\ tally c t (told l s) = 1%Z \/
    listed (n_reg s0) c t /\ ~ listed (n_reg s) c t /\ tally c t (told l s) = (-1)%Z.
  Proof.
    intros R F Qu Pr Sp Lo Na. cbv zeta. intros W.
    assert (V := views_reached order s0 R).
    pose proof (regnet_once s0 l acts R F Pr Sp) as Pm. cbv zeta in Pm. rewrite W, app_nil_r in Pm.
    assert (St : straight (nstep order s0 (AListen l))).
    { unfold straight. change (frames (nstep order s0 (AListen l))) with (frames s0). unfold frames. unfold quiet in Qu.
      rewrite Forall_forall. intros f I. apply elem_of_list_In, in_concat in I as (x & I1 & I2).
      rewrite Forall_forall in Qu. rewrite (Qu x) in I2; [destruct I2|]. apply elem_of_list_In. done. }
    destruct (counted_run order c t (length (r_notes (n_reg s0))) (holds (n_reg s0) c t) acts (nstep order s0 (AListen l))) as (_ & E); try done.
    { split; [done|]. simpl. rewrite drop_all. simpl. lia. }
    change (nrun order acts (nstep order s0 (AListen l))) with (nrun order (AListen l :: acts) s0) in E.
    rewrite (tally_perm c t _ _ Pm), E. unfold holds, listed.
    repeat case_decide; [left|right; left|right; right|left]; split_and!; try tauto; lia.
  Qed.

  (** If a component and type are changed only when nothing about them is under way, and with the types
      named, what was told last is how it is. *)
  Theorem regnet_mirror (s0 : netT) l c t acts :
    (forall X, order X ≡ₚ elements X) ->
    reached order s0 -> fresh l s0 -> settled l c t s0 -> Forall proper acts -> Forall (spares l) acts ->
    throughout order (calm l c t) (nstep order s0 (AListen l)) acts ->
    let s := nrun order (AListen l :: acts) s0 in
    (forall n, n ∈ waits l s -> ~ about c t n) ->
    match latest c t (told l s) with
    | Some b => listed (n_reg s) c t <-> b = true
    | None => listed (n_reg s) c t <-> listed (n_reg s0) c t
    end.
  Proof.
    intros Oo R F Se Pr Sp Th. cbv zeta. intros W.
    assert (Su : sure l c t (listed (n_reg s0) c t) (nstep order s0 (AListen l))).
    { split.
      - change (frames (nstep order s0 (AListen l))) with (frames s0). unfold settled in Se. unfold frames.
        eapply Forall_impl; [exact Se|]. intros f Hf Hp. destruct (Hf Hp).
      - intros _. unfold known. change (told l (nstep order s0 (AListen l))) with (told l s0).
        rewrite (proj1 (proj2 F)). simpl. done. }
    pose proof (sure_run order l c t _ acts _ (views_reached order s0 R : views_agree (n_reg (nstep order s0 (AListen l)))) Pr Sp
                  (hears_once_fresh order l s0 F) Oo Th Su) as [_ K].
    apply K. change (nrun order acts (nstep order s0 (AListen l))) with (nrun order (AListen l :: acts) s0).
    unfold nocall. apply Forall_forall. intros f I. destruct f as [l' n|]; [|done]. intros [-> Ab]. apply (W n); [|done].
    rewrite waits_frames. apply elem_of_list_omap. exists (FCall l n). split; [done|]. simpl. rewrite decide_True; done.
  Qed.

  (** A listener that asks for the existing components of a type knows, when nothing is under way any
      more, exactly which are registered with it, unless the loop was broken off. *)
  Theorem regnet_existing (s0 : netT) l c t k acts :
    (forall X, order X ≡ₚ elements X) ->
    reached order s0 -> fresh l s0 -> settled l c t s0 -> k < length (n_stacks s0) ->
    Forall proper acts -> Forall (spares l) acts ->
    throughout order (calm l c t) (nstep order s0 (AListen l)) (AExisting k t :: acts) ->
    let s := nrun order (AListen l :: AExisting k t :: acts) s0 in
    RuntimeError ∉ n_raised s -> settled l c t s ->
    (listed (n_reg s) c t <-> latest c t (told l s) = Some true).
  Proof.
    intros Oo R F Se Lk Pr Sp Th. cbv zeta. intros Nr Ss.
    pose proof (regnet_mirror s0 l c t (AExisting k t :: acts) Oo R F Se) as M.
    cbv zeta in M.
    specialize (M ltac:(by constructor) ltac:(by constructor) Th).
    assert (W : forall n, n ∈ waits l (nrun order (AListen l :: AExisting k t :: acts) s0) -> ~ about c t n).
    { intros n I Ab. rewrite waits_frames in I. apply elem_of_list_omap in I as (f & If & Ef).
      destruct f as [l' n'|]; simpl in Ef; [|done]. destruct (decide (l' = l)) as [->|]; [|done]. injection Ef as ->.
      unfold settled in Ss. rewrite Forall_forall in Ss. apply (Ss _ If). done. }
    specialize (M W).
    destruct (latest c t (told l (nrun order (AListen l :: AExisting k t :: acts) s0))) as [b|] eqn:El.
    { rewrite M. split; [intros ->; done|congruence]. }
    rewrite M. split; [|done]. intros Hl. exfalso.
    set (s2 := nstep order (nstep order s0 (AListen l)) (AExisting k t)).
    assert (V2 : views_agree (n_reg s2)).
    { unfold s2. apply views_step; [apply (views_reached order s0 R)|done]. }
    assert (Le : learnt l c t s2).
    { right. apply settled_frames. exists (FLoop t (order (components_by_type (n_reg s0) t)) (size (components_by_type (n_reg s0) t))).
      split.
      - unfold s2, frames. cbn [nstep n_stacks n_reg].
        destruct (lookup_lt_is_Some_2 (n_stacks s0) k Lk) as (fs & Ek). rewrite Ek.
        assert (exists X, r_by_type (n_reg s0) !! t = Some X) as (X & EX).
        { unfold listed, components_by_type in Hl. destruct (r_by_type (n_reg s0) !! t) as [X|]; [exists X; done|set_solver]. }
        rewrite EX. cbn [with_stack n_stacks].
        edestruct (stack_split (n_stacks s0) k fs) as (P & Q & _ & E2); [exact Ek|]. rewrite E2. set_solver.
      - simpl. split; [done|]. rewrite Oo. apply elem_of_elements. exact Hl. }
    assert (Ho2 : hears_once l s2).
    { unfold s2. apply hears_once_step; [apply (views_reached order s0 R)|done|done|apply hears_once_fresh; done]. }
    destruct (learnt_run order l c t acts s2 V2 Pr Sp Ho2 Nr Le) as [Q|Q].
    - apply Q. exact El.
    - apply Q. exact Ss.
  Qed.
End Props.
Print Assumptions regnet_once.
Print Assumptions regnet_in_turn.
Print Assumptions regnet_count.
Print Assumptions regnet_mirror.
Print Assumptions regnet_existing.

Definition els (X : gset nat) : list nat := elements X.
Notation run1 acts := (nrun els acts (net_new 1 : net nat nat)).
Notation run2 acts := (nrun els acts (net_new 2 : net nat nat)).

Definition nested : list (nact nat nat) :=
  [AListen 0; AListen 1; ADo 0 (ORegister 7 [3; 4]); AGo 0; ADo 0 (OUnregister 7 (Some [3])); AGo 0; AGo 0; AGo 0].

(** An earlier listener that unregisters at once what it is told of: the later listener is told of it in
    the wrong order, and what it was told last is wrong for good. *)
Theorem regnet_mirror_refuted :
  exists acts : list (nact nat nat),
    Forall proper acts /\ quiet (run1 acts) /\ n_raised (run1 acts) = [] /\
    latest 7 3 (told 1 (run1 acts)) = Some true /\ ~ listed (n_reg (run1 acts)) 7 3 /\
    tally 7 3 (told 1 (run1 acts)) = 0%Z.
Proof.
  exists nested. split_and!; try (vm_compute; reflexivity).
  - repeat constructor; simpl; set_solver.
  - vm_compute. repeat constructor.
  - unfold listed. refine (proj1 (bool_decide_eq_false _) _). vm_compute. reflexivity.
Qed.
Print Assumptions regnet_mirror_refuted.

(** So do two threads, each of which uses the registry only when it has nothing else to do. *)
Theorem regnet_threads_refuted :
  exists acts : list (nact nat nat),
    Forall proper acts /\ quiet (run2 acts) /\ n_raised (run2 acts) = [] /\
    latest 7 3 (told 1 (run2 acts)) = Some true /\ ~ listed (n_reg (run2 acts)) 7 3.
Proof.
  exists [AListen 1; ADo 0 (ORegister 7 [3; 4]); ADo 1 (OUnregister 7 (Some [3])); AGo 1; AGo 0].
  split_and!; try (vm_compute; reflexivity).
  - repeat constructor; simpl; set_solver.
  - vm_compute. repeat constructor.
  - unfold listed. refine (proj1 (bool_decide_eq_false _) _). vm_compute. reflexivity.
Qed.
Print Assumptions regnet_threads_refuted.

(** After unregistering without naming types a listener cannot know, even if nothing is nested. *)
Theorem regnet_unnamed_refuted :
  exists acts : list (nact nat nat),
    Forall proper acts /\ throughout els in_turn (net_new 1) acts /\ quiet (run1 acts) /\ n_raised (run1 acts) = [] /\
    latest 7 3 (told 1 (run1 acts)) = Some true /\ tally 7 3 (told 1 (run1 acts)) = 1%Z /\ ~ listed (n_reg (run1 acts)) 7 3.
Proof.
  exists [AListen 1; ADo 0 (ORegister 7 [3; 4]); AGo 0; ADo 0 (OUnregister 7 None); AGo 0].
  split_and!; try (vm_compute; reflexivity).
  - repeat constructor; simpl; set_solver.
  - vm_compute. repeat constructor.
  - vm_compute. repeat constructor.
  - unfold listed. refine (proj1 (bool_decide_eq_false _) _). vm_compute. reflexivity.
Qed.
Print Assumptions regnet_unnamed_refuted.

(** A listener that registers another component of the type when it is told of an existing one breaks
    off the loop: the others are never told, and the listener that asked does not learn of them. *)
Theorem regnet_existing_refuted :
  exists acts : list (nact nat nat),
    Forall proper acts /\ quiet (run1 acts) /\ n_raised (run1 acts) = [RuntimeError] /\
    listed (n_reg (run1 acts)) 8 3 /\ latest 8 3 (told 1 (run1 acts)) = None /\
    listed (n_reg (run1 acts)) 9 3 /\ latest 9 3 (told 1 (run1 acts)) = Some true.
Proof.
  exists [ADo 0 (ORegister 7 [3]); ADo 0 (ORegister 8 [3]); AListen 1; AExisting 0 3; AGo 0; AGo 0;
          ADo 0 (ORegister 9 [3]); AGo 0; AGo 0].
  split_and!; try (vm_compute; reflexivity).
  - repeat constructor; simpl; set_solver.
  - vm_compute. repeat constructor.
Qed.
Print Assumptions regnet_existing_refuted.

(** A listener that was there before is told again of what it knows: counting goes wrong. *)
Theorem regnet_count_refuted :
  exists acts : list (nact nat nat),
    Forall proper acts /\ throughout els in_turn (net_new 1) acts /\ quiet (run1 acts) /\ n_raised (run1 acts) = [] /\
    listed (n_reg (run1 acts)) 7 3 /\ tally 7 3 (told 0 (run1 acts)) = 2%Z.
Proof.
  exists [AListen 0; ADo 0 (ORegister 7 [3]); AGo 0; AExisting 0 3; AGo 0; AGo 0; AGo 0].
  split_and!; try (vm_compute; reflexivity).
  - repeat constructor; simpl; set_solver.
  - vm_compute. repeat constructor.
  - vm_compute. repeat constructor.
Qed.
Print Assumptions regnet_count_refuted.

Lemma els_ok X : els X ≡ₚ elements X.
Proof. done. Qed.
Lemma reached_new n : reached els (net_new n : net nat nat).
Proof. exists n, []. split; [constructor|done]. Qed.
Lemma fresh_new l n : fresh l (net_new n : net nat nat).
Proof.
  split; [vm_compute; apply not_elem_of_nil|]. split; [done|].
  unfold waits. simpl. induction n as [|n IH]; simpl; done.
Qed.

(** notifications with the types as lists *)
Definition shown (l : list (rnote (C:=nat) (T:=nat))) : list (bool * nat * list nat) :=
  (fun n => match n with NRegistered c ts => (true, c, elements ts) | NUnregistered c ts => (false, c, elements ts) end) <$> l.

(** The listener 1 of [nested] was told all, but not in order. *)
Example regnet_ex_once :
  shown (told 1 (run1 nested)) = [(false, 7, [3]); (true, 7, [3; 4])] /\
  shown (r_notes (n_reg (run1 nested))) = [(true, 7, [3; 4]); (false, 7, [3])].
Proof. split; vm_compute; reflexivity. Qed.
Example regnet_ex_once_waits :
  shown (waits 1 (run1 (take 6 nested))) = [(false, 7, [3]); (true, 7, [3; 4])] /\ told 1 (run1 (take 6 nested)) = [].
Proof. split; vm_compute; reflexivity. Qed.

Definition plain : list (nact nat nat) :=
  [ADo 0 (ORegister 7 [3; 4]); AGo 0; ADo 0 (ORegister 8 [3]); AGo 0; ADo 0 (OUnregister 7 (Some [4])); AGo 0].
Example regnet_ex_in_turn :
  shown (told 5 (run1 (AListen 5 :: plain))) = [(true, 7, [3; 4]); (true, 8, [3]); (false, 7, [4])] /\
  throughout els in_turn (nstep els (net_new 1) (AListen 5)) plain.
Proof. split; [vm_compute; reflexivity|]. vm_compute. repeat constructor. Qed.

(** Counting is right even for [nested]. *)
Example regnet_ex_count :
  waits 1 (run1 nested) = [] /\ tally 7 3 (told 1 (run1 nested)) = 0%Z /\ tally 7 4 (told 1 (run1 nested)) = 1%Z.
Proof. split_and!; vm_compute; reflexivity. Qed.

(** A listener that registers another component when it is told of one is harmless. *)
Definition helper : list (nact nat nat) :=
  [AListen 0; AListen 1; ADo 0 (ORegister 7 [3]); AGo 0; ADo 0 (ORegister 8 [3]); AGo 0; AGo 0; AGo 0].
Example regnet_ex_mirror :
  latest 7 3 (told 1 (run1 helper)) = Some true /\ latest 8 3 (told 1 (run1 helper)) = Some true /\
  shown (told 1 (run1 helper)) = [(true, 8, [3]); (true, 7, [3])].
Proof. split_and!; vm_compute; reflexivity. Qed.

(** Existing components are told, one that is unregistered later as well. *)
Definition asked : list (nact nat nat) :=
  [ADo 0 (ORegister 7 [3]); ADo 0 (ORegister 8 [3; 4]); AListen 1; AExisting 0 3; AGo 0; AGo 0; AGo 0; AGo 0; AGo 0;
   ADo 0 (OUnregister 7 None); AGo 0; ADo 0 (OUnregister 8 (Some [3])); AGo 0].
Example regnet_ex_existing :
  latest 7 3 (told 1 (run1 asked)) = Some true /\ latest 8 3 (told 1 (run1 asked)) = Some false /\
  latest 8 3 (told 1 (run1 (take 9 asked))) = Some true /\ n_raised (run1 asked) = [].
Proof. split_and!; vm_compute; reflexivity. Qed.

(** The loop over a type that was never registered has nothing to trip over, that over an emptied type
    has. *)
Definition meanwhile (t : nat) : list (nact nat nat) :=
  [ADo 0 (ORegister 7 [3]); ADo 0 (OUnregister 7 None); AExisting 0 t; ADo 1 (ORegister 8 [t]); AGo 0].
Example regnet_ex_never :
  n_raised (run2 (meanwhile 4)) = [] /\ n_raised (run2 (meanwhile 3)) = [RuntimeError].
Proof. split; vm_compute; reflexivity. Qed.
