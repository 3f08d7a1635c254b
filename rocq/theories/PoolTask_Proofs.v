(** Proofs for PoolTask_Props. *)
From Coq Require Import Arith Bool List Lia.
From Verif Require Import PoolTask_Model PoolTask_Spec.
Import ListNotations.

Lemma upd_same {X} (f : nat -> X) t x : upd f t x t = x.
Proof. unfold upd. rewrite Nat.eqb_refl. reflexivity. Qed.
Lemma upd_other {X} (f : nat -> X) t x u : u <> t -> upd f t x u = f u.
Proof. intros H. unfold upd. destruct (Nat.eqb_spec u t); [contradiction|reflexivity]. Qed.
Lemma count_app f l l' : count f (l ++ l') = count f l + count f l'.
Proof. unfold count. rewrite filter_app, app_length. reflexivity. Qed.

(** the calls of a thread: at most one, with a cancel inside if the function is running *)
Inductive shape : list frame -> Prop :=
  | sh_none : shape []
  | sh_one f : shape [f]
  | sh_inner f : In f [CWait; CIn; CFin; CExit] -> shape [f; ERun].
Definition holding (l : list frame) : bool := match l with [] | [CWait] | [EWait] => false | _ => true end.
Definition locked (s : task) : Prop := forall t, shape (k_stack s t) /\ (holding (k_stack s t) = true <-> k_owner s = Some t).
Definition owner_stack (s : task) : list frame := match k_owner s with Some t => k_stack s t | None => [] end.
(** what the flag and the log are, by where the thread with the lock stands *)
Definition phase (l : list frame) (fn : bool) (st en : nat) : Prop :=
  match l with
  | [ERun] | [_; ERun] => st = 1 /\ en = 0
  | [EClear] => st = 1 /\ en = 1
  | _ => st = en /\ (fn = true -> st = 0) /\ st <= 1
  end.
Definition sound (s : task) : Prop :=
  locked s /\ phase (owner_stack s) (k_fn s) (count is_started (k_log s)) (count is_ended (k_log s)).

Lemma other_not_holding s t u : locked s -> k_owner s = Some t -> u <> t -> holding (k_stack s u) = false.
Proof.
  intros H Ho Hne. destruct (holding (k_stack s u)) eqn:E; [|reflexivity]. apply (H u) in E. congruence.
Qed.
(** a thread whose stack changes from [l] to [l'], the owner from [o] to [o'] *)
Lemma locked_step (s : task) t l' o' fn log :
  locked s -> shape l' ->
  (holding l' = true -> o' = Some t) -> (o' = Some t -> holding l' = true) ->
  (k_owner s = o' \/ (k_owner s = None /\ o' = Some t) \/ (k_owner s = Some t /\ o' = None)) ->
  locked (Task fn o' (upd (k_stack s) t l') log).
Proof.
  intros H Hs H1 H2 Ho u. cbn [k_stack k_owner]. unfold upd. destruct (Nat.eqb_spec u t) as [->|Hne].
  - split; [exact Hs|]. split; assumption.
  - destruct (H u) as [Hu Hh]. split; [exact Hu|]. rewrite Hh. destruct Ho as [->|[[-> ->]|[-> ->]]]; [tauto| |]; split; congruence.
Qed.

Lemma owner_none_phase s : sound s -> k_owner s = None ->
  count is_started (k_log s) = count is_ended (k_log s) /\ (k_fn s = true -> count is_started (k_log s) = 0) /\ count is_started (k_log s) <= 1.
Proof. intros [_ H] Ho. unfold owner_stack in H. rewrite Ho in H. exact H. Qed.

Ltac own H t := let X := fresh in assert (X := proj2 (H t)).

Lemma owner_stack_eq s t : k_owner s = Some t -> owner_stack s = k_stack s t.
Proof. unfold owner_stack. intros ->. reflexivity. Qed.

Lemma step_sound s a :
  match a with CallExecute t => k_stack s t = [] | _ => True end -> sound s -> sound (step s a).
Proof.
  intros Ha [HL HP]. destruct a as [t|t|t]; cbn [step].
  - destruct (can_call (k_stack s t)) eqn:Ec; [|split; assumption].
    destruct (HL t) as [Hsh Hh]. unfold stack_to. destruct (k_stack s t) as [|f r] eqn:E.
    + split.
      * apply locked_step; auto; [constructor|discriminate|]. intros Ho. exfalso. apply Hh in Ho. discriminate Ho.
      * unfold owner_stack in *. cbn [k_owner k_stack k_fn k_log]. destruct (k_owner s) as [u|] eqn:Eo; [|exact HP].
        rewrite upd_other; [exact HP|]. intros ->. apply proj2 in Hh. specialize (Hh eq_refl). discriminate Hh.
    + destruct f; try discriminate Ec. assert (r = []) as -> by (inversion Hsh as [|?|? Hin]; subst; [reflexivity|simpl in Hin; intuition discriminate]).
      assert (Ho : k_owner s = Some t) by (apply Hh; reflexivity).
      split.
      * apply locked_step; auto. constructor. simpl. auto.
      * rewrite (owner_stack_eq _ t Ho), E in HP. unfold owner_stack. cbn [k_owner k_stack k_fn k_log]. rewrite Ho, upd_same. exact HP.
  - rewrite Ha. cbn [can_call]. destruct (HL t) as [Hsh Hh]. rewrite Ha in Hh. unfold stack_to. split.
    + apply locked_step; auto; [constructor|discriminate|]. intros Ho. apply Hh in Ho. discriminate Ho.
    + unfold owner_stack in *. cbn [k_owner k_stack k_fn k_log]. destruct (k_owner s) as [u|] eqn:Eo; [|exact HP].
      rewrite upd_other; [exact HP|]. intros ->. apply proj2 in Hh. specialize (Hh eq_refl). discriminate Hh.
  - clear Ha. destruct (go t s) as [s'|] eqn:Eg; [|split; assumption]. unfold go in Eg.
    destruct (HL t) as [Hsh Hh]. destruct (k_stack s t) as [|f r] eqn:E; [discriminate|].
    assert (Hcases : (f = CWait \/ f = EWait) /\ r = [] \/ k_owner s = Some t).
    { destruct (holding (f :: r)) eqn:Eh; [right; apply Hh; reflexivity|]. left. destruct f, r; try discriminate Eh; auto. }
    destruct f.
    (* waiting for the lock *)
    1,5: unfold can_lock in Eg;
      (destruct (k_owner s) as [u|] eqn:Eo;
       [destruct (Nat.eqb_spec u t) as [->|]; [|discriminate]|]); injection Eg as <-; unfold lock_to, stack_to; cbn [k_fn k_owner k_stack k_log].
    1,3: (inversion Hsh as [|?|? Hin]; subst; [exfalso; apply proj2 in Hh; specialize (Hh eq_refl); discriminate Hh|]);
      first [exfalso; simpl in Hin; intuition discriminate|
        split; [apply locked_step; auto; constructor; simpl; auto|];
        rewrite (owner_stack_eq _ t Eo), E in HP; unfold owner_stack; cbn [k_owner k_stack k_fn k_log]; rewrite upd_same; exact HP].
    1,2: (inversion Hsh as [|?|? Hin]; subst; [|exfalso; assert (holding [CWait; ERun] = true -> False) by (intros X; apply Hh in X; discriminate X); first [apply H; reflexivity|simpl in Hin; intuition discriminate]]);
      (split; [apply locked_step; auto; constructor|]); unfold owner_stack in *; rewrite Eo in HP; cbn [k_owner k_stack k_fn k_log]; rewrite upd_same; exact HP.
    all: assert (Ho : k_owner s = Some t) by (destruct Hcases as [[[?|?] _]|]; [discriminate|discriminate|assumption]).
    all: rewrite (owner_stack_eq _ t Ho), E in HP.
    all: inversion Hsh as [|?|? Hin]; subst; try (exfalso; simpl in Hin; intuition discriminate).
    all: try (destruct (k_fn s) eqn:Ef); injection Eg as <-; unfold unlock, lock_to, stack_to, log_to, clear; cbn [k_fn k_owner k_stack k_log].
    all: split; [apply locked_step; auto; try constructor; simpl; auto; try congruence|].
    all: unfold owner_stack; cbn [k_owner k_stack k_fn k_log]; try rewrite Ho; try rewrite upd_same; rewrite ?count_app; cbn [count filter is_started is_ended length app];
         unfold phase in *; cbn in *; intuition (try congruence; try lia).
Qed.
Lemma sound_make : sound task_make.
Proof. split; [intros t; simpl; split; [constructor|split; discriminate]|]. simpl. unfold count. simpl. auto. Qed.
Lemma run_sound l s : no_inner_execute l s -> sound s -> sound (run l s).
Proof.
  revert s. induction l as [|a l IH]; intros s; [auto|]. intros [Ha Hl] Hs. change (run (a :: l) s) with (run l (step s a)).
  apply IH; [exact Hl|]. apply step_sound; assumption.
Qed.
Lemma sound_once s : sound s -> count is_started (k_log s) <= 1.
Proof.
  intros [_ H]. unfold phase in H. destruct (owner_stack s) as [|f [|g [|h r]]]; [lia| | |]; try (destruct f; lia).
  - destruct f, g; lia.
  - destruct f, g; lia.
Qed.

(** without calls from inside the function *)
Definition phase2 (l : list frame) (fn : bool) (st en fi : nat) : Prop :=
  match l with
  | [ERun] => fn = true /\ st = 1 /\ en = 0 /\ fi = 0
  | [EClear] => fn = true /\ st = 1 /\ en = 1 /\ fi = 0
  | [EFin] => fn = false /\ st = 1 /\ en = 1 /\ fi = 0
  | [CFin] => fn = false /\ st = 0 /\ en = 0 /\ fi = 0
  | [CExit] | [EExit] => fn = false /\ st = en /\ st <= 1 /\ fi = 1
  | _ => st = en /\ st <= 1 /\ (fn = true -> st = 0 /\ fi = 0) /\ (fn = false -> fi = 1)
  end.
Definition sound2 (s : task) : Prop :=
  (forall t, length (k_stack s t) <= 1) /\ locked s /\
  phase2 (owner_stack s) (k_fn s) (count is_started (k_log s)) (count is_ended (k_log s)) (count is_finished (k_log s)) /\
  (0 < count is_return (k_log s) -> k_fn s = false /\ count is_finished (k_log s) = 1).

Lemma locked_len (s : task) t l' o' fn log : (forall u, length (k_stack s u) <= 1) -> length l' <= 1 ->
  forall u, length (k_stack (Task fn o' (upd (k_stack s) t l') log) u) <= 1.
Proof. intros H Hl u. cbn [k_stack]. unfold upd. destruct (Nat.eqb u t); auto. Qed.

Lemma step_sound2 s a :
  match a with CallCancel t | CallExecute t => k_stack s t = [] | Go _ => True end -> sound2 s ->
  sound2 (step s a) /\ exists l, k_log (step s a) = k_log s ++ l /\ (0 < count is_return (k_log s) -> forall e, In e l -> is_return e = true).
Proof.
  intros Ha (H1 & HL & HP & HR).
  assert (Hcall : forall t f, (f = CWait \/ f = EWait) -> k_stack s t = [] -> sound2 (stack_to t [f] s)).
  { intros t f Hf E. destruct (HL t) as [Hsh Hh]. rewrite E in Hh. unfold stack_to. split; [apply locked_len; auto|]. split; [|split].
    - apply locked_step; auto; [constructor|destruct Hf; subst f; discriminate|]. intros Ho. apply Hh in Ho. discriminate Ho.
    - unfold owner_stack in *. cbn [k_owner k_stack k_fn k_log]. destruct (k_owner s) as [u|] eqn:Eo; [|exact HP].
      rewrite upd_other; [exact HP|]. intros ->. apply proj2 in Hh. specialize (Hh eq_refl). discriminate Hh.
    - exact HR. }
  destruct a as [t|t|t]; cbn [step].
  - rewrite Ha. cbn [can_call]. split; [apply Hcall; auto|]. exists []. rewrite app_nil_r. split; [reflexivity|]. intros _ e [].
  - rewrite Ha. cbn [can_call]. split; [apply Hcall; auto|]. exists []. rewrite app_nil_r. split; [reflexivity|]. intros _ e [].
  - clear Ha Hcall. destruct (go t s) as [s'|] eqn:Eg.
    2:{ split; [unfold sound2; auto|]. exists []. rewrite app_nil_r. split; [reflexivity|]. intros _ e []. }
    unfold go in Eg. assert (Ht := H1 t). destruct (HL t) as [_ Hh].
    destruct (k_stack s t) as [|f r] eqn:E; [discriminate|]. destruct r; [|simpl in Ht; lia]. clear Ht.
    destruct f.
    1,5: assert (Ho : k_owner s = None) by (unfold can_lock in Eg; destruct (k_owner s) as [u|] eqn:Eo; [|reflexivity];
           destruct (Nat.eqb_spec u t) as [->|]; [apply proj2 in Hh; specialize (Hh eq_refl); discriminate Hh|discriminate]);
         unfold can_lock in Eg; rewrite Ho in Eg; injection Eg as <-; unfold lock_to, stack_to; cbn [k_fn k_owner k_stack k_log];
         unfold owner_stack in HP; rewrite Ho in HP;
         (split; [|exists []; rewrite app_nil_r; split; [reflexivity|intros _ e []]]);
         (split; [apply locked_len; auto|]); (split; [apply locked_step; auto; constructor|]); (split; [|exact HR]);
         unfold owner_stack; cbn [k_owner k_stack k_fn k_log]; rewrite upd_same; exact HP.
    all: assert (Ho : k_owner s = Some t) by (apply Hh; reflexivity).
    all: rewrite (owner_stack_eq _ t Ho), E in HP.
    all: try (destruct (k_fn s) eqn:Ef); injection Eg as <-; unfold unlock, lock_to, stack_to, log_to, clear; cbn [k_fn k_owner k_stack k_log].
    all: split; [split; [apply locked_len; auto|split; [apply locked_step; auto; try constructor; simpl; auto; try congruence|]]|].
    all: try (unfold owner_stack; cbn [k_owner k_stack k_fn k_log]; try rewrite Ho; try rewrite upd_same; rewrite ?count_app;
         cbn [count filter is_started is_ended is_finished is_return length app];
         unfold phase2 in *; cbn in *; intuition (try congruence; try lia); fail).
    all: try (exists []; rewrite app_nil_r; split; [reflexivity|intros _ e []]; fail).
    all: (eexists [_]; split; [reflexivity|]); intros Hr e [<-|[]]; try reflexivity; exfalso; destruct (HR Hr) as [Hf Hfi]; unfold phase2 in HP;
         intuition (try congruence; try lia).
Qed.
Definition returned_ok (s : task) : Prop :=
  forall l1 e l2, k_log s = l1 ++ e :: l2 -> is_return e = true -> forall e', In e' l2 -> is_return e' = true.
Lemma count_pos f l e : In e l -> f e = true -> 0 < count f l.
Proof.
  intros Hin Hf. unfold count. assert (H : In e (filter f l)) by (apply filter_In; auto). destruct (filter f l); [destruct H|simpl; lia].
Qed.
Lemma snoc_split {X} (l l' : list X) l1 e l2 :
  l ++ l' = l1 ++ e :: l2 -> (exists l2', l = l1 ++ e :: l2' /\ l2 = l2' ++ l') \/ (exists l1', l1 = l ++ l1' /\ l' = l1' ++ e :: l2).
Proof.
  revert l1. induction l as [|x l IH]; intros l1 H; [right; exists l1; auto|]. destruct l1 as [|y l1].
  - injection H as -> H. left. exists l. auto.
  - injection H as -> H. destruct (IH _ H) as [(l2' & -> & ->)|(l1' & -> & ->)]; [left; exists l2'; auto|right; exists l1'; auto].
Qed.
Lemma run_sound2 l s : outer_calls l s -> sound2 s -> returned_ok s -> (forall t, length (k_stack s t) <= 1) -> sound2 (run l s) /\ returned_ok (run l s).
Proof.
  revert s. induction l as [|a l IH]; intros s; [auto|]. intros [Ha Hl] Hs Hr Hn. change (run (a :: l) s) with (run l (step s a)).
  destruct (step_sound2 s a) as (Hs' & l' & El & Hnew); [destruct a; exact Ha|exact Hs|].
  apply IH; [exact Hl|exact Hs'| |apply Hs'].
  intros l1 e l2 E He e' Hin. rewrite El in E.
  destruct (snoc_split _ _ _ _ _ E) as [(l2' & E1 & ->)|(l1' & -> & E1)].
  - apply in_app_or in Hin. destruct Hin as [Hin|Hin]; [exact (Hr _ _ _ E1 He _ Hin)|].
    apply Hnew; [|exact Hin]. apply count_pos with e; [rewrite E1; apply in_elt|exact He].
  - (* at most one event is logged in a step *)
    assert (Hlen : length l' <= 1).
    { clear - El Ha. destruct a as [t|t|t]; cbn [step] in El.
      1,2: destruct (can_call (k_stack s t)); cbn [stack_to k_log] in El; rewrite <- (app_nil_r (k_log s)) in El at 1; apply app_inv_head in El; subst l'; simpl; lia.
      assert (Hone : forall x, k_log x = k_log s \/ (exists e, k_log x = k_log s ++ [e]) -> k_log x = k_log s ++ l' -> length l' <= 1).
      { intros x [Hx|[e Hx]] Hy; rewrite Hx in Hy; [rewrite <- (app_nil_r (k_log s)) in Hy at 1|]; apply app_inv_head in Hy; subst l'; simpl; lia. }
      refine (Hone _ _ El). clear. unfold go. destruct (k_stack s t) as [|f r]; [auto|].
      destruct f; try destruct (can_lock t s); try destruct (k_fn s); try destruct r; cbn; eauto. }
    rewrite E1 in Hlen. rewrite app_length in Hlen. simpl in Hlen. destruct l2; [destruct Hin|simpl in Hlen; lia].
Qed.
Lemma sound2_make : sound2 task_make.
Proof.
  split; [intros t; simpl; lia|]. split; [intros t; simpl; split; [constructor|split; discriminate]|].
  split; [simpl; unfold count; simpl; repeat split; auto; discriminate|]. unfold count. simpl. lia.
Qed.
