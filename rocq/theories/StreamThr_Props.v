(** Combined streams used by threads: the theorems. *)
From Coq Require Import Bool List Arith Lia.
From Verif Require Import PyBase StreamThr_Model StreamThr_Spec StreamThr_Proofs.
Import ListNotations.

Section Props.
  Variables V W : Type.
  Variable V_dec : forall x y : V, {x = y} + {x <> y}.
  Variable f : list V -> W.
  Notation step := (step V_dec f). Notation run := (run V_dec f).

  (** Whatever the threads do, the combined value, and all the observer is told, is the function of values the inputs
      have had (maybe not all at one time). *)
  Theorem streamthr_once l0 l :
    let s := run l (start f l0) in
    once f l0 l (out s) /\ forall w, In w (told s) -> once f l0 l w.
  Proof.
    intros s. destruct (pinv_run V W V_dec f l0 l) as [_ _ _ _ O T]. split; [exact O|exact T].
  Qed.

  (** If each input is set by one thread at a time, the values kept by the combined stream are those of the inputs
      whenever nothing is under way; in particular of each input that nobody is setting. *)
  Theorem streamthr_slots l0 l :
    all_acts own step (start f l0) l ->
    let s := run l (start f l0) in
    (quiet s -> slots s = ins s) /\
    (forall i, (forall t, ~ setting (pcs s t) i) -> nth_error (slots s) i = nth_error (ins s) i).
  Proof.
    intros G s.
    pose proof (inv_run V W V_dec f (oinv V W) own l (start f l0) (oinv_step V W V_dec f) (oinv_start V W f l0) G) as I.
    split; [apply oinv_quiet, I|]. intros i H.
    destruct (o_slot _ _ _ I i) as [E|(t & U)]; [exact E|]. destruct (H t).
    fold s in U |- *. destruct (pcs s t); simpl in *; try contradiction; exact U.
  Qed.

  (** If moreover no value is stored while a thread holds a computed value, and none is written while one is being
      told, then whenever nothing is under way the combined value is that of the inputs and was told last. *)
  Theorem streamthr_right l0 l :
    all_acts (fun s a => own s a /\ apart s a) step (start f l0) l ->
    let s := run l (start f l0) in quiet s -> right f s.
  Proof.
    intros G s Q.
    pose proof (inv_run V W V_dec f (fun s => oinv V W s /\ ainv V W f s) (fun s a => own s a /\ apart s a) l (start f l0)) as I.
    destruct I as [I A].
    - intros s0 a [I A] [H1 H2]. split; [apply oinv_step|apply ainv_step]; assumption.
    - split; [apply oinv_start|apply ainv_start].
    - exact G.
    - fold s in I, A. pose proof (oinv_quiet V W s I Q) as E.
      destruct (ainv_quiet V W f s A Q) as [O T]. rewrite E in O.
      split; [exact O|]. rewrite <- O. exact T.
  Qed.

  (** A stale combined value lasts until the next change at most: one change made while nothing else is under way,
      of whichever input, puts it right. *)
  Theorem streamthr_repair l0 l t i v u n :
    all_acts own step (start f l0) l ->
    let s := run l (start f l0) in
    quiet s -> nth_error (ins s) i = Some u -> u <> v -> 8 <= n ->
    let s' := run (Begin t i v :: repeat (Step t) n) s in
    quiet s' /\ ins s' = upd i v (ins s) /\ right f s'.
  Proof.
    intros G s Q N D Ln.
    pose proof (proj1 (streamthr_slots l0 l G) Q) as E. fold s in E. clearbody s. clear G.
    destruct (lone_set V W V_dec f s t i v u n Q E N D Ln) as (Q' & I' & O' & T').
    split; [exact Q'|]. split; [exact I'|]. split; [rewrite I'; exact O'|].
    exists (told s). rewrite I'. exact T'.
  Qed.
End Props.

(** The sum of the inputs, as an example of a function. *)
Definition sum (l : list nat) : nat := fold_right Nat.add 0 l.
Notation runn := (run Nat.eq_dec sum).
Notation stepn := (step Nat.eq_dec sum).

(** Two inputs, each with its own thread; the second thread comes in after the first has computed and goes through
    before the first writes. *)
Definition race : list (act nat) :=
  Begin 0 0 10 :: repeat (Step 0) 5 ++ Begin 1 1 20 :: repeat (Step 1) 8 ++ repeat (Step 0) 3.
(** The second thread comes in after the first has read the value to be told. *)
Definition late : list (act nat) :=
  Begin 0 0 10 :: repeat (Step 0) 7 ++ Begin 1 1 20 :: repeat (Step 1) 8 ++ [Step 0].
(** Both threads set the same input. *)
Definition same : list (act nat) :=
  Begin 0 0 10 :: repeat (Step 0) 3 ++ Begin 1 0 20 :: repeat (Step 1) 8 ++ repeat (Step 0) 5.

Lemma race_own : all_acts own stepn (start sum [1; 2]) race.
Proof. vm_compute. repeat split; intros [|[|t]] H; try exact H; discriminate H. Qed.
Lemma late_own : all_acts own stepn (start sum [1; 2]) late.
Proof. vm_compute. repeat split; intros [|[|t]] H; try exact H; discriminate H. Qed.
Lemma race_quiet : quiet (runn race (start sum [1; 2])).
Proof. intros t. vm_compute. destruct t as [|[|t]]; reflexivity. Qed.
Lemma late_quiet : quiet (runn late (start sum [1; 2])).
Proof. intros t. vm_compute. destruct t as [|[|t]]; reflexivity. Qed.
Lemma same_quiet : quiet (runn same (start sum [1; 2])).
Proof. intros t. vm_compute. destruct t as [|[|t]]; reflexivity. Qed.

(** FINDING.  Even if each input has its own thread the combined stream can be left with a value that is not that of
    the inputs, after all threads have ended. *)
Theorem streamthr_stale_refuted :
  ~ forall l, all_acts own stepn (start sum [1; 2]) l ->
      let s := runn l (start sum [1; 2]) in quiet s -> out s = sum (ins s).
Proof. intros H. specialize (H race race_own race_quiet). vm_compute in H. discriminate H. Qed.

(** FINDING.  Even if the combined value is right at the end, an observer can have been told an older one last. *)
Theorem streamthr_told_refuted :
  ~ forall l, all_acts own stepn (start sum [1; 2]) l ->
      let s := runn l (start sum [1; 2]) in quiet s -> out s = sum (ins s) -> exists k, told s = out s :: k.
Proof.
  intros H. destruct (H late late_own late_quiet) as (k & E); [vm_compute; reflexivity|].
  assert (E' : told (runn late (start sum [1; 2])) = [12; 30; 3]) by (vm_compute; reflexivity).
  assert (O' : out (runn late (start sum [1; 2])) = 30) by (vm_compute; reflexivity).
  rewrite E', O' in E. discriminate E.
Qed.

(** FINDING.  If two threads set the same input, the combined stream can be left with an older value of that input,
    and a later change of another input does not put this right. *)
Theorem streamthr_same_refuted :
  ~ forall l i v u, let s := runn l (start sum [1; 2]) in quiet s -> nth_error (ins s) i = Some u -> u <> v ->
      let s' := runn (Begin 0 i v :: repeat (Step 0) 8) s in out s' = sum (ins s').
Proof.
  intros H. specialize (H same 1 5 2 same_quiet eq_refl ltac:(discriminate)). vm_compute in H. discriminate H.
Qed.

Example streamthr_ex_race :
  let s := runn race (start sum [1; 2]) in ins s = [10; 20] /\ slots s = [10; 20] /\ out s = 12 /\ told s = [12; 30; 3].
Proof. vm_compute. repeat split. Qed.
Example streamthr_ex_repair :
  let s := runn (Begin 1 0 11 :: repeat (Step 1) 8) (runn race (start sum [1; 2])) in out s = 31 /\ told s = [31; 12; 30; 3].
Proof. vm_compute. repeat split. Qed.
Example streamthr_ex_same :
  let s := runn same (start sum [1; 2]) in ins s = [20; 2] /\ slots s = [10; 2] /\ out s = 12.
Proof. vm_compute. repeat split. Qed.
Example streamthr_ex_apart :
  let l := Begin 0 0 10 :: repeat (Step 0) 4 ++ Begin 1 1 20 :: repeat (Step 1) 4 ++ [Step 0; Step 1; Step 0; Step 1; Step 0; Step 1; Step 0; Step 1] in
  let s := runn l (start sum [1; 2]) in out s = 30 /\ told s = [30; 30; 3] /\ pcs s 0 = Idle /\ pcs s 1 = Idle.
Proof. vm_compute. repeat split. Qed.

Print Assumptions streamthr_once.
Print Assumptions streamthr_slots.
Print Assumptions streamthr_right.
Print Assumptions streamthr_repair.
Print Assumptions streamthr_stale_refuted.
Print Assumptions streamthr_told_refuted.
Print Assumptions streamthr_same_refuted.
