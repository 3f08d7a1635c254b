(** Property models, bindings and property streams used by threads: property C109. *)
From Coq Require Import Arith Bool List Lia.
From Verif Require Import PyBase BindThr_Model BindThr_Spec BindThr_Proofs BindThr_Proofs2.
Import ListNotations.

Section Props.
  Context {V : Type}.
  Variable same cmp : V -> V -> bool.
  Variable observers : list (observer V).
  Notation run := (run same cmp observers).
  Notation right_view := (right_view observers).
  Notation undisturbed := (undisturbed same cmp observers).
  Notation start := (start observers).

  (** If no thread changes the value of the model while another is in the listener of an observer, having read the value, then
      whenever no call is under way the observer shows the value of the model, and that is what it has told last. *)
  Theorem bindthr_right k v progs ts : k < length observers -> (forall a b, cmp a b = true -> a = b) ->
    undisturbed (inside k) (start v progs) ts -> resting (run (start v progs) ts) ->
    let s := run (start v progs) ts in
    shown s k = right_view k (value s) /\ last_told k (right_view k v) (told s) = right_view k (value s).
  Proof.
    intros Hk Hc Hu Hr s. assert (HI : inv observers k v s).
    { subst s. clear Hr. revert Hu. induction ts as [|t ts IH] using rev_ind; intros Hu; [apply start_inv|].
      apply undisturbed_snoc in Hu. destruct Hu as [H1 H2]. rewrite run_snoc. apply step_inv; auto. }
    destruct HI as [_ S T].
    assert (S' : shown s k = right_view k (value s)).
    { destruct S as [S|[t S]]; [exact S|]. exfalso. unfold s in S. rewrite (Hr t) in S. exact S. }
    split; [exact S'|]. destruct T as [T|[t T]]; [rewrite T; exact S'|]. exfalso. unfold s in T. rewrite (Hr t) in T. exact T.
  Qed.
  (** In particular if one thread only uses the model. *)
  Theorem bindthr_one_thread k v progs t0 ts : k < length observers -> (forall a b, cmp a b = true -> a = b) ->
    (forall t, t <> t0 -> progs t = []) -> at_ (threads (run (start v progs) ts) t0) = Idle ->
    let s := run (start v progs) ts in
    shown s k = right_view k (value s) /\ last_told k (right_view k v) (told s) = right_view k (value s).
  Proof.
    intros Hk Hc H Hi. apply bindthr_right; auto.
    - apply (alone_undisturbed _ _ _ _ v progs t0); auto.
    - intros t. destruct (Nat.eq_dec t t0) as [->|N]; [exact Hi|]. rewrite (other_idle _ _ _ v progs t0 ts H t N). reflexivity.
  Qed.
  (** In all interleavings what is shown and what was told is the view of a value that the model has had. *)
  Theorem bindthr_held v progs ts :
    let s0 := start v progs in let s := run s0 ts in
    (forall k, exists us vs, ts = us ++ vs /\ shown s k = right_view k (value (run s0 us))) /\
    (forall k x, In (k, x) (told s) -> exists us vs, ts = us ++ vs /\ x = right_view k (value (run s0 us))).
  Proof.
    intros s0 s. assert (H : truthful same cmp observers s0 ts s).
    { subst s. induction ts as [|t ts IH] using rev_ind; [|apply step_truthful; exact IH]. split.
      - intros t. exact I.
      - intros k. exists v. split; [exists [], []; auto|reflexivity].
      - intros k x []. }
    destruct H as [_ S T]. split.
    - intros k. destruct (S k) as (w & (us & vs & E & ->) & Es). exists us, vs. auto.
    - intros k x Hx. destruct (T k x Hx) as (w & (us & vs & E & ->) & Es). exists us, vs. auto.
  Qed.
  (** If no thread changes the value while another is in an update, having read it, calls take effect at once, one after another,
      each between its beginning and its end: there is an order of the calls, growing with the steps, that contains those of
      every thread in their order, and the value of the model is always that of the calls up to now done one after another. *)
  Theorem bindthr_updates v progs ts : (forall a b, same a b = true -> a = b) -> undisturbed updating (start v progs) ts ->
    exists order : list nat -> list (nat * call V),
      (forall us vs, exists more, order (us ++ vs) = order us ++ more) /\
      (forall us vs, ts = us ++ vs -> let s := run (start v progs) us in
        value s = all_at_once v (order us) /\
        forall t, calls_of t (order us) ++ pending (at_ (threads s t)) ++ todo (threads s t) = progs t).
  Proof.
    intros Hs Hu. exists (effects same cmp observers (start v progs)). split.
    - intros us vs. rewrite effects_app. eauto.
    - intros us vs E s. assert (Hus : undisturbed updating (start v progs) us).
      { intros us' t vs' E'. apply (Hu us' t (vs' ++ vs)). rewrite E, E', <- app_assoc. reflexivity. }
      destruct (run_linear same cmp observers Hs v progs us Hus) as [L1 _ L3]. split; [exact L1|exact L3].
  Qed.
  (** Assignments do so in all interleavings. *)
  Theorem bindthr_assignments v progs ts : (forall a b, same a b = true -> a = b) ->
    (forall t c, In c (progs t) -> exists w, c = Assign w) ->
    exists order : list nat -> list (nat * call V),
      (forall us vs, exists more, order (us ++ vs) = order us ++ more) /\
      (forall us vs, ts = us ++ vs -> let s := run (start v progs) us in
        value s = all_at_once v (order us) /\
        forall t, calls_of t (order us) ++ pending (at_ (threads s t)) ++ todo (threads s t) = progs t).
  Proof.
    intros Hs Hp. apply bindthr_updates; [exact Hs|]. apply assignments_undisturbed. intros t. apply Forall_forall. intros c Hc.
    destruct (Hp t c Hc) as [w ->]. exact I.
  Qed.
End Props.

(** ** Examples: thread 0 does [p], thread 1 does [q]; numbers are the values *)
Definition two {V} (p q : list (call V)) (t : nat) : list (call V) := match t with 0 => p | 1 => q | _ => [] end.
Definition ended {V} (th : thread V) : bool := match th with Thread Idle [] => true | _ => false end.
Definition done_2 {V} (s : state V) : Prop := ended (threads s 0) && ended (threads s 1) = true.
Lemma two_resting {V} same cmp obs v (p q : list (call V)) ts :
  done_2 (run same cmp obs (start obs v (two p q)) ts) -> resting (run same cmp obs (start obs v (two p q)) ts).
Proof.
  unfold done_2. intros H t. apply andb_true_iff in H. destruct H as [H0 H1].
  assert (E : forall th : thread V, ended th = true -> at_ th = Idle) by (intros [[] []]; simpl; congruence).
  destruct t as [|[|t]]; [exact (E _ H0)|exact (E _ H1)|].
  set (n := S (S t)).
  assert (G : threads (run same cmp obs (start obs v (two p q)) ts) n = Thread Idle []); [|rewrite G; reflexivity].
  clear H0 H1 E. induction ts as [|u ts IH] using rev_ind; [reflexivity|]. rewrite run_snoc. destruct (Nat.eq_dec n u) as [<-|N].
  - unfold step. rewrite IH. simpl. exact IH.
  - rewrite step_other by exact N. exact IH.
Qed.

(** a model with value 0, bound to a target that shows ten times the value, and a stream *)
Definition obs2 : list (observer nat) := [Bound (fun n => 10 * n); Streamed].
Notation sys p q ts := (run Nat.eqb Nat.eqb obs2 (start obs2 0 (two p q)) ts).

(** two threads assign 1 and 2, the second between steps of the first but not in a listener *)
Example bindthr_right_ex :
  let s := sys [Assign 1] [Assign 2] ([0; 0; 0; 0; 0; 1; 1; 1; 1; 1] ++ repeat 1 6 ++ repeat 0 6) in
  done_2 s /\ value s = 2 /\ shown s 0 = 20 /\ shown s 1 = 2 /\ told s = [(1, 2); (0, 20); (0, 10)] /\ called s = [1; 2].
Proof. vm_compute. repeat split. Qed.
Example bindthr_one_thread_ex :
  let s := sys [Assign 1; Assign 1; Update S] [] (repeat 0 25) in
  done_2 s /\ value s = 2 /\ shown s 0 = 20 /\ told s = [(1, 2); (0, 20); (1, 1); (0, 10)] /\ called s = [2; 1].
Proof. vm_compute. repeat split. Qed.
Example bindthr_held_ex :
  let s := sys [Assign 1] [Assign 2] ([0; 0; 0; 0] ++ repeat 1 11 ++ repeat 0 7) in
  told s = [(0, 10); (1, 2); (0, 20)].
Proof. vm_compute. reflexivity. Qed.
Example bindthr_updates_ex :
  let s := sys [Update S; Assign 5] [Update (Nat.mul 3)] (repeat 0 22 ++ repeat 1 11) in
  done_2 s /\ value s = 15 /\ all_at_once 0 [(0, Update S); (0, Assign 5); (1, Update (Nat.mul 3))] = 15.
Proof. vm_compute. repeat split. Qed.
Example bindthr_assignments_ex :
  let s := sys [Assign 1; Assign 3] [Assign 2] ([0; 0; 1; 1; 0; 1] ++ repeat 0 40 ++ repeat 1 40) in
  done_2 s /\ value s = 3 /\ all_at_once 0 [(0, Assign 1); (1, Assign 2); (0, Assign 3)] = 3.
Proof. vm_compute. repeat split. Qed.

Definition ts_stale : list nat := [0; 0; 0; 0] ++ repeat 1 11 ++ repeat 0 7.
Lemma stale_done : done_2 (sys [Assign 1] [Assign 2] ts_stale).
Proof. vm_compute. reflexivity. Qed.
Lemma stale_wrong : Nat.eqb (shown (sys [Assign 1] [Assign 2] ts_stale) 0) (10 * value (sys [Assign 1] [Assign 2] ts_stale)) = false.
Proof. vm_compute. reflexivity. Qed.
(** Refuted: a target shows the value of the model when all calls have ended, though each thread assigned once only. *)
Theorem bindthr_stale_refuted : ~ forall ts : list nat,
  let s := sys [Assign 1] [Assign 2] ts in resting s -> shown s 0 = 10 * value s.
Proof.
  intros H. assert (E := H ts_stale (two_resting _ _ _ _ _ _ _ stale_done)). cbv zeta in E. apply Nat.eqb_eq in E.
  assert (F := stale_wrong). rewrite E in F. discriminate.
Qed.
Definition ts_stream : list nat := repeat 0 9 ++ repeat 1 12 ++ repeat 0 4.
Lemma stream_done : done_2 (sys [Assign 1] [Assign 2] ts_stream).
Proof. vm_compute. reflexivity. Qed.
Lemma stream_wrong : Nat.eqb (last_told 1 0 (told (sys [Assign 1] [Assign 2] ts_stream))) (shown (sys [Assign 1] [Assign 2] ts_stream) 1) = false.
Proof. vm_compute. reflexivity. Qed.
(** Refuted: a stream fires last the value that it has. *)
Theorem bindthr_stream_refuted : ~ forall ts : list nat,
  let s := sys [Assign 1] [Assign 2] ts in resting s -> last_told 1 0 (told s) = shown s 1.
Proof.
  intros H. assert (E := H ts_stream (two_resting _ _ _ _ _ _ _ stream_done)). cbv zeta in E. apply Nat.eqb_eq in E.
  assert (F := stream_wrong). rewrite E in F. discriminate.
Qed.
(** Refuted: observers are told once only of a value that two threads assign. *)
Theorem bindthr_once_refuted : ~ forall ts : list nat, called (sys [Assign 1] [Assign 1] ts) <> [1; 1].
Proof. intros H. apply (H ([0; 0; 1; 1] ++ repeat 0 9 ++ repeat 1 9)). vm_compute. reflexivity. Qed.
Definition ts_callback : list nat := repeat 0 10 ++ repeat 1 12 ++ repeat 0 4.
Lemma callback_done : done_2 (sys [Assign 1] [Assign 2] ts_callback).
Proof. vm_compute. reflexivity. Qed.
Lemma callback_wrong : Nat.eqb (hd 0 (called (sys [Assign 1] [Assign 2] ts_callback))) (value (sys [Assign 1] [Assign 2] ts_callback)) = false.
Proof. vm_compute. reflexivity. Qed.
(** Refuted: on_value_changed is called last with the value that the model has. *)
Theorem bindthr_callback_refuted : ~ forall ts : list nat,
  let s := sys [Assign 1] [Assign 2] ts in resting s -> hd 0 (called s) = value s.
Proof.
  intros H. assert (E := H ts_callback (two_resting _ _ _ _ _ _ _ callback_done)). cbv zeta in E. apply Nat.eqb_eq in E.
  assert (F := callback_wrong). rewrite E in F. discriminate.
Qed.

(** a model with the tuple (0, 0), bound element by element *)
Definition pair_eqb (a b : nat * nat) : bool := Nat.eqb (fst a) (fst b) && Nat.eqb (snd a) (snd b).
Lemma pair_eqb_eq a b : a = b -> pair_eqb a b = true.
Proof. intros ->. unfold pair_eqb. rewrite !Nat.eqb_refl. reflexivity. Qed.
Definition first (x : nat) : call (nat * nat) := Update (fun p => (x, snd p)).
Definition second (x : nat) : call (nat * nat) := Update (fun p => (fst p, x)).
Notation tuple_sys ts := (run pair_eqb pair_eqb [] (start [] (0, 0) (two [first 1] [second 2])) ts).
Definition ts_tuple : list nat := [0] ++ repeat 1 5 ++ repeat 0 5.
Lemma tuple_done : done_2 (tuple_sys ts_tuple).
Proof. vm_compute. reflexivity. Qed.
Lemma tuple_wrong : pair_eqb (value (tuple_sys ts_tuple)) (1, 2) = false.
Proof. vm_compute. reflexivity. Qed.
(** Refuted: update_source of a tuple binding is thread safe: of two threads that set different elements one is undone. *)
Theorem bindthr_tuple_refuted : ~ forall ts : list nat,
  resting (tuple_sys ts) -> value (tuple_sys ts) = (1, 2).
Proof.
  intros H. assert (E := H ts_tuple (two_resting _ _ _ _ _ _ _ tuple_done)). cbv zeta in E. apply pair_eqb_eq in E.
  assert (F := tuple_wrong). rewrite E in F. discriminate.
Qed.

Print Assumptions bindthr_right.
Print Assumptions bindthr_one_thread.
Print Assumptions bindthr_held.
Print Assumptions bindthr_updates.
Print Assumptions bindthr_assignments.
Print Assumptions bindthr_stale_refuted.
Print Assumptions bindthr_stream_refuted.
Print Assumptions bindthr_once_refuted.
Print Assumptions bindthr_callback_refuted.
Print Assumptions bindthr_tuple_refuted.
