(** What close_event_loop is to do. *)
From Coq Require Import Arith Bool List.
From Verif Require Import PyBase LoopClose_Model.
Import ListNotations.

Definition is_step (t : nat) (h : handle) : bool := match h with HStep u => Nat.eqb u t | _ => false end.
(** an event loop that is not being closed, with any tasks: each task that has not ended and does not wait is in the queue once *)
Definition loop_ok (s : loop) : Prop :=
  stopping s = false /\
  (forall h, In h (ready s) -> exists t, h = HStep t) /\
  (forall t, length (filter (is_step t) (ready s)) =
     match nth_error (tasks s) t with Some (Task (Some _) false _) => 1 | _ => 0 end) /\
  (forall k, In k (tasks s) -> watched k = false /\ (rest k = None -> asleep k = false)).

Definition ended (s : loop) (t : nat) : Prop := exists k, nth_error (tasks s) t = Some k /\ rest k = None.
Definition going_on (s : loop) (t : nat) : Prop := exists k p, nth_error (tasks s) t = Some k /\ rest k = Some p.
Definition waiting (s : loop) (t : nat) : Prop := exists k, nth_error (tasks s) t = Some k /\ asleep k = true.
(** the tasks that go on in [s] have ended in [s'] *)
Definition all_ended (s s' : loop) : Prop := forall t, going_on s t -> ended s' t.

(** whatever a task waits for comes some time *)
Definition fair (env : nat -> list nat) (s : loop) : Prop :=
  forall i t, waiting (rounds env i s) t -> exists j, i <= j /\ In t (env j).

(** a task that creates no tasks, nor do those it would create *)
Fixpoint creates_none (p : prog) : Prop :=
  match p with Act creates after => creates = [] /\ match after with Ends => True | Soon q | Waits q => creates_none q end end.
