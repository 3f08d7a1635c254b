(** What the theorems about the thread pool mean. *)
From Coq Require Import Arith Bool List.
From Verif Require Import Pool_Model.
Import ListNotations.

Definition count (f : event -> bool) (l : list event) : nat := length (filter f l).
Definition is_started (i : nat) (e : event) : bool := match e with Started _ j => Nat.eqb i j | _ => false end.
Definition is_ended (i : nat) (e : event) : bool := match e with Ended _ j => Nat.eqb i j | _ => false end.
Definition is_removed (i : nat) (e : event) : bool := match e with Removed j => Nat.eqb i j | _ => false end.
Definition is_close_call (e : event) : bool := match e with CloseCalled _ => true | _ => false end.
(** the tasks taken from the queue, in order *)
Definition taken (l : list event) : list nat := flat_map (fun e => match e with Taken _ i => [i] | _ => [] end) l.
Definition queued (l : list event) : list nat := flat_map (fun e => match e with Queued i => [i] | _ => [] end) l.
(** the tasks that a thread started, in order *)
Definition started_by (t : nat) (l : list event) : list nat :=
  flat_map (fun e => match e with Started u i => if Nat.eqb u t then [i] else [] | _ => [] end) l.
Definition waiting (q : list (option nat)) : list nat := flat_map (fun x => match x with Some i => [i] | None => [] end) q.
(** the thread is in close *)
Definition in_close (c : pc) : bool :=
  match c with Closing _ | CWait _ _ | CIn _ _ | CFin _ _ | COut _ _ | Puts _ | Join => true | _ => false end.
(** the threads of the list go on one after the other, none of them blocked *)
Fixpoint runs (ts : list nat) (s s' : pool) : Prop :=
  match ts with
  | [] => s' = s
  | t :: ts' => match go t s with Some s1 => runs ts' s1 s' | None => False end
  end.
