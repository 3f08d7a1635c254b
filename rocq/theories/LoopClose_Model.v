(** Model of close_event_loop, /repo/nion/utils/Process.py 69-91, with what it uses of asyncio (the standard library is not in
    /repo; what is taken for granted about it is said at each definition).
    A task is what its coroutine does between the places where it lets the loop go on: it creates tasks, and then ends, or goes on
    in the next round (asyncio.sleep(0)), or waits for something: a delay, a function run in an executor, another task.  When that
    comes is decided by the environment.  A coroutine that raises ends (gather is called with return_exceptions=True).
    Simplifications: tasks are not cancelled, and other handles of the loop (call_soon) are not modelled as they are run in the
    same way as steps of tasks. *)
From Coq Require Import Arith Bool List.
From Verif Require Import PyBase.
Import ListNotations.

Inductive prog := Act (creates : list prog) (after : next)
with next := Ends | Soon (p : prog) | Waits (p : prog).
(** [rest]: what the task has still to do, None when it has ended; [asleep]: it waits; [watched]: gather waits for it *)
Record task := Task { rest : option prog; asleep : bool; watched : bool }.
(** what is in the queue of the loop: the next step of a task; the callback of gather at the end of a task it waits for; the
    callback of run_until_complete, which stops the loop *)
Inductive handle := HStep (t : nat) | HGather | HStop.
(** [missing]: how many tasks gather still waits for *)
Record loop := Loop { tasks : list task; ready : list handle; missing : nat; stopping : bool }.

Fixpoint upd {A : Type} (n : nat) (x : A) (l : list A) : list A :=
  match l, n with
  | [], _ => []
  | _ :: l, O => x :: l
  | y :: l, S n => y :: upd n x l
  end.

(** a handle is run.  asyncio: create_task puts the first step of the new task at the end of the queue; a coroutine that goes on
    at once is put there again; the end of a task puts its callbacks there; gather's callback ends the gather when all of its
    tasks have ended, and that puts the callback of run_until_complete into the queue *)
Definition exec (s : loop) (h : handle) : loop :=
  match h with
  | HStep t =>
      match nth_error (tasks s) t with
      | Some (Task (Some (Act creates after)) _ w) =>
          let n := length (tasks s) in
          let new := map (fun p => Task (Some p) false false) creates in
          let steps := ready s ++ map HStep (seq n (length creates)) in
          match after with
          | Ends => Loop (upd t (Task None false w) (tasks s) ++ new) (if w then steps ++ [HGather] else steps) (missing s) (stopping s)
          | Soon p => Loop (upd t (Task (Some p) false w) (tasks s) ++ new) (steps ++ [HStep t]) (missing s) (stopping s)
          | Waits p => Loop (upd t (Task (Some p) true w) (tasks s) ++ new) steps (missing s) (stopping s)
          end
      | _ => s
      end
  | HGather => Loop (tasks s) (if Nat.eqb (missing s) 1 then ready s ++ [HStop] else ready s) (pred (missing s)) (stopping s)
  | HStop => Loop (tasks s) (ready s) (missing s) true
  end.
(** what a task waits for has come: its next step is put into the queue *)
Definition wake (s : loop) (t : nat) : loop :=
  match nth_error (tasks s) t with
  | Some (Task (Some p) true w) => Loop (upd t (Task (Some p) false w) (tasks s)) (ready s ++ [HStep t]) (missing s) (stopping s)
  | _ => s
  end.
(** one round of the loop (BaseEventLoop._run_once): what has come is put into the queue; then what is in the queue at that
    moment is run, and what is put into it meanwhile is left to the next round *)
Definition round (come : list nat) (s : loop) : loop :=
  let s := fold_left wake come s in
  fold_left exec (ready s) (Loop (tasks s) [] (missing s) (stopping s)).
(** the first [n] rounds of run_forever; it returns after the first round in which the loop is stopped *)
Fixpoint rounds (env : nat -> list nat) (n : nat) (s : loop) : loop :=
  match n with O => s | S n => round (env n) (rounds env n s) end.

(** 71-72: stop, then run_forever: one round *)
Definition one_chance (come : list nat) (s : loop) : loop := round come s.
Definition unfinished (t : task) : bool := match rest t with Some _ => true | None => false end.
(** 75-84: all_tasks gives the tasks that have not ended; without any, a future that is already done, whose callback is put into
    the queue at once (run_until_complete) *)
Definition gather (s : loop) : loop :=
  let n := length (filter unfinished (tasks s)) in
  Loop (map (fun t => Task (rest t) (asleep t) (unfinished t)) (tasks s)) (if Nat.eqb n 0 then ready s ++ [HStop] else ready s) n false.
(** 85: run_until_complete returns after [n] rounds *)
Definition returns (env : nat -> list nat) (n : nat) (s : loop) : Prop :=
  stopping (rounds env n s) = true /\ forall m, m < n -> stopping (rounds env m s) = false.
