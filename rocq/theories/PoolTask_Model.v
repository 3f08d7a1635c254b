(** Model of ThreadPoolTask, /repo/nion/utils/ThreadPool.py:88-122, used by any number of threads.
    A thread that is not inside the task's function can call cancel or execute; so can the function itself, on the thread
    that runs it, since the lock is an RLock.  Threads are interleaved between any two of the steps below.  The finished
    function does not raise and does not call the task. *)
From Coq Require Import Arith Bool List.
Import ListNotations.

(** where a call stands: waiting for the lock (102, 110), inside (104, 112), the function running (114), about to clear
    (120), about to call the finished function (106, 121), about to release the lock and return *)
Inductive frame := CWait | CIn | CFin | CExit | EWait | EIn | ERun | EClear | EFin | EExit.
Inductive event := Started (t : nat) | Ended (t : nat) | Finished (t : nat) | CancelRet (t : nat) | ExecRet (t : nat).
(** [k_fn]: __fn is not None; [k_owner]: the thread that holds the lock; [k_stack t]: the calls of thread [t], innermost first *)
Record task := Task { k_fn : bool; k_owner : option nat; k_stack : nat -> list frame; k_log : list event }.
(** 94-98 *)
Definition task_make : task := Task true None (fun _ => []) [].

Definition upd {X} (f : nat -> X) (t : nat) (x : X) : nat -> X := fun u => if Nat.eqb u t then x else f u.
Definition stack_to (t : nat) (l : list frame) (s : task) : task := Task (k_fn s) (k_owner s) (upd (k_stack s) t l) (k_log s).
Definition log_to (e : event) (s : task) : task := Task (k_fn s) (k_owner s) (k_stack s) (k_log s ++ [e]).
Definition clear (s : task) : task := Task false (k_owner s) (k_stack s) (k_log s).
Definition lock_to (o : option nat) (s : task) : task := Task (k_fn s) o (k_stack s) (k_log s).
(** an RLock: free, or held by the same thread *)
Definition can_lock (t : nat) (s : task) : bool := match k_owner s with None => true | Some u => Nat.eqb u t end.
(** the outermost call releases the lock *)
Definition unlock (rest : list frame) (s : task) : task := match rest with [] => lock_to None s | _ => s end.

(** a thread goes on; None if it cannot *)
Definition go (t : nat) (s : task) : option task :=
  match k_stack s t with
  | [] => None
  | CWait :: r => if can_lock t s then Some (lock_to (Some t) (stack_to t (CIn :: r) s)) else None
  | CIn :: r => Some (if k_fn s then clear (stack_to t (CFin :: r) s) else stack_to t (CExit :: r) s)              (* 104-105 *)
  | CFin :: r => Some (log_to (Finished t) (stack_to t (CExit :: r) s))                                             (* 106 *)
  | CExit :: r => Some (log_to (CancelRet t) (unlock r (stack_to t r s)))
  | EWait :: r => if can_lock t s then Some (lock_to (Some t) (stack_to t (EIn :: r) s)) else None
  | EIn :: r => Some (if k_fn s then log_to (Started t) (stack_to t (ERun :: r) s) else stack_to t (EExit :: r) s)  (* 112-114 *)
  | ERun :: r => Some (log_to (Ended t) (stack_to t (EClear :: r) s))       (* 114-119: the function returns or raises *)
  | EClear :: r => Some (clear (stack_to t (EFin :: r) s))                                                          (* 120 *)
  | EFin :: r => Some (log_to (Finished t) (stack_to t (EExit :: r) s))                                             (* 121 *)
  | EExit :: r => Some (log_to (ExecRet t) (unlock r (stack_to t r s)))
  end.
(** a call can be made from outside, or by the function *)
Definition can_call (s : list frame) : bool := match s with [] => true | ERun :: _ => true | _ => false end.
Inductive action := CallCancel (t : nat) | CallExecute (t : nat) | Go (t : nat).
Definition step (s : task) (a : action) : task :=
  match a with
  | CallCancel t => if can_call (k_stack s t) then stack_to t (CWait :: k_stack s t) s else s
  | CallExecute t => if can_call (k_stack s t) then stack_to t (EWait :: k_stack s t) s else s
  | Go t => match go t s with Some s' => s' | None => s end
  end.
Definition run (l : list action) (s : task) : task := fold_left step l s.
