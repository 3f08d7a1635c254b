(** Model of ThreadPool, /repo/nion/utils/ThreadPool.py:125-185, with its tasks (88-122) and a queue.Queue, used by any
    number of threads that are interleaved between any two of the steps below.
    What is done while holding the pool's lock and does not block (135-137, 153-160, 156-157) is one step.  Tasks are
    numbered in the order in which they are queued.  A queued function can call queue_fn but neither close, run_all,
    run_one nor its own task (see PoolTask_Model for that), and it ends, normally or with an exception.  The loop of 139
    goes over the threads that there were when it began: a call of start while it runs is simplified in this. *)
From Coq Require Import Arith Bool List.
Import ListNotations.

(** who takes tasks from the queue: a thread of the pool (162-169), run_all (171-178) or run_one (180-185) *)
Inductive mode := Worker | RunAll | RunOne.
Inductive pc :=
  | Idle | Dead
  | AtEmpty (m : mode)                                       (* 172, 181: about to test for an empty queue *)
  | AtGet (m : mode)                                         (* 164, 173, 182: about to take from the queue *)
  | Got (m : mode) (x : option nat)                          (* 165, 174, 183 *)
  | EWait (m : mode) (i : nat)                               (* 110 *)
  | EIn (m : mode) (i : nat)                                 (* 112 *)
  | Running (m : mode) (i : nat)                             (* 114 *)
  | Clearing (m : mode) (i : nat)                            (* 120 *)
  | EFin (m : mode) (i : nat)                                (* 121 *)
  | EOut (m : mode) (i : nat)                                (* the end of the block of 110 *)
  | Done (m : mode) (x : option nat)                         (* 167, 176, 185 *)
  | Closing (l : list nat)                                   (* 138: the tasks not cancelled yet *)
  | CWait (i : nat) (l : list nat)                           (* 102 *)
  | CIn (i : nat) (l : list nat)                             (* 104 *)
  | CFin (i : nat) (l : list nat)                            (* 106 *)
  | COut (i : nat) (l : list nat)                            (* the end of the block of 102 *)
  | Puts (n : nat)                                           (* 140: how many None are still to be put *)
  | Join.                                                    (* 142-143 *)
Inductive event :=
  | Queued (i : nat) | Dropped | Taken (t i : nat) | Started (t i : nat) | Ended (t i : nat)
  | Removed (i : nat) | RemoveFailed (i : nat) | CloseCalled (t : nat) | CloseRet (t : nat).
Record pool := Pool {
  p_closed : bool;
  p_queue : list (option nat);
  p_unfinished : nat;                                        (* of the queue: put and not yet task_done *)
  p_threads : list nat;
  p_tasks : list nat;
  p_next : nat;
  p_fn : nat -> bool;                                        (* of a task: __fn is not None *)
  p_lock : nat -> option nat;                                (* of a task: the thread that holds its lock *)
  p_pc : nat -> pc;
  p_log : list event
}.
(** 127-132 *)
Definition pool_make : pool := Pool false [] 0 [] [] 0 (fun _ => true) (fun _ => None) (fun _ => Idle) [].

Definition upd {X} (f : nat -> X) (t : nat) (x : X) : nat -> X := fun u => if Nat.eqb u t then x else f u.
Definition at_pc t c s := Pool (p_closed s) (p_queue s) (p_unfinished s) (p_threads s) (p_tasks s) (p_next s) (p_fn s) (p_lock s) (upd (p_pc s) t c) (p_log s).
Definition add_log e s := Pool (p_closed s) (p_queue s) (p_unfinished s) (p_threads s) (p_tasks s) (p_next s) (p_fn s) (p_lock s) (p_pc s) (p_log s ++ [e]).
Definition set_lock i o s := Pool (p_closed s) (p_queue s) (p_unfinished s) (p_threads s) (p_tasks s) (p_next s) (p_fn s) (upd (p_lock s) i o) (p_pc s) (p_log s).
Definition clear_fn i s := Pool (p_closed s) (p_queue s) (p_unfinished s) (p_threads s) (p_tasks s) (p_next s) (upd (p_fn s) i false) (p_lock s) (p_pc s) (p_log s).
Definition put x s := Pool (p_closed s) (p_queue s ++ [x]) (S (p_unfinished s)) (p_threads s) (p_tasks s) (p_next s) (p_fn s) (p_lock s) (p_pc s) (p_log s).
Definition took q s := Pool (p_closed s) q (p_unfinished s) (p_threads s) (p_tasks s) (p_next s) (p_fn s) (p_lock s) (p_pc s) (p_log s).
Definition done s := Pool (p_closed s) (p_queue s) (p_unfinished s - 1) (p_threads s) (p_tasks s) (p_next s) (p_fn s) (p_lock s) (p_pc s) (p_log s).
Definition set_tasks l s := Pool (p_closed s) (p_queue s) (p_unfinished s) (p_threads s) l (p_next s) (p_fn s) (p_lock s) (p_pc s) (p_log s).
Definition set_closed s := Pool true (p_queue s) (p_unfinished s) (p_threads s) (p_tasks s) (p_next s) (p_fn s) (p_lock s) (p_pc s) (p_log s).
Definition add_thread t s := Pool (p_closed s) (p_queue s) (p_unfinished s) (t :: p_threads s) (p_tasks s) (p_next s) (p_fn s) (p_lock s) (p_pc s) (p_log s).
Definition bump s := Pool (p_closed s) (p_queue s) (p_unfinished s) (p_threads s) (p_tasks s) (S (p_next s)) (p_fn s) (p_lock s) (p_pc s) (p_log s).

(** 152-160 *)
Definition queue_fn (s : pool) : pool :=
  if p_closed s then add_log Dropped s
  else add_log (Queued (p_next s)) (put (Some (p_next s)) (set_tasks (p_tasks s ++ [p_next s]) (bump s))).
(** list.remove *)
Fixpoint remove_first (i : nat) (l : list nat) : option (list nat) :=
  match l with
  | [] => None
  | j :: l' => if Nat.eqb j i then Some l' else match remove_first i l' with Some r => Some (j :: r) | None => None end
  end.
(** 155-157; a failure raises ValueError *)
Definition remove_task (i : nat) (s : pool) : pool :=
  match remove_first i (p_tasks s) with
  | Some l => add_log (Removed i) (set_tasks l s)
  | None => add_log (RemoveFailed i) s
  end.
(** where a thread is after task_done: 168-169, 177-178, 185 *)
Definition after (m : mode) (x : option nat) : pc :=
  match m, x with
  | Worker, None => Dead
  | Worker, Some _ => AtGet Worker
  | RunAll, None => Idle
  | RunAll, Some _ => AtEmpty RunAll
  | RunOne, _ => Idle
  end.
Definition lock_free (i : nat) (s : pool) : bool := match p_lock s i with None => true | Some _ => false end.

(** a thread goes on; None if it cannot *)
Definition go (t : nat) (s : pool) : option pool :=
  match p_pc s t with
  | Idle | Dead => None
  | AtEmpty m => Some (at_pc t (match p_queue s with [] => Idle | _ => AtGet m end) s)
  | AtGet m =>
      match p_queue s with
      | [] => None
      | Some i :: q => Some (add_log (Taken t i) (at_pc t (Got m (Some i)) (took q s)))
      | None :: q => Some (at_pc t (Got m None) (took q s))
      end
  | Got m x => Some (at_pc t (match x with Some i => if p_closed s then Done m x else EWait m i | None => Done m x end) s)
  | EWait m i => if lock_free i s then Some (at_pc t (EIn m i) (set_lock i (Some t) s)) else None
  | EIn m i => Some (if p_fn s i then add_log (Started t i) (at_pc t (Running m i) s) else at_pc t (EOut m i) s)
  | Running m i => Some (add_log (Ended t i) (at_pc t (Clearing m i) s))
  | Clearing m i => Some (at_pc t (EFin m i) (clear_fn i s))
  | EFin m i => Some (at_pc t (EOut m i) (remove_task i s))
  | EOut m i => Some (at_pc t (Done m (Some i)) (set_lock i None s))
  | Done m x => Some (at_pc t (after m x) (done s))
  | Closing l => Some (at_pc t (match l with i :: l' => CWait i l' | [] => Puts (length (p_threads s)) end) s)
  | CWait i l => if lock_free i s then Some (at_pc t (CIn i l) (set_lock i (Some t) s)) else None
  | CIn i l => Some (if p_fn s i then at_pc t (CFin i l) (clear_fn i s) else at_pc t (COut i l) s)
  | CFin i l => Some (at_pc t (COut i l) (remove_task i s))
  | COut i l => Some (at_pc t (Closing l) (set_lock i None s))
  | Puts (S n) => Some (at_pc t (Puts n) (put None s))
  | Puts 0 => Some (at_pc t Join s)
  | Join => match p_threads s, p_unfinished s with
            | _ :: _, S _ => None
            | _, _ => Some (add_log (CloseRet t) (at_pc t Idle s))
            end
  end.
(** calls are made by threads that are not in a method of the pool, but for queue_fn; [Start t] is one turn of 146-150 *)
Inductive action := Queue | Start (t : nat) | CallRunAll (t : nat) | CallRunOne (t : nat) | CallClose (t : nat) | Go (t : nat).
Definition if_idle (t : nat) (s s' : pool) : pool := match p_pc s t with Idle => s' | _ => s end.
Definition step (s : pool) (a : action) : pool :=
  match a with
  | Queue => queue_fn s
  | Start t => if_idle t s (add_thread t (at_pc t (AtGet Worker) s))
  | CallRunAll t => if_idle t s (at_pc t (AtEmpty RunAll) s)
  | CallRunOne t => if_idle t s (at_pc t (AtEmpty RunOne) s)
  | CallClose t => if_idle t s (add_log (CloseCalled t) (at_pc t (Closing (p_tasks s)) (set_closed s)))
  | Go t => match go t s with Some s' => s' | None => s end
  end.
Definition run (l : list action) (s : pool) : pool := fold_left step l s.
