(** Model of /repo/nion/utils/Process.py: TaskQueue (18-43) and TaskSet (49-64).
    Tasks are identified by a type [T]; what a task does when it runs is an arbitrary function of the
    tasks run before it.  Simplification: a task puts / adds / clears tasks and may raise, but does not
    itself call perform_tasks; puts by other threads while a task runs count as the task's puts. *)
From Coq Require Import List Arith Lia.
From Verif Require Import PyBase.
Import ListNotations.

(** * TaskQueue: queue.Queue with its unfinished-task counter *)
Section TaskQueue.
  Context {T : Type}.
  (** what running task [t] does: tasks put, and whether it then raises *)
  Variable behave : list T -> T -> list T * bool.

  Record tq := Tq { tq_queue : list T; tq_unfinished : nat; tq_ran : list T }.
  Definition tq_new : tq := Tq [] 0 [].

  (** queue.Queue.put *)
  Definition tq_put (s : tq) (ts : list T) : tq :=
    Tq (tq_queue s ++ ts) (tq_unfinished s + length ts) (tq_ran s).

  (** Process.py:23-31, the loop; [qsize] counts down *)
  Fixpoint tq_loop (qsize : nat) (s : tq) : tq * option exn :=
    match qsize with
    | O => (s, None)
    | S n =>
        match tq_queue s with
        | [] => (s, None)
        | t :: q =>
            let '(puts, raises) := behave (tq_ran s) t in
            let s1 := tq_put (Tq q (tq_unfinished s) (tq_ran s ++ [t])) puts in
            if raises : bool then (s1, Some HandlerError)
            else tq_loop n (Tq (tq_queue s1) (tq_unfinished s1 - 1) (tq_ran s1))
        end
    end.

  (** Process.py:20-31 *)
  Definition tq_perform (s : tq) : tq * option exn := tq_loop (length (tq_queue s)) s.

  (** Process.py:33-43 *)
  Definition tq_clear (s : tq) : tq := Tq [] (tq_unfinished s - length (tq_queue s)) (tq_ran s).

  Inductive tqop := QPut (t : T) | QPerform | QClear.
  Definition tq_step (s : tq) (o : tqop) : tq * option exn :=
    match o with
    | QPut t => (tq_put s [t], None)
    | QPerform => tq_perform s
    | QClear => (tq_clear s, None)
    end.
  Definition is_raise (e : option exn) : nat := match e with Some _ => 1 | None => 0 end.

  (** a history of calls, with the number of calls that raised *)
  Fixpoint tq_run (s : tq) (h : list tqop) : tq * nat :=
    match h with
    | [] => (s, 0)
    | o :: h' => let '(s1, e) := tq_step s o in
                 let '(s2, n) := tq_run s1 h' in (s2, is_raise e + n)
    end.
End TaskQueue.

(** * TaskSet *)
Section TaskSet.
  Context {K T : Type} (K_dec : forall a b : K, {a = b} + {a <> b}).

  (** calls a running task makes on the task set *)
  Inductive tsact := TsAdd (k : K) (t : T) | TsClear (k : K).
  Variable behave : list (K * T) -> T -> list tsact * bool.

  Record ts := Ts { ts_dict : list (K * T); ts_ran : list (K * T) }.
  Definition ts_new : ts := Ts [] [].

  (** Process.py:53-55 add_task, 56-59 clear_task *)
  Definition ts_act (s : ts) (a : tsact) : ts :=
    match a with
    | TsAdd k t => Ts (dict_set K_dec k t (ts_dict s)) (ts_ran s)
    | TsClear k => Ts (dict_del K_dec k (ts_dict s)) (ts_ran s)
    end.

  (** Process.py:64, the loop over the copied dictionary's values *)
  Fixpoint ts_loop (l : list (K * T)) (s : ts) : ts * option exn :=
    match l with
    | [] => (s, None)
    | (k, t) :: l' =>
        let '(acts, raises) := behave (ts_ran s) t in
        let s1 := fold_left ts_act acts (Ts (ts_dict s) (ts_ran s ++ [(k, t)])) in
        if raises : bool then (s1, Some HandlerError) else ts_loop l' s1
    end.

  (** Process.py:60-64 *)
  Definition ts_perform (s : ts) : ts * option exn := ts_loop (ts_dict s) (Ts [] (ts_ran s)).

  Inductive tsop := OAct (a : tsact) | OPerform.
  Definition ts_step (s : ts) (o : tsop) : ts * option exn :=
    match o with
    | OAct a => (ts_act s a, None)
    | OPerform => ts_perform s
    end.
End TaskSet.
Arguments tsact K T : clear implicits.
Arguments tqop T : clear implicits.
