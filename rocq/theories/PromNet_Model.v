(** Model of promises, /repo/nion/utils/Promise.py:7-35, whose functions use other promises, read by several threads. *)
From Coq Require Import List Bool Arith.
From Verif Require Import PyBase.
Import ListNotations.

Section PromNet.
  Context {V : Type}.

  (** a function (or the code of a thread) as far as promises are concerned: it returns or raises, or reads the [value]
      of promise [j] and goes on with the value or exception *)
  Inductive prog := Ret (r : res V) | Read (j : nat) (k : res V -> prog).

  Variable fns : nat -> prog.             (* the functions the promises are made with, 12-16 *)

  (** a thread: its own code, and the functions it is inside of, innermost first, with the promise each belongs to.
      A function runs inside [with self.__lock], 21-23; so the thread owns the (re-entrant) locks of just these promises *)
  Record pthread := Th { frames : list (nat * prog); client : prog }.
  (** [vals]: None as long as [__fn] is there, then [__value]; [log]: the functions called so far, last first *)
  Record pstate := Ps { vals : nat -> option V; thr : list pthread; log : list nat }.

  Definition cur (th : pthread) : prog := match frames th with [] => client th | (_, c) :: _ => c end.
  Definition set_cur (c : prog) (th : pthread) : pthread :=
    match frames th with
    | [] => Th [] c
    | (i, _) :: fs => Th ((i, c) :: fs) (client th)
    end.
  Definition holds (j : nat) (th : pthread) : bool := existsb (fun f => fst f =? j) (frames th).
  (** some other thread than [t] has the lock *)
  Fixpoint held (j : nat) (t : nat) (ths : list pthread) {struct ths} : bool :=
    match ths with
    | [] => false
    | th :: ths' => match t with
                    | 0 => existsb (holds j) ths'
                    | S t' => holds j th || held j t' ths'
                    end
    end.
  Fixpoint put {X} (t : nat) (x : X) (l : list X) {struct l} : list X :=
    match l, t with
    | [], _ => []
    | _ :: l', 0 => x :: l'
    | y :: l', S t' => y :: put t' x l'
    end.
  Definition upd (f : nat -> option V) (j : nat) (v : V) : nat -> option V := fun i => if i =? j then Some v else f i.
  Definition resume (r : res V) (th : pthread) : pthread :=
    match cur th with Read _ k => set_cur (k r) th | Ret _ => th end.

  (** one step of thread [t]; None if it waits for a lock (21) or has finished *)
  Definition p_step (s : pstate) (t : nat) : option pstate :=
    match nth_error (thr s) t with
    | None => None
    | Some th =>
        match cur th with
        | Read j k =>
            if held j t (thr s) then None
            else match vals s j with
                 | Some v => Some (Ps (vals s) (put t (set_cur (k (Ok v)) th) (thr s)) (log s))                  (* 25 *)
                 | None => Some (Ps (vals s) (put t (Th ((j, fns j) :: frames th) (client th)) (thr s)) (j :: log s))  (* 22-23 *)
                 end
        | Ret r =>
            match frames th with
            | [] => None
            | (i, _) :: fs =>
                Some (Ps (match r with Ok v => upd (vals s) i v | Err _ => vals s end)                            (* 23-25 *)
                         (put t (resume r (Th fs (client th))) (thr s)) (log s))
            end
        end
    end.

  (** a schedule says which thread tries a step next *)
  Fixpoint p_run (s : pstate) (sched : list nat) : pstate :=
    match sched with
    | [] => s
    | t :: sched' => p_run (match p_step s t with Some s' => s' | None => s end) sched'
    end.
  Definition p_init (clients : list prog) : pstate := Ps (fun _ => None) (map (Th []) clients) [].
End PromNet.
Arguments prog : clear implicits.
Arguments pthread : clear implicits.
Arguments pstate : clear implicits.
