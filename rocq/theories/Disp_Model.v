(** Model of ThreadDispatcher, /repo/nion/utils/ThreadPool.py:19-85, once started: the dispatcher thread and any number of
    threads that call trigger and close, interleaved between any two of the steps below.
    Time is counted in units of the clock and does not go back.  The function can call trigger() but neither
    trigger(wait=True) nor close. *)
From Coq Require Import Arith Bool List.
Import ListNotations.

(** the dispatcher thread; the argument is thread_event_set *)
Inductive dpc :=
  | DWait                                     (* 59: waits for the event *)
  | DLock | DClear | DUnlock                  (* 60-61 *)
  | DTest1                                    (* 62 *)
  | DLoop (f : bool)                          (* 65 *)
  | DElapsed (f : bool)                       (* 66-67 *)
  | DSleep (f : bool)                         (* 68: waits for the event or the timeout *)
  | DClear2 (f : bool)                        (* 70 *)
  | DAfter (f : bool)                         (* 73-74 *)
  | DTest2                                    (* 75 *)
  | DStart | DRunning                         (* 78 *)
  | DOk                                       (* 79 *)
  | DLast                                     (* 85 *)
  | DEnd.
(** a thread that calls trigger(wait=True) (49-53) or close (40-46).  It is in [WBlocked] when wait of 53 has found the
    flag down and in [WWoken] once the flag was raised while it was blocked: it returns even if the flag is down again. *)
Inductive cpc :=
  | Idle
  | WLock | WClear | WSet | WUnlock | WCheck | WBlocked | WWoken
  | XLock | XBreak | XSet | XUnlock | XRead | XJoin | XNone.
Inductive who := Disp | Cl (t : nat).
Inductive event :=
  | Trig (t : nat)                            (* thread_event is set by trigger *)
  | Start (n : nat) | EndOk (n : nat) | EndRaise (n : nat)   (* of the function, with the time *)
  | Early                                     (* 67: the interval is not over *)
  | Signal                                    (* 79 *)
  | WaitCall (t : nat) | WaitRet (t : nat)    (* 51; 53 returns *)
  | Broke (t : nat) | CloseRet (t : nat) | CloseErr (t : nat).  (* 42; 46; 44 raises AttributeError *)
Record disp := D {
  d_break : bool;
  d_event : bool;                             (* __thread_event *)
  d_done : bool;                              (* __triggered_event *)
  d_lock : option who;
  d_thread : bool;                            (* __thread is not None *)
  d_now : nat;
  d_last : nat;
  d_pc : dpc;
  d_cl : nat -> cpc;
  d_log : list event
}.
Definition upd {X} (f : nat -> X) (t : nat) (x : X) : nat -> X := fun u => if Nat.eqb u t then x else f u.
Definition at_d c s := D (d_break s) (d_event s) (d_done s) (d_lock s) (d_thread s) (d_now s) (d_last s) c (d_cl s) (d_log s).
Definition at_c t c s := D (d_break s) (d_event s) (d_done s) (d_lock s) (d_thread s) (d_now s) (d_last s) (d_pc s) (upd (d_cl s) t c) (d_log s).
Definition say e s := D (d_break s) (d_event s) (d_done s) (d_lock s) (d_thread s) (d_now s) (d_last s) (d_pc s) (d_cl s) (d_log s ++ [e]).
Definition set_event b s := D (d_break s) b (d_done s) (d_lock s) (d_thread s) (d_now s) (d_last s) (d_pc s) (d_cl s) (d_log s).
Definition set_lock o s := D (d_break s) (d_event s) (d_done s) o (d_thread s) (d_now s) (d_last s) (d_pc s) (d_cl s) (d_log s).
Definition lower s := D (d_break s) (d_event s) false (d_lock s) (d_thread s) (d_now s) (d_last s) (d_pc s) (d_cl s) (d_log s).
Definition set_break s := D true (d_event s) (d_done s) (d_lock s) (d_thread s) (d_now s) (d_last s) (d_pc s) (d_cl s) (d_log s).
Definition no_thread s := D (d_break s) (d_event s) (d_done s) (d_lock s) false (d_now s) (d_last s) (d_pc s) (d_cl s) (d_log s).
Definition stamp s := D (d_break s) (d_event s) (d_done s) (d_lock s) (d_thread s) (d_now s) (d_now s) (d_pc s) (d_cl s) (d_log s).
Definition tick n s := D (d_break s) (d_event s) (d_done s) (d_lock s) (d_thread s) (d_now s + n) (d_last s) (d_pc s) (d_cl s) (d_log s).
(** threading.Event.set: the flag is raised, who waits is woken *)
Definition wake (c : cpc) : cpc := match c with WBlocked => WWoken | _ => c end.
Definition signal s := D (d_break s) (d_event s) true (d_lock s) (d_thread s) (d_now s) (d_last s) (d_pc s) (fun t => wake (d_cl s t)) (d_log s).

(** 26-35, started, at some time *)
Definition disp_make (now : nat) : disp := D false false false None true now 0 DWait (fun _ => Idle) [].

Section Dispatcher.
  Variable interval : nat.
  (** the dispatcher thread goes on; the function ends normally.  None if it cannot *)
  Definition go_disp (s : disp) : option disp :=
    match d_pc s with
    | DWait => if d_event s then Some (at_d DLock s) else None
    | DLock => match d_lock s with None => Some (at_d DClear (set_lock (Some Disp) s)) | Some _ => None end
    | DClear => Some (at_d DUnlock (set_event false s))
    | DUnlock => Some (at_d DTest1 (set_lock None s))
    | DTest1 => Some (at_d (if d_break s then DEnd else DLoop false) s)
    | DLoop f => Some (at_d (if d_break s then DAfter f else DElapsed f) s)
    | DElapsed f => Some (if d_now s - d_last s <? interval then say Early (at_d (DSleep f) s) else at_d (DAfter f) s)
    | DSleep f => if d_event s then Some (at_d (DClear2 true) s) else None
    | DClear2 f => Some (at_d (DLoop f) (set_event false s))
    | DAfter f => Some (at_d DTest2 (if f then set_event true s else s))
    | DTest2 => Some (at_d (if d_break s then DEnd else DStart) s)
    | DStart => Some (say (Start (d_now s)) (at_d DRunning s))
    | DRunning => Some (say (EndOk (d_now s)) (at_d DOk s))
    | DOk => Some (say Signal (at_d DLast (signal s)))
    | DLast => Some (at_d DWait (stamp s))
    | DEnd => None
    end.
  (** 68: the timeout; it can come together with the event *)
  Definition go_timeout (s : disp) : option disp := match d_pc s with DSleep f => Some (at_d (DClear2 f) s) | _ => None end.
  (** 80-84: the function raises *)
  Definition go_raise (s : disp) : option disp :=
    match d_pc s with DRunning => Some (say (EndRaise (d_now s)) (at_d DLast s)) | _ => None end.
  (** a thread that calls the dispatcher goes on *)
  Definition go_client (t : nat) (s : disp) : option disp :=
    let lock c := match d_lock s with None => Some (at_c t c (set_lock (Some (Cl t)) s)) | Some _ => None end in
    match d_cl s t with
    | Idle => None
    | WLock => lock WClear
    | WClear => Some (say (WaitCall t) (at_c t WSet (lower s)))
    | WSet => Some (say (Trig t) (at_c t WUnlock (set_event true s)))
    | WUnlock => Some (at_c t WCheck (set_lock None s))
    | WCheck => Some (if d_done s then say (WaitRet t) (at_c t Idle s) else at_c t WBlocked s)
    | WBlocked => None
    | WWoken => Some (say (WaitRet t) (at_c t Idle s))
    | XLock => lock XBreak
    | XBreak => Some (say (Broke t) (at_c t XSet (set_break s)))
    | XSet => Some (at_c t XUnlock (set_event true s))
    | XUnlock => Some (at_c t XRead (set_lock None s))
    | XRead => Some (if d_thread s then at_c t XJoin s else say (CloseErr t) (at_c t Idle s))
    | XJoin => match d_pc s with DEnd => Some (at_c t XNone s) | _ => None end
    | XNone => Some (say (CloseRet t) (at_c t Idle (no_thread s)))
    end.
  (** what goes on by itself, and what is called; the time passes *)
  Inductive move := GoDisp | Timeout | Raise | GoClient (t : nat).
  Definition go (m : move) (s : disp) : option disp :=
    match m with GoDisp => go_disp s | Timeout => go_timeout s | Raise => go_raise s | GoClient t => go_client t s end.
  Inductive action := Trigger (t : nat) | CallWait (t : nat) | CallClose (t : nat) | Tick (n : nat) | Go (m : move).
  Definition step (s : disp) (a : action) : disp :=
    match a with
    | Trigger t => say (Trig t) (set_event true s)                                    (* 55 *)
    | CallWait t => match d_cl s t with Idle => at_c t WLock s | _ => s end
    | CallClose t => match d_cl s t with Idle => at_c t XLock s | _ => s end
    | Tick n => tick n s
    | Go m => match go m s with Some s' => s' | None => s end
    end.
  Definition run (l : list action) (s : disp) : disp := fold_left step l s.
End Dispatcher.
