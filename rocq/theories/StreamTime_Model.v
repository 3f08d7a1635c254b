(** Model of the timed streams of /repo/nion/utils/Stream.py: DebounceStream and SampleStream.  Time is the order of
    events: the end of a sleep is an event that can come at any moment.  [None] is Python's None. *)
From Coq Require Import List Arith Bool.
From Verif Require Import PyBase Stream_Model.
Import ListNotations.

(** ** DebounceStream, Stream.py 142-184; everything runs on the event loop's thread. *)
Record dstream (V : Type) := DStream { d_value : V; d_task : bool; d_open : bool }.
Arguments DStream {V} _ _ _.
Arguments d_value {V} _.
Arguments d_task {V} _.
Arguments d_open {V} _.
(** the input fired; the sleep of the task ends, and the listeners of the fire set the input to [reacts]; close *)
Inductive devent (V : Type) := DInput (v : V) | DExpire (reacts : list V) | DClose.
Arguments DInput {V} v.
Arguments DExpire {V} reacts.
Arguments DClose {V}.
Section Debounce.
  Context {V : Type}.
  (** Stream.py 175-180 *)
  Definition d_changed (s : dstream V) (v : V) : dstream V := DStream v true (d_open s).
  (** Stream.py 145-155 *)
  Definition d_make (v : V) : dstream V := DStream v true true.
  (** Stream.py 153 (input), 168-173 (the task, if there is one), 157-166 (close; again: None.close) *)
  Definition d_step (s : dstream V) (e : devent V) : dstream V * list (out V) :=
    match e with
    | DInput v => (if d_open s then d_changed s v else s, [])
    | DExpire reacts =>
        if d_task s then
          let s1 := fold_left d_changed reacts s in
          (DStream (d_value s1) false (d_open s1), [Fire (d_value s)])
        else (s, [])
    | DClose => if d_open s then (DStream (d_value s) false false, []) else (s, [Exc AttributeError])
    end.
End Debounce.

(** ** SampleStream, Stream.py 187-237.  The input is set from a thread of its own, whose two writes (the flag under
    the lock, then the pending value) interleave with the three steps of a sample on the event loop: read and clear the
    flag under the lock; write the value; fire.  [sm_in] is the value of an input between its two writes. *)
Inductive sample_pc := SIdle | STook | SWrote.
Record sampler (V : Type) := Sampler {
  sm_pending : option V; sm_value : option V; sm_dirty : bool; sm_in : option (option V); sm_pc : sample_pc }.
Arguments Sampler {V} _ _ _ _ _.
Arguments sm_pending {V} _.
Arguments sm_value {V} _.
Arguments sm_dirty {V} _.
Arguments sm_in {V} _.
Arguments sm_pc {V} _.
Inductive sevent (V : Type) := InFlag (v : option V) | InPending | SmpTake | SmpWrite | SmpFire.
Arguments InFlag {V} v.
Arguments InPending {V}.
Arguments SmpTake {V}.
Arguments SmpWrite {V}.
Arguments SmpFire {V}.
Section Sample.
  Context {V : Type}.
  (** Stream.py 190-202; [v] is the input's value *)
  Definition sm_make (v : option V) : sampler V := Sampler None v true None SIdle.
  (** Stream.py 231-232, 233, 223-226, 227, 228.  An event whose thread is not at that line does nothing.  The fire
      reads the pending value again. *)
  Definition sm_step (s : sampler V) (e : sevent V) : sampler V * list (out (option V)) :=
    match e with
    | InFlag v => match sm_in s with
                  | None => (Sampler (sm_pending s) (sm_value s) true (Some v) (sm_pc s), [])
                  | Some _ => (s, []) end
    | InPending => match sm_in s with
                   | Some v => (Sampler v (sm_value s) (sm_dirty s) None (sm_pc s), [])
                   | None => (s, []) end
    | SmpTake => match sm_pc s with
                 | SIdle => (Sampler (sm_pending s) (sm_value s) false (sm_in s) (if sm_dirty s then STook else SIdle), [])
                 | _ => (s, []) end
    | SmpWrite => match sm_pc s with
                  | STook => (Sampler (sm_pending s) (sm_pending s) (sm_dirty s) (sm_in s) SWrote, [])
                  | _ => (s, []) end
    | SmpFire => match sm_pc s with
                 | SWrote => (Sampler (sm_pending s) (sm_value s) (sm_dirty s) (sm_in s) SIdle, [Fire (sm_pending s)])
                 | _ => (s, []) end
    end.
End Sample.
