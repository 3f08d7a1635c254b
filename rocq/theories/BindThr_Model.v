(** Model of a PropertyModel that threads assign, with its observers: /repo/nion/utils/Model.py 21-54 (PropertyModel),
    /repo/nion/utils/Binding.py (PropertyBinding 213-254, TuplePropertyBinding 313-366, update_source 99-111) and
    /repo/nion/utils/Stream.py 260-310 (PropertyChangedEventStream of one source object).  None of these has a mutex.  A step is
    the read or the write of one attribute that threads share, or the call of a client's function.  [V] are Python's values, None
    included.
    Simplifications: observers are made before the threads start and closed after they have ended (Binding.py 53-58: close is not
    thread safe), so the copy of the listeners that Event.fire takes (Event.py 107-108) is always that of all of them; converters,
    target setters and on_value_changed do not raise, nor do they use the model or the observers; a None that is replaced by the
    fallback (Binding.py 242-245) is part of the converter. *)
From Coq Require Import Arith Bool List.
From Verif Require Import PyBase.
Import ListNotations.

Section BindThr.
  Context {V : Type}.
  (** Model.py 44-49: the assigned value is the one the model has; Stream.py 277: cmp *)
  Variable same cmp : V -> V -> bool.
  (** a binding with its converter, or a stream *)
  Inductive observer := Bound (conv : V -> V) | Streamed.
  Variable observers : list observer.              (* in the order of listening *)

  (** model.value = v (also Binding.py 248); model.value = g(model.value), as a tuple binding does in 348-354, where [g] puts
      the new element into its place; the other way of 292-298 with a function that makes a new object *)
  Inductive call := Assign (v : V) | Update (g : V -> V).

  (** where a thread is: in no call; about to compare the value; about to write it; telling observer [k] (on_value_changed
      if there is no observer [k]); a listener that has read the value of the model; a stream about to write that value; to
      read its own value for the fire; to fire it *)
  Inductive place :=
    | Idle | Compare (c : call) (v : V) | Write (c : call) (v : V) | Notify (v : V) (k : nat) | Got (v : V) (k : nat) (r : V)
    | Keep (v : V) (k : nat) (r : V) | Reread (v : V) (k : nat) | Fire (v : V) (k : nat) (q : V).
  Record thread := Thread { at_ : place; todo : list call }.
  (** [value]: Model.py 31; [shown k]: the value of the target or Stream.py 276; [told]: calls of target setters and firings of
      streams, with the number of the observer, latest first; [called]: calls of on_value_changed *)
  Record state := State { value : V; shown : nat -> V; told : list (nat * V); called : list V; threads : nat -> thread }.
  Definition put {B : Type} (f : nat -> B) (n : nat) (b : B) : nat -> B := fun m => if Nat.eqb m n then b else f m.

  Definition goes (s : state) (t : nat) (p : place) : state :=
    State (value s) (shown s) (told s) (called s) (put (threads s) t (Thread p (todo (threads s t)))).
  (** a call begins; an update reads the property (Binding.py 349, 293) *)
  Definition begins (s : state) (t : nat) (c : call) (cs : list call) : state :=
    State (value s) (shown s) (told s) (called s)
      (put (threads s) t (Thread (Compare c (match c with Assign v => v | Update g => g (value s) end)) cs)).

  Definition step (s : state) (t : nat) : state :=
    match at_ (threads s t) with
    | Idle => match todo (threads s t) with [] => s | c :: cs => begins s t c cs end
    (* Model.py 44-50 *)
    | Compare c v => if same v (value s) then goes s t Idle else goes s t (Write c v)
    (* 51 *)
    | Write c v => goes (State v (shown s) (told s) (called s) (threads s)) t (Notify v 0)
    (* 52: Event.py 109-111; 53-54 *)
    | Notify v k =>
        match nth_error observers k with
        | Some _ => goes s t (Got v k (value s))         (* Binding.py 241; Stream.py 307 *)
        | None => goes (State (value s) (shown s) (told s) (v :: called s) (threads s)) t Idle
        end
    | Got v k r =>
        match nth_error observers k with
        (* Binding.py 242-245, 126, 141-142 *)
        | Some (Bound conv) => goes (State (value s) (put (shown s) k (conv r)) ((k, conv r) :: told s) (called s) (threads s)) t (Notify v (S k))
        (* Stream.py 308 *)
        | Some Streamed => if cmp r (shown s k) then goes s t (Notify v (S k)) else goes s t (Keep v k r)
        | None => s
        end
    (* 309 *)
    | Keep v k r => goes (State (value s) (put (shown s) k r) (told s) (called s) (threads s)) t (Reread v k)
    (* 310 *)
    | Reread v k => goes s t (Fire v k (shown s k))
    | Fire v k q => goes (State (value s) (shown s) ((k, q) :: told s) (called s) (threads s)) t (Notify v (S k))
    end.
  (** the threads go on in the order given *)
  Definition run (s : state) (ts : list nat) : state := fold_left step ts s.

  Definition view (k : nat) (v : V) : V := match nth_error observers k with Some (Bound conv) => conv v | _ => v end.
  (** the model has value [v], the observers were just made (Binding.py 145-159; Stream.py 289) *)
  Definition start (v : V) (programs : nat -> list call) : state :=
    State v (fun k => view k v) [] [] (fun t => Thread Idle (programs t)).
End BindThr.
Arguments observer : clear implicits.
Arguments call : clear implicits.
Arguments place : clear implicits.
Arguments thread : clear implicits.
Arguments state : clear implicits.
