(** A [CombineLatestStream] whose input [ValueStream]s are set by threads ([nion/utils/Stream.py] 44-60, 96-141).

    No mutex is used anywhere in these classes.  Each step of a thread reads or writes one shared attribute; the
    threads' steps come in any order.  The call of the client's function [value_fn] (129) on the unpacked list of
    values is one step, as the list is unpacked before the call and the function is pure.

    Simplified: the combined stream is made before the threads start and closed after they end; functions do not raise
    and do not set streams; one observer listens to the combined stream. *)
From Coq Require Import Bool List Arith.
From Verif Require Import PyBase.
Import ListNotations.

(** Assignment to an element of a list. *)
Fixpoint upd {A} (i : nat) (v : A) (l : list A) : list A :=
  match l, i with
  | [], _ => []
  | _ :: l', 0 => v :: l'
  | a :: l', S i' => a :: upd i' v l'
  end.

Section Model.
  Variables V W : Type.
  Variable V_dec : forall x y : V, {x = y} + {x <> y}.
  (** the client's function, Stream.py 105 *)
  Variable f : list V -> W.

  (** Where a thread is in [input.value = v]. *)
  Inductive pc : Type :=
  | Idle
  | Compare (i : nat) (v : V)    (* 58: about to read the value and compare *)
  | Write (i : nat) (v : V)      (* 59: about to write the value *)
  | Read (i : nat)               (* 60: about to read [self.value] to fire it *)
  | Store (i : nat) (v : V)      (* 125: in the listener, about to store the value at its index *)
  | Compute                      (* 129: about to unpack the values and call the function *)
  | Assign (w : W)               (* 129: about to write the combined value *)
  | Fetch                        (* 130: about to read the combined value to fire it *)
  | Tell (w : W).                (* 130: about to call the observer *)

  Record st : Type := mkSt {
    ins   : list V;              (* the values of the input streams *)
    slots : list V;              (* [__values] of the combined stream *)
    out   : W;                   (* [__value] of the combined stream *)
    told  : list W;              (* what the observer has been told, latest first *)
    pcs   : nat -> pc
  }.

  Definition goto (t : nat) (p : pc) (ps : nat -> pc) : nat -> pc :=
    fun u => if Nat.eqb u t then p else ps u.

  Inductive act : Type :=
  | Begin (t i : nat) (v : V)    (* thread [t] sets input [i] *)
  | Step (t : nat).              (* thread [t] goes on *)

  (** One step of a thread, Stream.py 57-60 and 124-130. *)
  Definition advance (s : st) (t : nat) : st :=
    match pcs s t with
    | Idle => s
    | Compare i v =>
        match nth_error (ins s) i with
        | Some u => if V_dec u v then mkSt (ins s) (slots s) (out s) (told s) (goto t Idle (pcs s))
                    else mkSt (ins s) (slots s) (out s) (told s) (goto t (Write i v) (pcs s))
        | None => mkSt (ins s) (slots s) (out s) (told s) (goto t Idle (pcs s))
        end
    | Write i v => mkSt (upd i v (ins s)) (slots s) (out s) (told s) (goto t (Read i) (pcs s))
    | Read i =>
        match nth_error (ins s) i with
        | Some u => mkSt (ins s) (slots s) (out s) (told s) (goto t (Store i u) (pcs s))
        | None => mkSt (ins s) (slots s) (out s) (told s) (goto t Idle (pcs s))
        end
    | Store i v => mkSt (ins s) (upd i v (slots s)) (out s) (told s) (goto t Compute (pcs s))
    | Compute => mkSt (ins s) (slots s) (out s) (told s) (goto t (Assign (f (slots s))) (pcs s))
    | Assign w => mkSt (ins s) (slots s) w (told s) (goto t Fetch (pcs s))
    | Fetch => mkSt (ins s) (slots s) (out s) (told s) (goto t (Tell (out s)) (pcs s))
    | Tell w => mkSt (ins s) (slots s) (out s) (w :: told s) (goto t Idle (pcs s))
    end.

  Definition step (s : st) (a : act) : st :=
    match a with
    | Begin t i v =>
        match pcs s t with
        | Idle => mkSt (ins s) (slots s) (out s) (told s) (goto t (Compare i v) (pcs s))
        | _ => s
        end
    | Step t => advance s t
    end.

  Definition run (l : list act) (s : st) : st := fold_left step l s.

  (** Stream.py 99-114: a new combined stream; the observer reads its value when it starts to listen. *)
  Definition start (l : list V) : st := mkSt l l (f l) [f l] (fun _ => Idle).
End Model.

Arguments Idle {V W}. Arguments Compare {V W}. Arguments Write {V W}. Arguments Read {V W}.
Arguments Store {V W}. Arguments Compute {V W}. Arguments Assign {V W}. Arguments Fetch {V W}. Arguments Tell {V W}.
Arguments mkSt {V W}. Arguments ins {V W}. Arguments slots {V W}. Arguments out {V W}. Arguments told {V W}.
Arguments pcs {V W}. Arguments goto {V W}. Arguments Begin {V}. Arguments Step {V}.
Arguments advance {V W}. Arguments step {V W}. Arguments run {V W}. Arguments start {V W}.
