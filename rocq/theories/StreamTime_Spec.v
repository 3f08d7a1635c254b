(** The latest input of a schedule, and the schedules of interest. *)
From Coq Require Import List Arith Bool.
From Verif Require Import PyBase Stream_Model StreamTime_Model.
Import ListNotations.

(** the latest input of a debounce schedule; [w] tells whether a delay is pending, so that an expiry is one, and what
    listeners set during its fire are inputs *)
Fixpoint d_latest {V} (w : bool) (v : V) (l : list (devent V)) : V :=
  match l with
  | [] => v
  | DInput x :: l' => d_latest true x l'
  | DExpire r :: l' => d_latest false (if w then last r v else v) l'
  | DClose :: l' => d_latest false v l'
  end.
Definition quiet {V} (e : devent V) : Prop := match e with DInput _ => True | DExpire r => r = [] | DClose => False end.
(** whether a delay is pending: an input since the last expiry *)
Fixpoint d_waiting {V} (w : bool) (l : list (devent V)) : bool :=
  match l with [] => w | DInput _ :: l' => d_waiting true l' | DExpire _ :: l' => d_waiting false l' | DClose :: l' => d_waiting false l' end.

(** whole inputs and whole samples, one after the other *)
Inductive turn (V : Type) := Input (v : option V) | Sample.
Arguments Input {V} v.
Arguments Sample {V}.
Definition micro {V} (t : turn V) : list (sevent V) :=
  match t with Input v => [InFlag v; InPending] | Sample => [SmpTake; SmpWrite; SmpFire] end.
Fixpoint last_input {V} (acc : option (option V)) (l : list (turn V)) : option (option V) :=
  match l with [] => acc | Input v :: l' => last_input (Some v) l' | Sample :: l' => last_input acc l' end.
(** inputs since the last sample *)
Fixpoint fresh_input {V} (acc : bool) (l : list (turn V)) : bool :=
  match l with [] => acc | Input _ :: l' => fresh_input true l' | Sample :: l' => fresh_input false l' end.

(** the input whose two writes were completed last *)
Fixpoint last_written {V} (flying acc : option (option V)) (l : list (sevent V)) : option (option V) :=
  match l with
  | [] => acc
  | InFlag v :: l' => last_written (match flying with None => Some v | f => f end) acc l'
  | InPending :: l' => last_written None (match flying with None => acc | f => f end) l'
  | _ :: l' => last_written flying acc l'
  end.
(** an input is between its two writes; and whether a sample took the flag between the two writes of the latest one *)
Fixpoint torn {V} (flying t : bool) (l : list (sevent V)) : bool * bool :=
  match l with
  | [] => (flying, t)
  | InFlag _ :: l' => torn true (if flying then t else false) l'
  | InPending :: l' => torn false t l'
  | SmpTake :: l' => torn flying (if flying then true else t) l'
  | _ :: l' => torn flying t l'
  end.
Fixpoint inputs_of {V} (l : list (sevent V)) : list (option V) :=
  match l with [] => [] | InFlag v :: l' => v :: inputs_of l' | _ :: l' => inputs_of l' end.
Fixpoint takes {V} (l : list (sevent V)) : nat :=
  match l with [] => 0 | SmpTake :: l' => S (takes l') | _ :: l' => takes l' end.
