(** Model of the life of a FuncStreamValueModel, /repo/nion/utils/Model.py:57-96: evaluations on the event loop and in
    threads of the executor, close and _run_until_complete at any moment.  Values are [option V] with [None] for None;
    [cmp] is any comparison.  Listeners are recorders. *)
From Coq Require Import List ZArith Arith Bool.
From Verif Require Import PyBase PropModel_Model.
Import ListNotations.

Section FuncLife.
  Context {V F : Type} (cmp : V -> V -> bool).
  (** an evaluation: a task of the event loop not yet begun, with the stream's function or None; its function running in a
      thread; the thread done, with a value or an exception; the task ended, well or with the exception *)
  Inductive phase := Waiting (f : option F) | Running (f : option F) | Done (r : option (option V)) | Ended | Raised.
  (** [l_open]: not closed; [l_refs]: references held on the stream; [l_model]: Model.py:30-33 *)
  Record life := Lf { l_model : pmodel V; l_open : bool; l_refs : nat; l_count : Z; l_evals : list phase }.
  Inductive lop :=
  | LFire (f : option F)                       (* the stream fires its value *)
  | LLoop (k : nat)                            (* the event loop runs task k *)
  | LThread (k : nat) (r : option (option V))  (* the function of evaluation k returns a value, or raises *)
  | LSet (v : option V)                        (* a client sets the value *)
  | LCallback                                  (* a client assigns on_value_changed *)
  | LClose.
  Fixpoint l_put (i : nat) (x : phase) (l : list phase) {struct l} : list phase :=
    match l, i with [], _ => [] | _ :: l', 0 => x :: l' | y :: l', S i' => y :: l_put i' x l' end.
  (** Model.py:66-77: handle_value_func *)
  Definition handle (f : option F) (s : life) : life :=
    Lf (l_model s) (l_open s) (l_refs s) (l_count s + 1) (l_evals s ++ [Waiting f]).
  (** Model.py:60-80 *)
  Definition life_new (initial : option V) (f : option F) : life := handle f (Lf (PModel initial false []) true 1 0%Z []).
  (** Model.py:73-75; the log has the latest effect first *)
  Definition resume (v : option V) (s : life) (evals : list phase) : life :=
    let p := set_value cmp v (l_model s) in
    Lf (PModel (p_value p) (p_callback p) (Notified :: p_log p)) (l_open s) (l_refs s) (l_count s - 1) evals.
  Definition lstep (s : life) (o : lop) : life * res unit :=
    match o with
    | LFire f => (if l_open s then handle f s else s, Ok tt)                          (* 79: the listener is closed by 83 *)
    | LLoop k =>
        match nth_error (l_evals s) k with
        | Some (Waiting f) => (Lf (l_model s) (l_open s) (l_refs s) (l_count s) (l_put k (Running f) (l_evals s)), Ok tt)     (* 68-71 *)
        | Some (Done (Some v)) => (resume v s (l_put k Ended (l_evals s)), Ok tt)                                            (* 72-75 *)
        | Some (Done None) => (Lf (l_model s) (l_open s) (l_refs s) (l_count s) (l_put k Raised (l_evals s)), Ok tt)          (* 71 raises *)
        | _ => (s, Ok tt)
        end
    | LThread k r =>
        match nth_error (l_evals s) k with
        | Some (Running (Some f)) => (Lf (l_model s) (l_open s) (l_refs s) (l_count s) (l_put k (Done r) (l_evals s)), Ok tt) (* 69-70 *)
        | Some (Running None) => (Lf (l_model s) (l_open s) (l_refs s) (l_count s) (l_put k (Done None) (l_evals s)), Ok tt)  (* 70: None() *)
        | _ => (s, Ok tt)
        end
    | LSet v => (Lf (set_value cmp v (l_model s)) (l_open s) (l_refs s) (l_count s) (l_evals s), Ok tt)
    | LCallback => (Lf (PModel (p_value (l_model s)) true (p_log (l_model s))) (l_open s) (l_refs s) (l_count s) (l_evals s), Ok tt)
    | LClose =>                                                                       (* 82-88 *)
        if l_open s then (Lf (close_model (l_model s)) false (l_refs s - 1) (l_count s) (l_evals s), Ok tt) else (s, Err AttributeError)
    end.
  Definition lrun (l : list lop) (s : life) : life := fold_left (fun s o => fst (lstep s o)) l s.

  (** Model.py:90-93: what the loop of _run_until_complete does next: it returns, it runs the event loop once, or it raises
      AttributeError as the event loop is None after close *)
  Inductive drain := DReturn | DGoOn | DError.
  Definition drain_step (s : life) : drain := if (0 <? l_count s)%Z then if l_open s then DGoOn else DError else DReturn.
End FuncLife.
Arguments phase : clear implicits.
Arguments life : clear implicits.
Arguments lop : clear implicits.
