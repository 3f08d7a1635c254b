(** Model of PropertyModel, StreamValueModel and FuncStreamValueModel, /repo/nion/utils/Model.py.
    Python values are [option V] with [None] for None; [cmp] is any comparison.  Listeners are recorders: they do not set
    the value again. *)
From Coq Require Import List ZArith Arith Bool.
From Verif Require Import PyBase.
Import ListNotations.

Section PropertyModel.
  Context {V : Type} (cmp : V -> V -> bool).
  (** observable effects: property_changed "value" and the on_value_changed call *)
  Inductive effect := Notified | Called (v : option V).
  Record pmodel := PModel { p_value : option V; p_callback : bool; p_log : list effect }.
  (** Model.py 44-49 *)
  Definition not_equal (cur new : option V) : bool :=
    match cur, new with
    | None, None => false
    | None, Some _ => true
    | Some _, None => true
    | Some c, Some n => negb (cmp n c)
    end.
  (** Model.py 42-54; the log has the latest effect first *)
  Definition set_value (new : option V) (m : pmodel) : pmodel :=
    if not_equal (p_value m) new then
      let log := Notified :: p_log m in
      PModel new (p_callback m) (if p_callback m then Called new :: log else log)
    else m.
  (** Model.py 35-36 *)
  Definition close_model (m : pmodel) : pmodel := PModel (p_value m) false (p_log m).

  (** ** StreamValueModel, Model.py 99-118.  [s_refs] counts the references this model holds on its stream. *)
  Record smodel := SModel { s_model : pmodel; s_refs : nat; s_listening : bool }.
  (** Model.py 102-111 *)
  Definition stream_model (initial : option V) (stream_value : option V) : smodel :=
    SModel (set_value stream_value (PModel initial false [])) 1 true.
  Inductive sop := Fired (v : option V) | SetCallback | SClose.
  (** Model.py 106-107 (fired), 33 (callback assigned by the client), 113-118 (close; a second close calls None.close) *)
  Definition sstep (m : smodel) (o : sop) : smodel * res unit :=
    match o with
    | Fired v => (if s_listening m then SModel (set_value v (s_model m)) (s_refs m) true else m, Ok tt)
    | SetCallback => (SModel (PModel (p_value (s_model m)) true (p_log (s_model m))) (s_refs m) (s_listening m), Ok tt)
    | SClose =>
        if s_listening m then (SModel (close_model (s_model m)) (s_refs m - 1) false, Ok tt) else (m, Err AttributeError)
    end.
  Definition srun (l : list sop) (m : smodel) : smodel := fold_left (fun m o => fst (sstep m o)) l m.

  (** ** FuncStreamValueModel, Model.py 57-96 (close during an evaluation: see FuncLife).  Evaluations are numbered in the order they are started.  Each runs in a thread
      and resumes on the event loop at any later time, with a value or an exception (which ends the task before the
      value is set and before the count goes down). *)
  Record fmodel := FModel { f_model : pmodel; f_count : Z; f_running : list nat; f_next : nat }.
  Inductive fop := Start | Finish (k : nat) (v : option V) | Raise (k : nat).
  (** Model.py 66, 76-77: start an evaluation *)
  Definition start (m : fmodel) : fmodel := FModel (f_model m) (f_count m + 1) (f_running m ++ [f_next m]) (S (f_next m)).
  (** Model.py 61-64, 80: one evaluation is started on creation *)
  Definition func_model (initial : option V) : fmodel := start (FModel (PModel initial false []) 0 [] 0).
  Definition remove_nat (k : nat) (l : list nat) : list nat := filter (fun j => negb (Nat.eqb j k)) l.
  (** Model.py 67-75: an evaluation resumes; [Finish] with a value, [Raise] when line 71 raises *)
  Definition fstep (m : fmodel) (o : fop) : fmodel :=
    match o with
    | Start => start m
    | Finish k v =>
        if existsb (Nat.eqb k) (f_running m) then
          let p := set_value v (f_model m) in
          FModel (PModel (p_value p) (p_callback p) (Notified :: p_log p)) (f_count m - 1) (remove_nat k (f_running m)) (f_next m)
        else m
    | Raise k =>
        if existsb (Nat.eqb k) (f_running m) then FModel (f_model m) (f_count m) (remove_nat k (f_running m)) (f_next m) else m
    end.
  Definition frun (l : list fop) (m : fmodel) : fmodel := fold_left fstep l m.
End PropertyModel.
Arguments effect : clear implicits.
Arguments pmodel : clear implicits.
Arguments smodel : clear implicits.
Arguments sop : clear implicits.
Arguments fmodel : clear implicits.
Arguments fop : clear implicits.
