(** Model of /repo/nion/utils/ReferenceCounting.py, class ReferenceCounted (lines 4-48).
    Both methods run entirely under one re-entrant mutex, so a history of calls by any number of threads
    is a sequence of calls (linearised by the mutex).  [about_to_delete] is a subclass hook: here an
    arbitrary script of add_ref / remove_ref calls on the same object, run while the mutex is held; an
    AssertionError inside it ends the script and propagates.  The context manager [ref] (17-26) is
    add_ref on enter and remove_ref() on exit.  [rc_log] is a ghost trace. *)
From Coq Require Import List ZArith Lia Bool.
From Verif Require Import PyBase.
Import ListNotations.
Open Scope Z_scope.

Inductive rcop := AddRef | RemoveRef (check : bool).
Inductive rcev := EvAdd | EvRemove (check : bool) | EvHook.

(** ReferenceCounting.py:6-10 *)
Record rc := Rc { rc_count : Z; rc_active : bool; rc_log : list rcev }.
Definition rc_new : rc := Rc 0 true [].

Definition rc_emit (s : rc) (e : rcev) : rc := Rc (rc_count s) (rc_active s) (rc_log s ++ [e]).

(** Run the hook's script until it ends or raises. *)
Fixpoint rc_script (step : rc -> rcop -> option (rc * option exn)) (s : rc) (l : list rcop)
  : option (rc * option exn) :=
  match l with
  | [] => Some (s, None)
  | o :: l' =>
      match step s o with
      | None => None
      | Some (s', Some e) => Some (s', Some e)
      | Some (s', None) => rc_script step s' l'
      end
  end.

(** ReferenceCounting.py:31-34 (add_ref) and 37-43 (remove_ref).  [depth] bounds the nesting of
    about_to_delete calls; [None] means the bound was hit (proved impossible from depth 2 on). *)
Fixpoint rc_step (depth : nat) (hook : list rcop) (s : rc) (o : rcop) : option (rc * option exn) :=
  match o with
  | AddRef => Some (rc_emit (Rc (rc_count s + 1) (rc_active s) (rc_log s)) EvAdd, None)
  | RemoveRef check =>
      if rc_count s <=? 0 then Some (s, Some AssertionError)
      else
        let s1 := rc_emit (Rc (rc_count s - 1) (rc_active s) (rc_log s)) (EvRemove check) in
        if rc_active s1 && (rc_count s1 =? 0) && check then
          match depth with
          | O => None
          | S d => rc_script (rc_step d hook) (rc_emit (Rc (rc_count s1) false (rc_log s1)) EvHook) hook
          end
        else Some (s1, None)
  end.

(** A client's history; a raised AssertionError does not stop the client. *)
Fixpoint rc_run (depth : nat) (hook : list rcop) (s : rc) (h : list rcop) : option rc :=
  match h with
  | [] => Some s
  | o :: h' => match rc_step depth hook s o with
               | None => None
               | Some (s', _) => rc_run depth hook s' h'
               end
  end.
