(** What the theorems about pool tasks mean. *)
From Coq Require Import Arith Bool List.
From Verif Require Import PoolTask_Model.
Import ListNotations.

Definition is_started (e : event) : bool := match e with Started _ => true | _ => false end.
Definition is_ended (e : event) : bool := match e with Ended _ => true | _ => false end.
Definition is_finished (e : event) : bool := match e with Finished _ => true | _ => false end.
Definition is_return (e : event) : bool := match e with CancelRet _ | ExecRet _ => true | _ => false end.
Definition count (f : event -> bool) (l : list event) : nat := length (filter f l).
(** along the history, no thread makes a call while it is inside another one (which only the function could do) *)
Fixpoint outer_calls (l : list action) (s : task) : Prop :=
  match l with
  | [] => True
  | a :: l' => match a with CallCancel t | CallExecute t => k_stack s t = [] | Go _ => True end /\ outer_calls l' (step s a)
  end.
(** along the history, the function makes no calls of execute *)
Fixpoint no_inner_execute (l : list action) (s : task) : Prop :=
  match l with
  | [] => True
  | a :: l' => match a with CallExecute t => k_stack s t = [] | _ => True end /\ no_inner_execute l' (step s a)
  end.
