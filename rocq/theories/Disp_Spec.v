(** What the theorems about the dispatcher mean. *)
From Coq Require Import Arith Bool List.
From Verif Require Import Disp_Model.
Import ListNotations.

Definition is_start (e : event) : bool := match e with Start _ => true | _ => false end.
Definition is_early (e : event) : bool := match e with Early => true | _ => false end.
Definition count (f : event -> bool) (l : list event) : nat := length (filter f l).
(** a trigger after which the function has not been started *)
Definition unserved (l : list event) : Prop := exists l1 t l2, l = l1 ++ Trig t :: l2 /\ forall n, ~ In (Start n) l2.
(** the dispatcher thread cannot do anything until something is set or released *)
Definition disp_stuck (i : nat) (s : disp) : Prop := go i GoDisp s = None /\ go i Timeout s = None.
(** the thread has called close and has the break flag set *)
Definition closing (c : cpc) : bool := match c with XSet | XUnlock | XRead | XJoin | XNone => true | _ => false end.
(** the moves of the list are made one after the other, none of them blocked *)
Fixpoint moves (i : nat) (ms : list move) (s s' : disp) : Prop :=
  match ms with
  | [] => s' = s
  | m :: ms' => match go i m s with Some s1 => moves i ms' s1 s' | None => False end
  end.
(** how many steps of the dispatcher thread there are in a run *)
Definition of_disp (m : move) : bool := match m with GoClient _ => false | _ => true end.
Fixpoint disp_steps (i : nat) (l : list action) (s : disp) : nat :=
  match l with
  | [] => 0
  | a :: l' => (match a with Go m => if of_disp m then match go i m s with Some _ => 1 | None => 0 end else 0 | _ => 0 end) + disp_steps i l' (step i s a)
  end.
