(** What a bound target should show, and honest sources. *)
From Coq Require Import String ZArith List.
From Verif Require Import PyBase Bind_Model.
Import ListNotations.

(** the converted value, or the fallback for None *)
Definition expected {V} (conv : pv V -> pv V) (fallback : pv V) (v : pv V) : pv V :=
  match v with Some x => conv (Some x) | None => fallback end.
(** what the target shows: the latest write, or what it was initialised with *)
Definition shows {V S} (init : pv V) (b : bstate V S) : pv V := hd init (b_writes b).
(** the source notifies [name] whenever the property changes *)
Definition honest_set {V S} (name : string) (sget : S -> pv V) (sset : S -> pv V -> S * list string) : Prop :=
  forall s v, sget (fst (sset s v)) = sget s \/ In name (snd (sset s v)).
Fixpoint honest_ops {V S} (name : string) (sget : S -> pv V) (step : S -> op V S -> S) (s : S) (l : list (op V S)) : Prop :=
  match l with
  | [] => True
  | o :: l' =>
      match o with Change s' names => sget s' = sget s \/ In name names | _ => True end /\
      honest_ops name sget step (step s o) l'
  end.
(** the source state when nobody but others write to it *)
Fixpoint only_others {V S} (l : list (op V S)) (s : S) : S :=
  match l with [] => s | Change s' _ :: l' => only_others l' s' | _ :: l' => only_others l' s end.
Definition never_closed {V S} (l : list (op V S)) : Prop := ~ In Close l.
(** element [j] of a tuple property as seen from outside: absent elements are None *)
Definition element {V} (t : option (list (pv V))) (j : nat) : pv V :=
  match t with Some l => nth j l None | None => None end.
(** the lists as edited by the operations, without any binding *)
Definition edited {A} (k : string) (l : list A) (o : lop A) : list A :=
  match o with
  | LInsert k' i x => if String.eqb k k' then py_insert i x l else l
  | LRemove k' i => if String.eqb k k' then match py_del l i with Ok l' => l' | Err _ => l end else l
  | LClose => l
  end.
