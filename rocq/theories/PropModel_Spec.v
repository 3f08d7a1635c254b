(** Agreement of a held value with the latest value given. *)
From Coq Require Import List ZArith Arith Bool.
From Verif Require Import PyBase PropModel_Model.
Import ListNotations.

(** the held value is the new one, or one that compares equal to it *)
Definition agrees {V} (cmp : V -> V -> bool) (new held : option V) : Prop :=
  held = new \/ exists n h, new = Some n /\ held = Some h /\ cmp n h = true.
(** the values differ: None only equals None *)
Definition differs {V} (cmp : V -> V -> bool) (new held : option V) : Prop :=
  match new, held with
  | Some n, Some h => cmp n h = false
  | None, None => False
  | _, _ => True
  end.
(** the last value fired, or the initial one *)
Fixpoint last_fired {V} (v0 : option V) (l : list (sop V)) : option V :=
  match l with [] => v0 | Fired v :: l' => last_fired v l' | _ :: l' => last_fired v0 l' end.
(** histories in which every evaluation ends at most once, after it was started: [running] are those not ended yet *)
Fixpoint wf_evals {V} (running : list nat) (next : nat) (l : list (fop V)) : Prop :=
  match l with
  | [] => True
  | Start :: l' => wf_evals (next :: running) (S next) l'
  | Finish k _ :: l' => In k running /\ wf_evals (remove Nat.eq_dec k running) next l'
  | Raise k :: l' => In k running /\ wf_evals (remove Nat.eq_dec k running) next l'
  end.
(** the last evaluation that finished with a value *)
Fixpoint last_finished {V} (acc : option (nat * option V)) (l : list (fop V)) : option (nat * option V) :=
  match l with [] => acc | Finish k v :: l' => last_finished (Some (k, v)) l' | _ :: l' => last_finished acc l' end.
Fixpoint count_starts {V} (l : list (fop V)) : nat := match l with [] => 0 | Start :: l' => S (count_starts l') | _ :: l' => count_starts l' end.
Fixpoint count_finishes {V} (l : list (fop V)) : nat := match l with [] => 0 | Finish _ _ :: l' => S (count_finishes l') | _ :: l' => count_finishes l' end.
(** evaluations finish in the order they were started *)
Fixpoint finish_order {V} (l : list (fop V)) : list nat :=
  match l with [] => [] | Finish k _ :: l' => k :: finish_order l' | _ :: l' => finish_order l' end.
