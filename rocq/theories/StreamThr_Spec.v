(** What is expected of a combined stream used by threads. *)
From Coq Require Import Bool List Arith.
From Verif Require Import PyBase StreamThr_Model.
Import ListNotations.

Section Spec.
  Variables V W : Type.
  Notation st := (st V W). Notation act := (act V). Notation pc := (pc V W).

  Definition quiet (s : st) : Prop := forall t, pcs s t = Idle.

  (** The input a thread is setting, until it has been stored. *)
  Definition setting (p : pc) (i : nat) : Prop :=
    match p with Compare j _ | Write j _ | Read j | Store j _ => i = j | _ => False end.

  (** Each input is set by one thread at a time. *)
  Definition own (s : st) (a : act) : Prop :=
    match a with Begin _ i _ => forall t, ~ setting (pcs s t) i | Step _ => True end.

  (** No value is stored while another thread has computed a combined value it has not written yet; and no combined
      value is written while another thread has read one that it has not told yet. *)
  Definition apart (s : st) (a : act) : Prop :=
    match a with
    | Begin _ _ _ => True
    | Step t =>
        match pcs s t with
        | Store _ _ => forall u w, pcs s u <> Assign w
        | Assign _ => forall u w, pcs s u <> Tell w
        | _ => True
        end
    end.

  Fixpoint all_acts (ok : st -> act -> Prop) (stp : st -> act -> st) (s : st) (l : list act) : Prop :=
    match l with [] => True | a :: l' => ok s a /\ all_acts ok stp (stp s a) l' end.

  (** The combined value and what was told last are the function of the inputs. *)
  Definition right (f : list V -> W) (s : st) : Prop :=
    out s = f (ins s) /\ exists l, told s = f (ins s) :: l.

  (** [had i v]: input [i] has had value [v], at the beginning or as set by one of the acts. *)
  Definition had (l0 : list V) (l : list act) (i : nat) (v : V) : Prop :=
    nth_error l0 i = Some v \/ exists t, In (Begin t i v) l.
  (** A combined value of values that the inputs have had. *)
  Definition once (f : list V -> W) (l0 : list V) (l : list act) (w : W) : Prop :=
    exists k, length k = length l0 /\ (forall i v, nth_error k i = Some v -> had l0 l i v) /\ w = f k.
End Spec.

Arguments quiet {V W}. Arguments setting {V W}. Arguments own {V W}. Arguments apart {V W}.
Arguments all_acts {V W}. Arguments right {V W}. Arguments had {V}. Arguments once {V W}.
