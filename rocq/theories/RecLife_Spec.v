(** What the theorems about closing recorders and replaying in the same world mean. *)
From Coq Require Import Arith Bool List.
From Verif Require Import PyBase Recorder_Model Recorder_Spec RecLife_Model.
Import ListNotations.

Section Spec.
  Context {V : Type} (item : nat -> bool) (recordable : nat -> nat -> bool).
  Notation obj := (@obj V).
  Notation world := (@world V).

  Definition final (x : outcome V) : life V := match x with Going _ s | Done s | Raised _ s => s end.
  (** [apply] is over, with or without an exception *)
  Definition over (x : outcome V) : Prop := match x with Going _ _ => False | _ => True end.

  (** histories that only set properties, and close the recorder *)
  Definition setting (x : @deed V) : Prop := match x with Do (SetProp _ _ _) | Close => True | _ => False end.
  Definition is_close (x : @deed V) : bool := match x with Close => true | _ => false end.
  (** up to the first time the recorder is closed *)
  Fixpoint until_closed (l : list (@deed V)) : list (@deed V) :=
    match l with [] => [] | Close :: _ => [] | x :: l' => x :: until_closed l' end.
  (** the property [p] of the object [i] was recorded: it is recordable and was set while the recorder was open *)
  Definition was_recorded (l : list (@deed V)) (i p : nat) : Prop :=
    recordable i p = true /\ exists v, In (Do (SetProp i p v)) (until_closed l).

  (** the objects a closure reads from *)
  Definition reads (e : entry) : list nat := match e with ESet _ i _ => [i] | EInsert _ _ _ c => [c] | ERemove _ _ _ => [] end.
  (** no object of the two is in both *)
  Definition apart (x y : obj) : Prop := forall i, In i (ids x) -> In i (ids y) -> False.
  (** the object [o] has nothing in common with what the log reads nor with what the recorder listens to *)
  Definition stranger (s : life V) (o : obj) : Prop :=
    (forall e c x, In e (l_log s) -> In c (reads e) -> lookup c (l_world s) = Some x -> apart x o) /\
    (forall r m, l_rec s = Some r -> In m (nodes r) -> ~ In (fst (label m)) (ids o)).
End Spec.

(** a copy with the values of [o] (a record of one history [l] that ended in the world [w]) in which the properties that were
    recorded have the values of the end of the history, whenever they were given, and the others those of the beginning *)
Definition late {V} (recordable : nat -> nat -> bool) (l : list (@deed V)) (w : @world V) : @tree V -> @obj V -> Prop :=
  like (fun (a : list V) (b : nat * list V) =>
          length a = length (snd b) /\
          forall p, p < length (snd b) ->
            (was_recorded recordable l (fst b) p -> forall x, lookup (fst b) w = Some x -> nth_error a p = nth_error (props_of x) p) /\
            (~ was_recorded recordable l (fst b) p -> nth_error a p = nth_error (snd b) p)).
