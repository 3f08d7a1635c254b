(** What a property is, and what its client does with it. *)
From Coq Require Import List Bool Arith.
From Verif Require Import PropShare_Model.
Import ListNotations.

Section Spec.
  Context {N C : Type}.
  Notation state := (@state N C).
  Notation op := (@op N C).
  (** the contents of an object, and of the value of a property *)
  Definition obj (s : state) (a : nat) : option C := nth_error (heap s) a.
  Definition value (s : state) (n : N) : option C := obj s (own s n).
  (** there are no objects but those in the heap *)
  Definition sound (s : state) : Prop := (forall a, In a (has s) -> a < length (heap s)) /\ forall n, own s n < length (heap s).
  (** the property is set or read from a dict *)
  Definition assigns (n : N) (o : op) : Prop := match o with Set_ m _ | Read m _ => m = n | _ => False end.
  (** the client gets its value *)
  Definition gets (n : N) (o : op) : Prop := match o with Get m => m = n | _ => False end.
  (** what is assigned for an object with these contents, if the client does not get hold of the object that is assigned *)
  Definition assigned (validate : option (C -> @verdict C)) (c : C) : option C :=
    match validate with None => Some c | Some f => match f c with Fresh c' => Some c' | _ => None end end.
End Spec.
