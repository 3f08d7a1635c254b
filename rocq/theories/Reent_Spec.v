(** Specification vocabulary for observers that change the observed object again. *)
From Coq Require Import List ZArith Bool Arith.
From Verif Require Import PyBase ListModel_Model ListModel_Spec Reent_Model.
From Verif Require Filtered_Model.
Import ListNotations.
Open Scope nat_scope.

Section Spec.
  Context {St Op Note : Type}.
  (** what has been changed, and what listener [j] has been told *)
  Fixpoint edits (l : list (rnev St Note)) : list Note :=
    match l with [] => [] | EEdit x _ :: l' => x :: edits l' | ECall _ _ _ :: l' => edits l' end.
  Fixpoint told (j : nat) (l : list (rnev St Note)) : list Note :=
    match l with
    | [] => []
    | EEdit _ _ :: l' => told j l'
    | ECall j' x _ :: l' => if Nat.eqb j' j then x :: told j l' else told j l'
    end.
  (** following notifications one by one *)
  Inductive tracks (apply : St -> Note -> St -> Prop) : St -> list Note -> St -> Prop :=
  | tr_nil s : tracks apply s [] s
  | tr_cons s x s1 l s2 : apply s x s1 -> tracks apply s1 l s2 -> tracks apply s (x :: l) s2.
  (** listeners before [j] make no edits *)
  Inductive quiet (j : nat) : tree Op -> Prop :=
  | qu_node o react : (forall k r, k < j -> nth_error react k = Some r -> r = []) ->
      (forall r t, In r react -> In t r -> quiet j t) -> quiet j (Node o react).
End Spec.
Arguments tr_nil {St Note apply}.
Arguments tr_cons {St Note apply}.

(** one notification of a list followed *)
Definition list_apply {A} (l : list A) (x : lnote A) (l' : list A) : Prop := follows l [x] l'.
(** the history of a container whose edits are the given ones *)
Definition as_op {A C K} (x : lnote A) : Filtered_Model.fop A C K := match x with LnIns i y => Filtered_Model.FInsert i y | LnRem i y => Filtered_Model.FRemove i end.
