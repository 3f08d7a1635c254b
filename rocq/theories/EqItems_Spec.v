(** What the list should show. *)
From Coq Require Import List Bool Arith.
From Verif Require Import EqItems_Model.
Import ListNotations.

Section Spec.
  Context {X K : Type} (K_dec : forall x y : K, {x = y} + {x <> y}) (cls : X -> K).
  (** of items that are equal the first *)
  Fixpoint firsts (seen : list K) (l : list X) : list X :=
    match l with
    | [] => []
    | x :: l' => if in_dec K_dec (cls x) seen then firsts seen l' else x :: firsts (cls x :: seen) l'
    end.
  Definition inserts (o : @op X) : Prop := match o with Ins _ _ => True | Del _ => False end.
  (** no two are equal *)
  Definition distinct (l : list X) : Prop := NoDup (map cls l).
  (** appending the items one after the other *)
  Definition append (xs : list X) : list (@op X) := map (fun p => Ins (fst p) (snd p)) (combine (seq 0 (length xs)) xs).
End Spec.
