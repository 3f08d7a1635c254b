(** Which selections should follow the items, by what was made and released alone. *)
From stdpp Require Import gmap sets list.
From Verif Require Import PyBase Selection_Model Selection_Spec SelRel_Model.
Local Open Scope nat_scope.

Section Spec.
  Context {A : Type}.
  (** [n]: the number of selections there are at the start, all to follow *)
  Fixpoint made (n : nat) (h : list (rop A)) : nat :=
    match h with [] => n | Make :: h' => made (S n) h' | _ :: h' => made n h' end.
  Definition released (i : nat) (h : list (rop A)) : Prop := Release i ∈ h.
  (** made, and not released afterwards; oldest first *)
  Definition due (n : nat) (h : list (rop A)) (i : nat) : Prop := i < made n h /\ ~ released i h.
  (** two selections with the same indexes and the same anchor *)
  Definition alike (l : list sel) (i j : nat) : Prop :=
    exists s t, l !! i = Some s /\ l !! j = Some t /\ s_indexes s = s_indexes t /\ s_anchor s = s_anchor t.
  (** what can be seen of a selection, apart from its style *)
  Definition contents (l : list sel) (i : nat) : option (gset Z * option Z) := (fun s => (s_indexes s, s_anchor s)) <$> l !! i.
  (** the edits of the list in a history *)
  Fixpoint edits_of (h : list (rop A)) : list (ledit A) :=
    match h with [] => [] | Edit e :: h' => e :: edits_of h' | _ :: h' => edits_of h' end.
  (** at every moment of the history *)
  Definition throughout (P : lm -> Prop) (st : lm) (h : list (rop A)) : Prop := forall h1 h2, h = h1 ++ h2 -> P (rrun st h1).
  Definition not_used (i : nat) (h : list (rop A)) : Prop := forall o, Use i o ∉ h.
End Spec.
