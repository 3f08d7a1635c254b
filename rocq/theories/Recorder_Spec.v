(** What the theorems about recording mean. *)
From Coq Require Import Arith Bool List.
From Verif Require Import PyBase Recorder_Model.
Import ListNotations.

(** two trees of the same form, with [R] between the labels at the same places *)
Inductive like {A B} (R : A -> B -> Prop) : node A -> node B -> Prop :=
| Like a b ss ts : R a b -> Forall2 (Forall2 (like R)) ss ts -> like R (Node a ss) (Node b ts).

Section Spec.
  Context {V : Type} (item : nat -> bool) (recordable : nat -> nat -> bool).
  Definition ids (o : obj) : list nat := map (@id_of V) (nodes o).
  Definition all_ids (w : world) : list nat := map (@id_of V) (all_nodes w).
  (** the objects with these identities are among those recorded: below the object [r] *)
  Definition recorded (r : nat) (w : @world V) (i : nat) : bool :=
    match lookup r w with Some o => existsb (Nat.eqb i) (ids o) | None => false end.
  Definition slot_length (i k : nat) (w : @world V) : nat :=
    match lookup i w with Some o => length (slot k o) | None => 0 end.

  (** Histories the recorder can follow.  [frozen] are the objects that came into the recorded object while recording, with
      what is below them: nothing is put into them or taken out of them, then or later.  Into and out of other recorded
      objects items go at the end only, and items that are not in a relationship are not set.  Properties are set and
      objects that are not recorded are changed freely. *)
  Definition followed (r : nat) (frozen : list nat) (w : @world V) (a : @op V) : Prop :=
    match a with
    | SetProp _ _ _ => True
    | Insert i k n _ => ~ In i frozen /\ (recorded r w i = true -> n = slot_length i k w)
    | Remove i k n => ~ In i frozen /\ (recorded r w i = true -> S n = slot_length i k w)
    | SetItem i _ _ => ~ In i frozen /\ recorded r w i = false
    end.
  Definition freeze (r : nat) (frozen : list nat) (w : @world V) (a : @op V) : list nat :=
    match a with
    | Insert i _ _ c =>
        if recorded r w i then match lookup c w with Some o => ids o ++ frozen | None => frozen end else frozen
    | _ => frozen
    end.
  Fixpoint follows (r : nat) (frozen : list nat) (w : @world V) (l : list (@op V)) : Prop :=
    match l with
    | [] => True
    | a :: l' =>
        followed r frozen w a /\
        match change item w a with Some w' => follows r (freeze r frozen w a) w' l' | None => False end
    end.
  (** the property is recorded whenever it is set in the history *)
  Definition kept (l : list (@op V)) (i p : nat) : Prop := recordable i p = true \/ forall v, ~ In (SetProp i p v) l.
  (** the object replayed on looks like the recorded one, but for the properties that are not [kept] *)
  Definition shows (l : list (@op V)) : tree -> obj -> Prop :=
    like (fun (a : list V) (b : nat * list V) =>
            length a = length (snd b) /\ forall p, kept l (fst b) p -> nth_error a p = nth_error (snd b) p).
  (** a property that is not recordable set, an item inserted before another or removed from before another, any item set
      that is not in a relationship *)
  Definition passed_over (a : @op V) (x : @obj V) : Prop :=
    match a with
    | SetProp i p _ => recordable i p = false
    | Insert _ k n _ => n < length (slot k x)
    | Remove _ k n => S n < length (slot k x)
    | SetItem _ _ _ => True
    end.
End Spec.
