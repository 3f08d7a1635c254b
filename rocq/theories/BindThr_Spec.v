(** What is to be expected of a property model, its bindings and its streams when threads use it. *)
From Coq Require Import Arith Bool List.
From Verif Require Import PyBase BindThr_Model.
Import ListNotations.

Section Spec.
  Context {V : Type}.
  Variable same cmp : V -> V -> bool.
  Variable observers : list (observer V).
  Notation step := (step same cmp observers).
  Notation run := (run same cmp observers).

  (** what observer [k] is to show when the model has value [v] *)
  Definition right_view (k : nat) (v : V) : V :=
    match nth_error observers k with Some (Bound conv) => conv v | _ => v end.
  (** what observer [k] was told last, [v] if nothing *)
  Definition last_told (k : nat) (v : V) (l : list (nat * V)) : V :=
    match find (fun e => Nat.eqb (fst e) k) l with Some e => snd e | None => v end.
  Definition resting (s : state V) : Prop := forall t, at_ (threads s t) = Idle.

  (** a thread is in the listener of observer [k], having read the value of the model *)
  Definition inside (k : nat) (p : place V) : Prop :=
    match p with Got _ j _ | Keep _ j _ | Reread _ j | Fire _ j _ => j = k | _ => False end.
  (** a thread is in an update, having read the value of the model, and has not yet written it *)
  Definition updating (p : place V) : Prop :=
    match p with Compare (Update _) _ | Write (Update _) _ => True | _ => False end.
  (** whenever a thread changes the value of the model, no other thread is at such a place *)
  Definition undisturbed (at_place : place V -> Prop) (s : state V) (ts : list nat) : Prop :=
    forall us t vs, ts = us ++ t :: vs ->
      value (run s (us ++ [t])) = value (run s us) \/ forall u, u <> t -> ~ at_place (at_ (threads (run s us) u)).

  (** an atomic register: calls one after another *)
  Definition apply_call (v : V) (c : call V) : V := match c with Assign w => w | Update g => g v end.
  Definition all_at_once (v : V) (cs : list (nat * call V)) : V := fold_left (fun v e => apply_call v (snd e)) cs v.
  Definition calls_of (t : nat) (cs : list (nat * call V)) : list (call V) :=
    map snd (filter (fun e => Nat.eqb (fst e) t) cs).
  (** the call a thread is in that has not taken effect *)
  Definition pending (p : place V) : list (call V) :=
    match p with Compare c _ | Write c _ => [c] | _ => [] end.
End Spec.
