(** What an assignment leads to when the bindings give back what they show. *)
From Coq Require Import List Arith.
From Verif Require Import PyBase BindLoop_Model.
Import ListNotations.

Section Spec.
  Context {P : Type} (P_dec : forall a b : P, {a = b} + {a <> b}).
  Variable bindings : list (binding P).
  (** the values the source may have: what any binding shows of it is accepted as the same value; and what bindings
      accept are such values *)
  Definition faithful (good : P -> Prop) : Prop :=
    Forall (fun b => (forall v t, good v -> b_show b v = Ok t -> b_accept b t = Ok v) /\ (forall t v, b_accept b t = Ok v -> good v)) bindings.
  (** the targets when the source changes to [v]: shown in order, up to a binding that cannot show [v] *)
  Fixpoint all_shown (v : P) (bs : list (binding P)) (ts : list P) : list P :=
    match bs, ts with
    | b :: bs', t :: ts' => match b_show b v with Ok t' => t' :: all_shown v bs' ts' | Err _ => ts end
    | _, _ => ts
    end.
  (** those that change, numbered from [j] *)
  Fixpoint changes (v : P) (j : nat) (bs : list (binding P)) (ts : list P) : list (option nat * P) :=
    match bs, ts with
    | b :: bs', t :: ts' =>
        match b_show b v with
        | Ok t' => (if P_dec t' t then [] else [(Some j, t')]) ++ changes v (S j) bs' ts'
        | Err _ => []
        end
    | _, _ => []
    end.
  (** the assignments taken, in order *)
  Inductive settles (s : loop P) : assignment P -> P -> list P -> list (option nat * P) -> Prop :=
    | S_same v : v = l_source s -> settles s (ToSource v) (l_source s) (l_targets s) []
    | S_source v : v <> l_source s ->
        settles s (ToSource v) v (all_shown v bindings (l_targets s)) ((None, v) :: changes v 0 bindings (l_targets s))
    | S_target_same j t : nth_error (l_targets s) j = Some t -> settles s (ToTarget j t) (l_source s) (l_targets s) []
    | S_target_kept j t old b : nth_error (l_targets s) j = Some old -> old <> t -> nth_error bindings j = Some b ->
        (forall v, b_accept b t = Ok v -> v = l_source s) ->
        settles s (ToTarget j t) (l_source s) (put_target j t (l_targets s)) [(Some j, t)]
    | S_target j t old b v : nth_error (l_targets s) j = Some old -> old <> t -> nth_error bindings j = Some b ->
        b_accept b t = Ok v -> v <> l_source s ->
        settles s (ToTarget j t) v (all_shown v bindings (put_target j t (l_targets s)))
          ((Some j, t) :: (None, v) :: changes v 0 bindings (put_target j t (l_targets s))).
  (** an assignment of a value the source may have, or of anything to an existing target *)
  Definition allowed (good : P -> Prop) (o : assignment P) : Prop :=
    match o with ToSource v => good v | ToTarget j _ => j < length bindings end.
  (** the source as the latest request that was accepted *)
  Definition requested (s : P) (o : assignment P) : P :=
    match o with
    | ToSource v => v
    | ToTarget j t => match nth_error bindings j with Some b => match b_accept b t with Ok v => v | Err _ => s end | None => s end
    end.
  (** every target stands for the source's value, unless it is not accepted at all *)
  Definition agrees (s : loop P) : Prop :=
    Forall2 (fun b t => forall v, b_accept b t = Ok v -> v = l_source s) bindings (l_targets s).
End Spec.
