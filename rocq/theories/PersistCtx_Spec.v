(** What registrations and subscriptions of a persistent object context mean, one uuid and one subscriber at a time. *)
From Coq Require Import ZArith Bool List.
From Verif Require Import PyBase PersistCtx_Model.
Import ListNotations.

Section Spec.
  Context {U : Type} (U_dec : forall x y : U, {x = y} + {x <> y}) (uuid : nat -> U) (u : U).
  Definition is_u (r : nat) : bool := if U_dec (uuid r) u then true else false.

  (** the last object with uuid [u] that was registered and not unregistered since *)
  Definition current1 (cur : option nat) (o : op U) : option nat :=
    match o with
    | Register r => if is_u r then Some r else cur
    | Unregister r => if is_u r then None else cur
    | _ => cur
    end.
  Definition current (h : list (op U)) : option nat := fold_left current1 h None.
  Definition died (h : list (op U)) (r : nat) : Prop := In (Die r) h.

  (** what the context calls for one subscriber of [u], from the ops after the subscription: [cur] is the object that is
      registered and [dead] are the objects that no longer exist *)
  Definition existing (dead : list nat) (o : option nat) : option nat :=
    match o with Some r => if in_dec Nat.eq_dec r dead then None else Some r | None => None end.
  Fixpoint calls (s : sub) (cur : option nat) (dead : list nat) (h : list (op U)) : list call :=
    match h with
    | [] => []
    | Register r :: h' =>
        if is_u r then (if s_reg s then [ToldReg (s_id s) r] else []) ++ calls s (Some r) dead h' else calls s cur dead h'
    | Unregister r :: h' =>
        if is_u r then
          (if s_unreg s then [ToldGone (s_id s) (existing dead cur)] else []) ++
          match cur with
          | Some _ => []                              (* the subscription is gone *)
          | None => calls s None dead h'              (* there was nothing to unregister *)
          end
        else calls s cur dead h'
    | Subscribe _ _ :: h' => calls s cur dead h'
    | Die r :: h' => calls s cur (r :: dead) h'
    end.
  (** the call made at the subscription itself *)
  Definition first_call (s : sub) (o : option nat) : list call :=
    match o with Some r => if s_reg s then [ToldReg (s_id s) r] else [] | None => [] end.
  Definition dead_in (h : list (op U)) : list nat := rev (flat_map (fun o => match o with Die r => [r] | _ => [] end) h).
End Spec.
(** the calls of one subscriber, and those of the registration event *)
Definition for_sub (id : nat) (c : call) : bool :=
  match c with ToldReg i _ | ToldGone i _ => Nat.eqb i id | Fired _ _ => false end.
Definition fired (c : call) : bool := match c with Fired _ _ => true | _ => false end.
(** no subscription of [id] in the history *)
Definition not_sub {U} (id : nat) (o : op U) : Prop := match o with Subscribe _ s => s_id s <> id | _ => True end.
