(** Model of the registrations and subscriptions of PersistentObjectContext, /repo/nion/utils/Persistence.py:172-226.
    Objects and subscribers are identified by numbers; the uuid of an object does not change (354).  The callbacks of a
    subscription and the listeners of registration_event do not call back into the context and do not raise. *)
From Coq Require Import ZArith Bool List.
From Verif Require Import PyBase.
Import ListNotations.

Section Context.
  Context {U : Type} (U_dec : forall x y : U, {x = y} + {x <> y}) (uuid : nat -> U).
  (** a subscription, 222: who, and whether the registered and unregistered callbacks are given (None is allowed) *)
  Record sub := Sub { s_id : nat; s_reg : bool; s_unreg : bool }.
  (** what the context calls: [ToldReg id r] is registered(r) of subscriber [id], [ToldGone id o] unregistered(o),
      [Fired a b] registration_event.fire(a, b) *)
  Inductive call := ToldReg (id r : nat) | ToldGone (id : nat) (o : option nat) | Fired (a b : option nat).
  (** 172-176; [c_dead] are the objects that no longer exist: their weak references give None *)
  Record ctx := Ctx { c_subs : list (U * list sub); c_objs : list (U * nat); c_dead : list nat; c_log : list call }.
  Definition ctx_make : ctx := Ctx [] [] [] [].

  Definition alive (c : ctx) (r : nat) : bool := negb (existsb (Nat.eqb r) (c_dead c)).
  (** a weak reference called *)
  Definition deref (c : ctx) (w : option nat) : option nat :=
    match w with Some r => if alive c r then Some r else None | None => None end.
  Definition subs_of (c : ctx) (u : U) : list sub := match dict_get U_dec u (c_subs c) with Some l => l | None => [] end.
  Definition add_log (l : list call) (c : ctx) : ctx := Ctx (c_subs c) (c_objs c) (c_dead c) (c_log c ++ l).

  (** 178-190 *)
  Definition register (r : nat) (c : ctx) : ctx * res unit :=
    let c1 := Ctx (c_subs c) (dict_set U_dec (uuid r) r (c_objs c)) (c_dead c) (c_log c) in
    let told := flat_map (fun s => if s_reg s then [ToldReg (s_id s) r] else []) (subs_of c1 (uuid r)) in
    (add_log (told ++ [Fired (Some r) None]) c1, Ok tt).
  (** 192-206: the entry is deleted last, and that raises KeyError if there is none *)
  Definition unregister (r : nat) (c : ctx) : ctx * res unit :=
    let o := deref c (dict_get U_dec (uuid r) (c_objs c)) in
    let told := flat_map (fun s => if s_unreg s then [ToldGone (s_id s) o] else []) (subs_of c (uuid r)) in
    let c1 := add_log (told ++ [Fired None o]) c in
    match dict_get U_dec (uuid r) (c_objs c1) with
    | Some _ => (Ctx (dict_del U_dec (uuid r) (c_subs c1)) (dict_del U_dec (uuid r) (c_objs c1)) (c_dead c1) (c_log c1), Ok tt)
    | None => (c1, Err KeyError)
    end.
  (** 208-210 *)
  Definition get_registered_object (u : U) (c : ctx) : option nat := deref c (dict_get U_dec u (c_objs c)).
  (** 212-226: registered is called without a check for None *)
  Definition subscribe (u : U) (s : sub) (c : ctx) : ctx * res unit :=
    let c1 := Ctx (dict_set U_dec u (subs_of c u ++ [s]) (c_subs c)) (c_objs c) (c_dead c) (c_log c) in
    match get_registered_object u c1 with
    | Some r => if s_reg s then (add_log [ToldReg (s_id s) r] c1, Ok tt) else (c1, Err TypeError)
    | None => (c1, Ok tt)
    end.

  Inductive op := Register (r : nat) | Unregister (r : nat) | Subscribe (u : U) (s : sub) | Die (r : nat).
  Definition step (c : ctx) (o : op) : ctx * res unit :=
    match o with
    | Register r => register r c
    | Unregister r => unregister r c
    | Subscribe u s => subscribe u s c
    | Die r => (Ctx (c_subs c) (c_objs c) (r :: c_dead c) (c_log c), Ok tt)
    end.
  Definition run (l : list op) (c : ctx) : ctx := fold_left (fun c o => fst (step c o)) l c.
End Context.
Arguments ctx : clear implicits.
Arguments op : clear implicits.
