(** Model of setting persistent properties whose changed callbacks set properties themselves, raise, or read the object,
    /repo/nion/utils/Persistence.py.
    One object, in a context with a storage handler throughout; the keys of properties are their names; one thread.  What is
    done is a list of acts: an act is done by the client if no callback is running and by the callback that is running
    otherwise, so that callbacks may do anything, nested to any depth.  A callback or a client to which an exception comes
    goes on (it catches it) or raises.  A property without callback is one whose callback returns at once.  The times of
    modification, and the counts of parents, are left out (PersistHeap_Model has them).  Values are values: that the callback
    is given the object itself (53) is not modelled. *)
From Coq Require Import List Bool Arith.
From Verif Require Import PyBase.
Import ListNotations.

Section Model.
  Context {N V J : Type} (N_dec : forall x y : N, {x = y} + {x <> y}).
  (** 47-50: validate, which may raise; without validate, a copy *)
  Variable validate : N -> V -> option V.
  (** 55-57, 82-93: what write_to_dict puts under the key; None: nothing *)
  Variable json : N -> V -> option J.
  (** 59-61: convert_back *)
  Variable parse : N -> J -> V.
  (** the names of the properties in the order they were defined, 511 *)
  Variable names : list N.

  Definition upd {B} (n : N) (b : B) (f : N -> B) : N -> B := fun m => if N_dec n m then b else f m.

  (** a callback that is running: of a property that is being set (52-53 in 619 or 655), or read (52-53 in 513) with the
      names still to be read *)
  Inductive frame := FSet (n : N) | FRead (n : N) (d : N -> option J) (rest : list N).
  (** what callbacks, the storage handler and callers get to see *)
  Inductive event :=
    | Called (n : N) (v : V)                (* changed(name, value), 53 *)
    | Wrote (n : N) (j : option J)          (* 590-597: set_property, or clear_property for None, at the end of a setting *)
    | Failed (n : N)                        (* setting or reading the property ended with the exception of its callback *)
    | WasRead (n : N)                       (* the property was read *)
    | Custom (n : N) (j : J)                (* 627: set_property *)
    | Refused.                              (* an exception of validate came to the caller *)
  Record state := State {
    value : N -> V;                         (* 51 *)
    stored : N -> option J;                 (* the dict of the storage handler *)
    count : nat;                            (* 600 *)
    stack : list frame;
    log : list event }.                     (* newest first *)

  Inductive act :=
    | Set_ (n : N) (v : V)
    | Update (n : N) (j : J)
    | Read (d : N -> option J)
    | Return
    | Raise.

  Definition note e (s : state) := State (value s) (stored s) (count s) (stack s) (e :: log s).
  (** 46-53 up to the call of changed *)
  Definition set_value (n : N) (v : V) (f : frame) (s : state) : state :=
    match validate n v with
    | None => note Refused s
    | Some v' => State (upd n v' (value s)) (stored s) (count s) (f :: stack s) (Called n v' :: log s)
    end.
  (** 511-513, 63-75: the next property that is in the dict *)
  Fixpoint read_next (d : N -> option J) (rest : list N) (s : state) : state :=
    match rest with
    | [] => s
    | n :: rest' =>
        match d n with
        | None => read_next d rest' s
        | Some j => set_value n (parse n j) (FRead n d rest') s
        end
    end.
  (** 620-621 and 656-657, 582-600: after set_value *)
  Definition finish (n : N) (s : state) : state :=
    let j := json n (value s n) in
    State (value s) (upd n j (stored s)) (S (count s)) (stack s) (Wrote n j :: log s).
  Definition pop (s : state) : state := State (value s) (stored s) (count s) (tl (stack s)) (log s).
  Definition frame_name (f : frame) : N := match f with FSet n => n | FRead n _ _ => n end.

  Definition step (s : state) (a : act) : state :=
    match a with
    | Set_ n v => set_value n v (FSet n) s                                       (* 616-621, 644-657 *)
    | Update n j =>                                                             (* 623-627 *)
        State (value s) (upd n (Some j) (stored s)) (S (count s)) (stack s) (Custom n j :: log s)
    | Read d => read_next d names s                                             (* 501-513 *)
    | Return =>
        match stack s with
        | [] => s
        | FSet n :: _ => finish n (pop s)
        | FRead n d rest :: _ => read_next d rest (note (WasRead n) (pop s))
        end
    | Raise =>
        match stack s with
        | [] => s
        | f :: _ => note (Failed (frame_name f)) (pop s)
        end
    end.
  Definition run (s : state) (h : list act) : state := fold_left step h s.
End Model.
Arguments FSet {N J} n.
Arguments FRead {N J} n d rest.
Arguments Called {N V J} n v.
Arguments Wrote {N V J} n j.
Arguments Failed {N V J} n.
Arguments WasRead {N V J} n.
Arguments Custom {N V J} n j.
Arguments Refused {N V J}.
Arguments State {N V J}.
Arguments value {N V J}.
Arguments stored {N V J}.
Arguments count {N V J}.
Arguments stack {N V J}.
Arguments log {N V J}.
Arguments Set_ {N V J} n v.
Arguments Update {N V J} n j.
Arguments Read {N V J} d.
Arguments Return {N V J}.
Arguments Raise {N V J}.
