(** Model of persistent properties whose values are objects that can be edited, such as lists and dicts,
    /repo/nion/utils/Persistence.py, with the objects that the client has.
    Objects have contents and numbers; deepcopy makes a new object with the same contents, and what is within an object is part
    of its contents.  One persistent object, in a context throughout; no converters, readers, writers or make; the changed
    callback keeps what it is given and does nothing else (callbacks that use the object are in PropNet_Model).  What the
    storage handler is given is a deep copy of its own (42, 55-57, 589-597), so only its contents are kept here. *)
From Coq Require Import List Bool Arith.
From Verif Require Import PyBase.
Import ListNotations.

Section Model.
  Context {N C : Type} (N_dec : forall x y : N, {x = y} + {x <> y}).
  (** what a validate function does with the object it is given: return it, return a new one, raise *)
  Inductive verdict := Keep | Fresh (c : C) | Bad.
  (** 47-50: validate, if there is one *)
  Variable validate : N -> option (C -> verdict).
  (** 442-447: copy_on_read *)
  Variable special : N -> bool.
  (** 52: there is a changed callback, which the client has given *)
  Variable calls : N -> bool.

  Record state := State {
    heap : list C;                (* the contents of all objects *)
    own : N -> nat;               (* 33, 51, 101, 108: the object that is the value *)
    has : list nat;               (* the objects the client has *)
    stored : N -> option C }.     (* the storage *)

  Inductive op :=
    | New (c : C)                 (* the client makes an object *)
    | Edit (a : nat) (c : C)      (* the client edits an object it has *)
    | Set_ (n : N) (a : nat)      (* the client sets a property to an object it has *)
    | Read (n : N) (a : nat)      (* read_from_dict with an object the client has, 63-75, 511-513 *)
    | Get (n : N).                (* the client gets the value *)

  Definition upd {B} (n : N) (b : B) (f : N -> B) : N -> B := fun m => if N_dec n m then b else f m.
  Fixpoint put (a : nat) (c : C) (l : list C) : list C :=
    match l, a with
    | [], _ => []
    | _ :: l', 0 => c :: l'
    | x :: l', S a' => x :: put a' c l'
    end.
  (** 46-53: the heap and the object that is the value then; 53: the callback is given that object *)
  Definition set_value (n : N) (a : nat) (s : state) : option state :=
    match nth_error (heap s) a with
    | None => None
    | Some c =>
        let assign h b := Some (State h (upd n b (own s)) (if calls n then b :: has s else has s) (stored s)) in
        match validate n with
        | None => assign (heap s ++ [c]) (length (heap s))                       (* 50: deepcopy *)
        | Some f =>
            match f c with                                                      (* 48 *)
            | Keep => assign (heap s) a
            | Fresh c' => assign (heap s ++ [c']) (length (heap s))
            | Bad => None
            end
        end
    end.
  Definition step (s : state) (o : op) : state :=
    match o with
    | New c => State (heap s ++ [c]) (own s) (length (heap s) :: has s) (stored s)
    | Edit a c => if in_dec Nat.eq_dec a (has s) then State (put a c (heap s)) (own s) (has s) (stored s) else s
    | Set_ n a =>                                                               (* 616-621, 655-657 *)
        if in_dec Nat.eq_dec a (has s) then
          match set_value n a s with
          | None => s
          | Some s' => State (heap s') (own s') (has s') (upd n (nth_error (heap s') (own s' n)) (stored s'))
          end
        else s
    | Read n a =>
        if in_dec Nat.eq_dec a (has s) then match set_value n a s with None => s | Some s' => s' end else s
    | Get n =>                                                                  (* 633-637 *)
        if special n then                                                       (* 104 *)
          match nth_error (heap s) (own s n) with
          | None => s
          | Some c => State (heap s ++ [c]) (own s) (length (heap s) :: has s) (stored s)
          end
        else State (heap s) (own s) (own s n :: has s) (stored s)
    end.
  Definition run (s : state) (h : list op) : state := fold_left step h s.
End Model.
Arguments Keep {C}.
Arguments Fresh {C} c.
Arguments Bad {C}.
Arguments State {N C}.
Arguments heap {N C}.
Arguments own {N C}.
Arguments has {N C}.
Arguments stored {N C}.
Arguments New {N C} c.
Arguments Edit {N C} a c.
Arguments Set_ {N C} n a.
Arguments Read {N C} n a.
Arguments Get {N C} n.
