(** Model of property models connected by two-way bindings, /repo/nion/utils/Binding.py:99-142, 233-249 and
    /repo/nion/utils/Model.py:42-54.
    A source PropertyModel has any number of PropertyBindings; the target of each is another PropertyModel, whose value the
    target setter assigns and whose property_changed_event calls update_source with its value.  So an assignment calls
    back into the model that is being assigned, to any depth.  Values are compared with equality; Python values including
    None are of type [P].  What a listener raises is swallowed by Event.fire, which then calls no more listeners (Event.py
    102-113). *)
From Coq Require Import List Arith.
From Verif Require Import PyBase.
Import ListNotations.

Section Loop.
  Context {P : Type} (P_dec : forall a b : P, {a = b} + {a <> b}).
  (** [b_show]: the converted value or the fallback for None, 240-245; [b_accept]: validated and converted back, 109-110 *)
  Record binding := Binding { b_show : P -> res P; b_accept : P -> res P }.
  Variable bindings : list binding.
  (** [l_log]: the assignments that were taken, latest first; source is [None], target number j is [Some j] *)
  Record loop := Loop { l_source : P; l_targets : list P; l_log : list (option nat * P) }.
  (** [model.value = v] on the source or a target *)
  Inductive assignment := ToSource (v : P) | ToTarget (j : nat) (t : P).
  Definition put_target (j : nat) (t : P) (l : list P) : list P := firstn j l ++ t :: skipn (S j) l.
  (** Model.py 42-54; [fuel] bounds the nesting, None if it does not suffice.  The listeners of the source are called in
      the order of the bindings and read the source's value at that time (241). *)
  Fixpoint assign (fuel : nat) (o : assignment) (s : loop) : option loop :=
    match o with
    | ToSource v =>
        if P_dec v (l_source s) then Some s
        else match fuel with
             | O => None
             | S f =>
                 (fix listeners (l : list (nat * binding)) (s1 : loop) : option loop :=
                    match l with
                    | [] => Some s1
                    | (j, b) :: l' =>
                        match b_show b (l_source s1) with
                        | Ok t => match assign f (ToTarget j t) s1 with Some s2 => listeners l' s2 | None => None end
                        | Err _ => Some s1
                        end
                    end) (combine (seq 0 (length bindings)) bindings) (Loop v (l_targets s) ((None, v) :: l_log s))
             end
    | ToTarget j t =>
        match nth_error (l_targets s) j, nth_error bindings j with
        | Some old, Some b =>
            if P_dec t old then Some s
            else match fuel with
                 | O => None
                 | S f =>
                     let s1 := Loop (l_source s) (put_target j t (l_targets s)) ((Some j, t) :: l_log s) in
                     match b_accept b t with Ok v => assign f (ToSource v) s1 | Err _ => Some s1 end
                 end
        | _, _ => Some s
        end
    end.
  (** assignments from outside, one after the other *)
  Fixpoint assign_all (fuel : nat) (l : list assignment) (s : loop) : option loop :=
    match l with
    | [] => Some s
    | o :: l' => match assign fuel o s with Some s' => assign_all fuel l' s' | None => None end
    end.
End Loop.
Arguments binding : clear implicits.
Arguments loop : clear implicits.
Arguments assignment : clear implicits.
