(** Model of /repo/nion/utils/Promise.py (lines 7-35).  [value] runs under a re-entrant lock, so
    concurrent accesses are a sequence.  The function's n-th call outcome is an arbitrary oracle:
    [None] = raises, [Some v] = returns, where [v : option V] and [None] is Python None.
    Simplification: the function does not access the promise it belongs to. *)
From Coq Require Import List Arith Lia.
From Verif Require Import PyBase.
Import ListNotations.

Section Promise.
  Context {V : Type} (outcome : nat -> option (option V)).

  (** Promise.py:12-15; [p_pending] is "callable(self.__fn)", [p_calls] counts calls of the function *)
  Record promise := Pr { p_value : option V; p_pending : bool; p_calls : nat }.
  Definition p_new : promise := Pr None true 0.

  Inductive paccess := AValue | AOptValue | AHasValue.
  Inductive pout := OutValue (v : option V) | OutBool (b : bool) | OutRaise.

  (** Promise.py:18-25 value, 27-30 opt_value, 32-35 has_value *)
  Definition p_step (p : promise) (a : paccess) : promise * pout :=
    match a with
    | AValue =>
        if p_pending p then
          match outcome (p_calls p) with
          | Some v => (Pr v false (S (p_calls p)), OutValue v)
          | None => (Pr (p_value p) true (S (p_calls p)), OutRaise)
          end
        else (p, OutValue (p_value p))
    | AOptValue => (p, OutValue (p_value p))
    | AHasValue => (p, OutBool (match p_value p with Some _ => true | None => false end))
    end.

  Fixpoint p_run (p : promise) (h : list paccess) : promise * list pout :=
    match h with
    | [] => (p, [])
    | a :: h' => let '(p1, o) := p_step p a in let '(p2, os) := p_run p1 h' in (p2, o :: os)
    end.
End Promise.
