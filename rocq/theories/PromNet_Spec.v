(** Specification vocabulary for networks of promises. *)
From Coq Require Import List Bool Arith.
From Verif Require Import PyBase PromNet_Model.
Import ListNotations.

Section PromNetSpec.
  Context {V : Type} (fns : nat -> prog V).

  (** lazy evaluation by one thread, without sharing: [evals c r n], the code [c] ends with [r] after [n] steps *)
  Inductive evals : prog V -> res V -> nat -> Prop :=
  | ev_ret r : evals (Ret r) r 0
  | ev_read j k x n r m : evals (fns j) x n -> evals (k x) r m -> evals (Read j k) r (2 + n + m).
  Definition terminates (c : prog V) : Prop := exists r n, evals c r n.

  Definition done (th : pthread V) (r : res V) : Prop := frames th = [] /\ client th = Ret r.
  Definition finished (s : pstate V) : Prop := forall th, In th (thr s) -> exists r, done th r.

  (** how many steps of the schedule are made *)
  Fixpoint steps (s : pstate V) (sched : list nat) : nat :=
    match sched with
    | [] => 0
    | t :: sched' => match p_step fns s t with Some s' => S (steps s' sched') | None => steps s sched' end
    end.
End PromNetSpec.
