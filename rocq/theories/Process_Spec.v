(** Specification vocabulary for task queues and task sets. *)
From Coq Require Import List Arith.
From Verif Require Import PyBase Process_Model.
Import ListNotations.

(** running the tasks [ts] one after the other (none raising) after [log] puts [puts] *)
Inductive executes {T} (behave : list T -> T -> list T * bool) : list T -> list T -> list T -> Prop :=
| ex_nil log : executes behave log [] []
| ex_cons log t ts p puts :
    behave log t = (p, false) -> executes behave (log ++ [t]) ts puts ->
    executes behave log (t :: ts) (p ++ puts).

(** the calls made by the tasks of [l], run one after the other (none raising) *)
Inductive set_executes {K T} (behave : list (K * T) -> T -> list (tsact K T) * bool)
  : list (K * T) -> list (K * T) -> list (tsact K T) -> Prop :=
| sx_nil log : set_executes behave log [] []
| sx_cons log k t l a acts :
    behave log t = (a, false) -> set_executes behave (log ++ [(k, t)]) l acts ->
    set_executes behave log ((k, t) :: l) (a ++ acts).

(** [latest acts k = Some t]: the last call about key [k] added task [t] (and did not clear it) *)
Fixpoint latest_from {K T} (K_dec : forall a b : K, {a = b} + {a <> b}) (acts : list (tsact K T)) (k : K)
  (cur : option T) : option T :=
  match acts with
  | [] => cur
  | TsAdd k' t :: acts' => latest_from K_dec acts' k (if K_dec k k' then Some t else cur)
  | TsClear k' :: acts' => latest_from K_dec acts' k (if K_dec k k' then None else cur)
  end.
Definition latest {K T} K_dec (acts : list (tsact K T)) k := latest_from K_dec acts k None.

(** the pending tasks of [s] are what the calls [acts] (made since the last perform) left *)
Definition reached {K T} K_dec (s : @ts K T) (acts : list (tsact K T)) : Prop :=
  NoDup (map fst (ts_dict s)) /\ forall k, dict_get K_dec k (ts_dict s) = latest K_dec acts k.
