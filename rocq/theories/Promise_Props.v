(** Property C33 of Promise. *)
From Coq Require Import List Arith Lia.
From Verif Require Import PyBase Promise_Model Promise_Spec Promise_Proofs.
Import ListNotations.

Theorem promise_access_results {V} (outcome : nat -> option (option V)) m v h1 a h2 :
  first_return outcome m v ->
  nth_error (snd (p_run outcome p_new (h1 ++ a :: h2))) (length h1) = Some (expected m v (value_count h1) a).
Proof. exact (promise_outputs_lemma outcome m v h1 a h2). Qed.
Print Assumptions promise_access_results.

Theorem promise_calls_until_first_return {V} (outcome : nat -> option (option V)) m v h :
  first_return outcome m v ->
  p_calls (fst (p_run outcome p_new h)) = Nat.min (value_count h) (S m).
Proof. exact (promise_calls_lemma outcome m v h). Qed.
Print Assumptions promise_calls_until_first_return.

Theorem promise_raising_is_retried {V} (outcome : nat -> option (option V)) h :
  (forall j, j < value_count h -> outcome j = None) ->
  p_calls (fst (p_run outcome p_new h)) = value_count h /\
  forall h1 a h2, h = h1 ++ a :: h2 ->
    nth_error (snd (p_run outcome p_new h)) (length h1)
      = Some (match a with AValue => OutRaise | AOptValue => OutValue None | AHasValue => OutBool false end).
Proof. exact (promise_always_raises_lemma outcome h). Qed.
Print Assumptions promise_raising_is_retried.

(** Finding: has_value does not say whether the promise was evaluated. *)
Theorem promise_has_value_refuted :
  exists outcome : nat -> option (option nat),
    snd (p_run outcome p_new [AValue; AHasValue]) = [OutValue None; OutBool false].
Proof. exists (fun _ => Some None). reflexivity. Qed.
Print Assumptions promise_has_value_refuted.

Example promise_c33_case :
  let outcome := fun n => match n with 0 | 1 => None | n => Some (Some (10 + n)) end in
  first_return outcome 2 (Some 12) /\
  p_run outcome p_new [AOptValue; AValue; AValue; AHasValue; AValue; AValue; AOptValue; AHasValue]
  = (Pr (Some 12) false 3,
     [OutValue None; OutRaise; OutRaise; OutBool false; OutValue (Some 12); OutValue (Some 12);
      OutValue (Some 12); OutBool true]).
Proof.
  split; [|reflexivity]. split; [reflexivity|]. intros [|[|j]] Hj; [reflexivity|reflexivity|lia].
Qed.
