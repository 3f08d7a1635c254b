(** Property C34 of IntegerRangeValidator. *)
From Coq Require Import ZArith.
From Verif Require Import Validator_Model Validator_Spec Validator_Proofs.
Open Scope Z_scope.

Theorem validator_nearest mn mx v :
  nonempty_range mn mx -> nearest_in_range mn mx v (validate mn mx v) /\
  (forall r, nearest_in_range mn mx v r -> r = validate mn mx v).
Proof. exact (validate_nearest_lemma mn mx v). Qed.
Print Assumptions validator_nearest.

Theorem validator_laws mn mx :
  (nonempty_range mn mx ->
     (forall v, in_range mn mx v -> validate mn mx v = v) /\
     (forall v, validate mn mx (validate mn mx v) = validate mn mx v)) /\
  (forall v w, v <= w -> validate mn mx v <= validate mn mx w) /\
  (forall a b v, mn = Some a -> mx = Some b -> b < a -> validate mn mx v = b).
Proof. exact (validate_laws_lemma mn mx). Qed.
Print Assumptions validator_laws.

Example validator_c34_case :
  nonempty_range (Some (-3)) (Some 8) /\ validate (Some (-3)) (Some 8) 20 = 8 /\
  validate (Some (-3)) None (-9) = -3 /\ validate (Some 5) (Some 2) 4 = 2.
Proof. vm_compute. repeat split; congruence. Qed.
