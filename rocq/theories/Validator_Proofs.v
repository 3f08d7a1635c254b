From Coq Require Import ZArith Lia.
From Verif Require Import Validator_Model Validator_Spec.
Open Scope Z_scope.

Lemma validate_nearest_lemma mn mx v :
  nonempty_range mn mx -> nearest_in_range mn mx v (validate mn mx v) /\
  (forall r, nearest_in_range mn mx v r -> r = validate mn mx v).
Proof.
  unfold nearest_in_range, in_range, nonempty_range, validate.
  destruct mn as [a|], mx as [b|]; intros H; (split; [split; [lia|intros w; lia]|]); intros r [Hr Hn].
  - destruct (Z.le_gt_cases a v); destruct (Z.le_gt_cases v b).
    + specialize (Hn v). lia.
    + specialize (Hn b). lia.
    + specialize (Hn a). lia.
    + lia.
  - destruct (Z.le_gt_cases a v); [specialize (Hn v)|specialize (Hn a)]; lia.
  - destruct (Z.le_gt_cases v b); [specialize (Hn v)|specialize (Hn b)]; lia.
  - specialize (Hn v). lia.
Qed.

Lemma validate_laws_lemma mn mx :
  (nonempty_range mn mx ->
     (forall v, in_range mn mx v -> validate mn mx v = v) /\
     (forall v, validate mn mx (validate mn mx v) = validate mn mx v)) /\
  (forall v w, v <= w -> validate mn mx v <= validate mn mx w) /\
  (forall a b v, mn = Some a -> mx = Some b -> b < a -> validate mn mx v = b).
Proof.
  unfold in_range, nonempty_range, validate. split; [|split].
  - destruct mn as [a|], mx as [b|]; intros H; split; intros; lia.
  - destruct mn as [a|], mx as [b|]; intros; lia.
  - intros a b v -> -> H. lia.
Qed.
