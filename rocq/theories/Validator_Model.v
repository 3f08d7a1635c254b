(** Model of /repo/nion/utils/Validator.py, class IntegerRangeValidator (lines 14-26). *)
From Coq Require Import ZArith.
Open Scope Z_scope.

(** Validator.py:21-26 *)
Definition validate (mn mx : option Z) (value : Z) : Z :=
  let value := match mn with Some a => Z.max a value | None => value end in
  match mx with Some b => Z.min b value | None => value end.
