(** UUIDs by bit fields (RFC 4122). *)
From Coq Require Import String Ascii List ZArith Bool.
From Verif Require Import Text_Model.
Local Open Scope Z_scope.

Definition is_uuid (u : Z) : Prop := 0 <= u < 2 ^ 128.
(** version: bits 76-79; variant: bits 62-63 *)
Definition version (u : Z) : Z := (u / 2 ^ 76) mod 16.
Definition variant (u : Z) : Z := (u / 2 ^ 62) mod 4.
Definition random_rfc4122 (u : Z) : Prop := version u = 4 /\ variant u = 2.

(** ASCII lower case *)
Definition lower_char (c : ascii) : ascii := if (65 <=? code c) && (code c <=? 90) then chr (code c + 32) else c.
Definition lower_text (s : str) : str := List.map lower_char s.

(** [core] is [s] without the white space at its ends *)
Definition space (c : ascii) : Prop := 9 <= code c <= 13 \/ 28 <= code c <= 32.
Definition stripped (s core : str) : Prop :=
  exists pre post, s = (pre ++ core ++ post)%list /\ List.Forall space pre /\ List.Forall space post /\
    (forall c t, core = (c :: t)%list -> ~ space c) /\ (forall c t, core = (t ++ c :: nil)%list -> ~ space c).
