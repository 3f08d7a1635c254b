(** Property C38 of UuidToStringConverter. *)
From Coq Require Import String Ascii List ZArith Bool Lia.
From Verif Require Import PyBase Text_Model Text_Proofs ConvUuid_Model ConvUuid_Spec ConvUuid_Proofs.
Import ListNotations.
Local Open Scope Z_scope.

(** convert_back returns [u] for exactly the texts that are, white space at the ends and letter case apart, the
    canonical text of [u], and only if [u] is a random (version 4) RFC 4122 UUID *)
Theorem conv_uuid_back_iff s u :
  uuid_convert_back s = Some u <->
  is_uuid u /\ random_rfc4122 u /\ exists core, stripped s core /\ lower_text core = uuid_convert u.
Proof.
  unfold uuid_convert_back, uuid_convert. cbv zeta. set (t := strip_by is_space s). split.
  - destruct (fullmatch uuid_pattern t) eqn:Em; [|discriminate]. intros [= <-].
    destruct (proj1 (match_iff t _) (conj Em eq_refl)) as (H1 & H2 & H3). split; [exact H1|]. split; [exact H2|].
    exists t. split; [apply stripped_iff; reflexivity|exact H3].
  - intros (H1 & H2 & core & Hs & Hl). apply stripped_iff in Hs. fold t in Hs. subst core.
    destruct (proj2 (match_iff t u) (conj H1 (conj H2 Hl))) as [-> ->]. reflexivity.
Qed.

(** round trip, and its failure for every other UUID *)
Theorem conv_uuid_roundtrip u :
  is_uuid u ->
  (random_rfc4122 u -> uuid_convert_back (uuid_convert u) = Some u) /\
  (~ random_rfc4122 u -> uuid_convert_back (uuid_convert u) = None).
Proof.
  intros Hu.
  assert (Hst : stripped (uuid_convert u) (uuid_convert u)).
  { apply stripped_iff. rewrite <- (app_nil_r (uuid_convert u)) at 1.
    apply (strip_sandwich is_space [] (uuid_convert u) []); [reflexivity|reflexivity|apply uuid_str_trimmed]. }
  split; intros H.
  - apply conv_uuid_back_iff. split; [exact Hu|]. split; [exact H|]. exists (uuid_convert u). split; [exact Hst|]. apply uuid_str_lower.
  - destruct (uuid_convert_back (uuid_convert u)) as [v|] eqn:E; [|reflexivity].
    apply conv_uuid_back_iff in E as (Hv & Hr & core & Hs & Hl). apply stripped_iff in Hs, Hst.
    rewrite Hst in Hs. subst core. unfold uuid_convert in Hl. rewrite uuid_str_lower in Hl. apply uuid_str_inj in Hl; [|assumption|assumption].
    subst v. contradiction.
Qed.
Print Assumptions conv_uuid_back_iff.
Print Assumptions conv_uuid_roundtrip.

Example conv_c38_case :
  uuid_convert 0x12345678123442348234123456789abc = lit "12345678-1234-4234-8234-123456789abc" /\
  uuid_convert_back (lit " 12345678-1234-4234-8234-123456789ABC ") = Some 0x12345678123442348234123456789abc.
Proof. vm_compute. auto. Qed.
(** Finding: a time based (version 1) UUID does not come back *)
Example conv_c38_version1_case :
  uuid_convert_back (uuid_convert 0x12345678123411348234123456789abc) = None.
Proof. vm_compute. reflexivity. Qed.
