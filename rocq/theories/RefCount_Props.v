(** Property C30 of ReferenceCounted. *)
From Coq Require Import List ZArith Lia Bool.
From Verif Require Import PyBase RefCount_Model RefCount_Spec RefCount_Proofs.
Import ListNotations.
Open Scope Z_scope.

(** For every history and every hook script: the run completes (the hook is never nested, so depth 1
    suffices), the count is adds minus removes and was never negative, and the hook ran immediately
    after the first checked removal to zero, and at most once. *)
Theorem rc_hook_once_at_first_zero d hook h :
  exists s, rc_run (S d) hook rc_new h = Some s /\
    rc_count s = balance (rc_log s) /\ never_negative (rc_log s) /\ hook_discipline (rc_log s).
Proof. exact (refcount_lemma d hook h). Qed.
Print Assumptions rc_hook_once_at_first_zero.

(** The trace really records the client's calls. *)
Theorem rc_add_ref_recorded d hook s :
  rc_step d hook s AddRef = Some (Rc (rc_count s + 1) (rc_active s) (rc_log s ++ [EvAdd]), None).
Proof. exact (add_ref_lemma d hook s). Qed.
Print Assumptions rc_add_ref_recorded.

Theorem rc_remove_ref_recorded d hook s check s' e :
  0 < rc_count s -> rc_step d hook s (RemoveRef check) = Some (s', e) ->
  exists t, rc_log s' = rc_log s ++ EvRemove check :: t /\
    (t <> [] -> exists t', t = EvHook :: t') /\ (t = [] -> rc_count s' = rc_count s - 1 /\ e = None).
Proof. exact (remove_ref_lemma d hook s check s' e). Qed.
Print Assumptions rc_remove_ref_recorded.

Theorem rc_remove_at_zero_raises d hook s check :
  rc_count s = 0 -> rc_step d hook s (RemoveRef check) = Some (s, Some AssertionError).
Proof. exact (remove_at_zero_lemma d hook s check). Qed.
Print Assumptions rc_remove_at_zero_raises.

(** A hook that adds and drops references, an unchecked drop to zero first, and later reuse. *)
Example rc_c30_case :
  rc_run 1 [AddRef; AddRef; RemoveRef true; RemoveRef true; RemoveRef true] rc_new
     [AddRef; RemoveRef false; AddRef; AddRef; RemoveRef true; RemoveRef true; AddRef; RemoveRef true]
  = Some (Rc 0 false [EvAdd; EvRemove false; EvAdd; EvAdd; EvRemove true; EvRemove true; EvHook;
                      EvAdd; EvAdd; EvRemove true; EvRemove true; EvAdd; EvRemove true]).
Proof. vm_compute. reflexivity. Qed.
