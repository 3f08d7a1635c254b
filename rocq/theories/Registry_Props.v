(** Properties C26-C29 of the component registry. *)
From stdpp Require Import gmap sets list.
From Verif Require Import PyBase Registry_Model Registry_Spec Registry_Proofs.

Section Props.
  Context {C T : Type} `{Countable C} `{Countable T}.
  Implicit Types (r : @registry C T _ _ _ _).

  (** ** C26 *)
  Theorem registry_views_agree_with_history (h : list (rop C T)) :
    Forall set_args h ->
    forall c t, let '(r, l) := reg_run reg_new h in
      (listed r c t <-> registered_since l c t) /\ (recorded r c t <-> registered_since l c t).
  Proof. exact (registry_history_lemma h). Qed.

  (** ** C27 *)
  Theorem registry_register_succeeds c ts r :
    (forall t, t ∈ ts -> ~ listed r c t) ->
    exists r', register c ts r = (r', None) /\
      (forall d t, listed r' d t <-> listed r d t \/ (d = c /\ t ∈ ts)) /\
      (forall d t, recorded r' d t <-> recorded r d t \/ (d = c /\ t ∈ ts)) /\
      r_notes r' = r_notes r ++ [NRegistered c (list_to_set ts)].
  Proof. exact (register_ok c ts r). Qed.

  Theorem registry_register_all_or_nothing c ts r :
    (exists t, t ∈ ts /\ listed r c t) -> register c ts r = (r, Some AssertionError).
  Proof. exact (register_fail c ts r). Qed.

  Theorem registry_unregister_all_or_nothing c r :
    (forall ts, (exists t, t ∈ ts /\ ~ listed r c t) -> unregister c (Some ts) r = (r, Some AssertionError)) /\
    (r_types r !! c = None -> unregister c None r = (r, Some KeyError) /\ unregister c (Some []) r = (r, Some KeyError)).
  Proof.
    exact (conj (fun ts => unregister_lacking c ts r)
                (fun E => conj (unregister_unknown c r E) (unregister_unknown_empty c r E))).
  Qed.

  (** ** C28 *)
  Theorem registry_unregister_types c ts h :
    Forall set_args h -> NoDup ts -> let r := (reg_run reg_new h).1 in
    (forall t, t ∈ ts -> listed r c t) -> is_Some (r_types r !! c) ->
    exists r', unregister c (Some ts) r = (r', None) /\
      (forall d t, listed r' d t <-> listed r d t /\ ~ (d = c /\ t ∈ ts)) /\
      (forall d t, recorded r' d t <-> recorded r d t /\ ~ (d = c /\ t ∈ ts)) /\
      r_notes r' = r_notes r ++ [NUnregistered c (list_to_set ts)].
  Proof.
    exact (fun Hh Hnd Hl Hs => unregister_some_ok c ts _ (reachable_views h Hh) Hnd Hl (or_intror Hs)).
  Qed.

  (** the notification carries the empty set, whatever types were removed *)
  Theorem registry_unregister_all_notifies_empty c h :
    Forall set_args h -> let r := (reg_run reg_new h).1 in
    is_Some (r_types r !! c) ->
    exists r', unregister c None r = (r', None) /\
      (forall d t, listed r' d t <-> listed r d t /\ d <> c) /\
      (forall d t, recorded r' d t <-> recorded r d t /\ d <> c) /\
      r_notes r' = r_notes r ++ [NUnregistered c ∅].
  Proof. exact (fun Hh Hs => unregister_all_ok c _ (reachable_views h Hh) Hs). Qed.

  (** ** C29 *)
  Theorem registry_get_component prio (order : gset C -> list C) r (t : T) :
    (forall X, order X ≡ₚ elements X) ->
    (get_component prio order r t = None <-> forall c, ~ listed r c t) /\
    (forall c, get_component prio order r t = Some c -> listed r c t /\ head (order (components_by_type r t)) = Some c).
  Proof. exact (get_component_lemma prio order r t). Qed.

  Theorem registry_fire_existing (order : gset C -> list C) r (t : T) :
    (forall X, order X ≡ₚ elements X) ->
    exists cs, NoDup cs /\ (forall c, c ∈ cs <-> listed r c t) /\
      r_notes (fire_existing order r t) = r_notes r ++ ((fun c => NRegistered c {[t]}) <$> cs) /\
      r_types (fire_existing order r t) = r_types r /\ r_by_type (fire_existing order r t) = r_by_type r.
  Proof. exact (fire_existing_lemma order r t). Qed.
End Props.
Print Assumptions registry_views_agree_with_history.
Print Assumptions registry_register_succeeds.
Print Assumptions registry_register_all_or_nothing.
Print Assumptions registry_unregister_all_or_nothing.
Print Assumptions registry_unregister_types.
Print Assumptions registry_unregister_all_notifies_empty.
Print Assumptions registry_get_component.
Print Assumptions registry_fire_existing.

(** Finding: "unregister" of all types does not tell the listeners which types were removed. *)
Theorem registry_unregister_payload_refuted :
  exists (h : list (rop nat nat)) (ts : gset nat),
    listed (reg_run reg_new h).1 1 7 /\
    head (reverse (r_notes (unregister 1 None (reg_run reg_new h).1).1)) = Some (NUnregistered 1 ts) /\
    7 ∉ ts.
Proof.
  exists [ORegister 1 [7; 8]]. eexists. split; [vm_compute; reflexivity|].
  split; [vm_compute; reflexivity|]. vm_compute. intros H; discriminate H.
Qed.
Print Assumptions registry_unregister_payload_refuted.

(** Finding: get_component returns a component although one with a higher priority is registered. *)
Theorem registry_priority_refuted :
  exists (prio : nat -> Z) (h : list (rop nat nat)) c d,
    let r := (reg_run reg_new h).1 in
    get_component prio elements r 7 = Some c /\ listed r d 7 /\ (prio c < prio d)%Z.
Proof.
  exists (fun c : nat => if decide (c = 1) then 10%Z else 90%Z), [ORegister 1 [7]; ORegister 2 [7]], 1, 2.
  split; [vm_compute; reflexivity|]. split; [vm_compute; reflexivity|]. vm_compute. reflexivity.
Qed.
Print Assumptions registry_priority_refuted.

Example registry_case :
  let h := [ORegister 1 [7; 8]; ORegister 2 [8]; ORegister 1 [8; 9]; OUnregister 1 (Some [7]);
            OUnregister 2 (Some [7]); OUnregister 3 None] in
  Forall (@set_args nat nat) h /\
  (reg_run reg_new h).2.*2 = [None; None; Some AssertionError; None; Some AssertionError; Some KeyError] /\
  elements (components_by_type (reg_run (T:=nat) reg_new h).1 8) = [1; 2] /\
  elements (components_by_type (reg_run (T:=nat) reg_new h).1 7) = [].
Proof.
  split; [|vm_compute; auto].
  repeat (apply Forall_cons; split; [simpl; repeat (constructor; [set_solver by lia|]); try exact I; constructor|]).
  constructor.
Qed.
