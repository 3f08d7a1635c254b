(** Specification vocabulary for the registry. *)
From stdpp Require Import gmap sets list.
From Verif Require Import PyBase Registry_Model.

Section Spec.
  Context {C T : Type} `{Countable C} `{Countable T}.

  (** a successful call that adds / removes type [t] of component [c] *)
  Definition adds (c : C) (t : T) (e : rop C T * option exn) : Prop :=
    exists ts, e = (ORegister c ts, None) /\ t ∈ ts.
  Definition drops (c : C) (t : T) (e : rop C T * option exn) : Prop :=
    e = (OUnregister c None, None) \/ exists ts, e = (OUnregister c (Some ts), None) /\ t ∈ ts.

  (** registered for the type at some point and not unregistered since *)
  Definition registered_since (l : list (rop C T * option exn)) (c : C) (t : T) : Prop :=
    exists l1 e l2, l = l1 ++ e :: l2 /\ adds c t e /\ Forall (fun e' => ~ drops c t e') l2.

  (** argument sets, i.e. no element occurs twice in the iteration order *)
  Definition set_args (o : rop C T) : Prop :=
    match o with
    | ORegister _ ts | OUnregister _ (Some ts) => NoDup ts
    | _ => True
    end.

  (** the two public views: recorded types of a component, components of a type *)
  Definition recorded (r : @registry C T _ _ _ _) (c : C) (t : T) : Prop :=
    exists X, r_types r !! c = Some X /\ t ∈ X.
  Definition listed (r : @registry C T _ _ _ _) (c : C) (t : T) : Prop := c ∈ components_by_type r t.
End Spec.
