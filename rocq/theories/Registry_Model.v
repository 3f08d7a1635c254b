(** Model of /repo/nion/utils/Registry.py (lines 34-122).  Components and types are arbitrary countable
    types with decidable equality (hashable objects, strings).  The component_types argument is given by
    its iteration order.  The singleton metaclass (23-31) means there is one registry state.
    Notifications are recorded with the payload a listener sees. *)
From stdpp Require Import gmap sets list.
From Verif Require Import PyBase.

Section Registry.
  Context {C T : Type} `{Countable C} `{Countable T}.

  Inductive rnote :=
  | NRegistered (c : C) (ts : gset T)
  | NUnregistered (c : C) (ts : gset T).

  (** Registry.py:36-40 *)
  Record registry := Reg { r_types : gmap C (gset T); r_by_type : gmap T (gset C); r_notes : list rnote }.
  Definition reg_new : registry := Reg ∅ ∅ [].

  (** Registry.py:50-51: the components of a type; an unknown type gives the empty list *)
  Definition components_by_type (r : registry) (t : T) : gset C := default ∅ (r_by_type r !! t).

  (** Registry.py:56-58 *)
  Fixpoint reg_add_all (c : C) (ts : list T) (m : gmap T (gset C)) : gmap T (gset C) :=
    match ts with
    | [] => m
    | t :: ts' => reg_add_all c ts' (<[t := {[c]} ∪ default ∅ (m !! t)]> m)
    end.

  (** Registry.py:53-60 *)
  Definition register (c : C) (ts : list T) (r : registry) : registry * option exn :=
    if decide (Forall (fun t => c ∉ components_by_type r t) ts) then
      let types' := <[c := default ∅ (r_types r !! c) ∪ list_to_set ts]> (r_types r) in
      (Reg types' (reg_add_all c ts (r_by_type r)) (r_notes r ++ [NRegistered c (list_to_set ts)]), None)
    else (r, Some AssertionError).

  (** Registry.py:66-67: set.remove raises KeyError if absent (then earlier removals remain) *)
  Fixpoint reg_remove_all (c : C) (ts : list T) (m : gmap T (gset C)) : gmap T (gset C) * option exn :=
    match ts with
    | [] => (m, None)
    | t :: ts' =>
        match m !! t with
        | Some X => if decide (c ∈ X) then reg_remove_all c ts' (<[t := X ∖ {[c]}]> m) else (m, Some KeyError)
        | None => (m, Some AttributeError)
        end
    end.

  (** Registry.py:62-71.  [None] for the types means "all": the code then iterates over and passes on the
      internal set object itself, which line 68 empties before the notification is fired. *)
  Definition unregister (c : C) (ots : option (list T)) (r : registry) : registry * option exn :=
    let ots' := match ots with
                | Some ts => Some ts
                | None => match r_types r !! c with Some X => Some (elements X) | None => None end
                end in
    match ots' with
    | None => (r, Some KeyError)
    | Some ts =>
        if decide (Forall (fun t => c ∈ components_by_type r t) ts) then
          match reg_remove_all c ts (r_by_type r) with
          | (m, Some e) => (Reg (r_types r) m (r_notes r), Some e)
          | (m, None) =>
              match r_types r !! c with
              | None => (Reg (r_types r) m (r_notes r), Some KeyError)
              | Some X =>
                  let X' := X ∖ list_to_set ts in
                  let types' := if decide (X' = ∅) then delete c (r_types r) else <[c := X']> (r_types r) in
                  let payload := match ots with Some ts => list_to_set ts | None => X' end in
                  (Reg types' m (r_notes r ++ [NUnregistered c payload]), None)
              end
          end
        else (r, Some AssertionError)
    end.

  (** Registry.py:79-98; [order] is the iteration order of the component set.  The sorted list is computed
      and only its length is used. *)
  Definition get_component (prio : C -> Z) (order : gset C -> list C) (r : registry) (t : T) : option C :=
    let components := order (components_by_type r t) in
    let sorted_components := py_sorted (fun a b => Z.ltb (prio b) (prio a)) components in
    if decide (0 < length sorted_components) then head components else None.

  (** Registry.py:120-122 *)
  Definition fire_existing (order : gset C -> list C) (r : registry) (t : T) : registry :=
    Reg (r_types r) (r_by_type r)
        (r_notes r ++ ((fun c => NRegistered c {[t]}) <$> order (components_by_type r t))).

  Inductive rop := ORegister (c : C) (ts : list T) | OUnregister (c : C) (ots : option (list T)).
  Definition reg_step (r : registry) (o : rop) : registry * option exn :=
    match o with
    | ORegister c ts => register c ts r
    | OUnregister c ots => unregister c ots r
    end.

  (** a history, with the outcome of each call *)
  Fixpoint reg_run (r : registry) (h : list rop) : registry * list (rop * option exn) :=
    match h with
    | [] => (r, [])
    | o :: h' => let '(r1, e) := reg_step r o in let '(r2, l) := reg_run r1 h' in (r2, (o, e) :: l)
    end.
End Registry.
Arguments rop C T : clear implicits.
