(** Specification vocabulary for mapped lists whose functions raise. *)
From Coq Require Import List ZArith Bool Arith.
From Verif Require Import PyBase MapFail_Model.
Import ListNotations.

Section MapFailSpec.
  Context {A B : Type}.

  (** an observer that edits a Python list with the notified values and indexes *)
  Fixpoint q_observes (l : list B) (tr : list (qev A B)) (l' : list B) : Prop :=
    match tr with
    | [] => l = l'
    | QIns b i :: tr' => q_observes (py_insert i b l) tr' l'
    | QRem b i :: tr' => py_get l i = Ok b /\ exists l1, py_del l i = Ok l1 /\ q_observes l1 tr' l'
    | _ :: tr' => q_observes l tr' l'
    end.

  (** the results of the successful calls of map_fn, and the arguments of those of unmap_fn *)
  Fixpoint made (tr : list (qev A B)) : list B :=
    match tr with [] => [] | QMap _ (Ok b) :: tr' => b :: made tr' | _ :: tr' => made tr' end.
  Fixpoint unmade (tr : list (qev A B)) : list B :=
    match tr with [] => [] | QUnmap b true :: tr' => b :: unmade tr' | _ :: tr' => unmade tr' end.

  (** what the client has put in the container *)
  Definition q_contents (s : qstate A B) : list A := match q_cont s with Some l => l | None => [] end.

  (** the model has a container it does not listen to *)
  Definition stuck (s : qstate A B) : Prop := q_cont s <> None /\ q_live s = false.

  Definition is_set (o : qop A) : bool := match o with QSet _ => true | _ => false end.

  (** edits that come before every item the map function fails for *)
  Definition before_bad (good : A -> bool) (l : list A) (o : qop A) : Prop :=
    match o with
    | QInsert i _ => exists k, i = Z.of_nat k /\ k <= length l /\ forallb good (firstn k l) = true
    | QRemove i => exists k, i = Z.of_nat k /\ k < length l /\ forallb good (firstn (S k) l) = true
    | QSet _ => False
    end.
  Definition edited (l : list A) (o : qop A) : list A :=
    match o with
    | QInsert i x => py_insert i x l
    | QRemove i => match py_del l i with Ok l' => l' | Err _ => l end
    | QSet _ => l
    end.
  Fixpoint all_before_bad (good : A -> bool) (l : list A) (h : list (qop A)) : Prop :=
    match h with [] => True | o :: h' => before_bad good l o /\ all_before_bad good (edited l o) h' end.
End MapFailSpec.
