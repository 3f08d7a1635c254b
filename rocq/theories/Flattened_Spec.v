(** Specification vocabulary for flattened lists. *)
From Coq Require Import List ZArith Bool Arith.
From Verif Require Import PyBase Selection_Model Flattened_Model.
Import ListNotations.
Local Open Scope nat_scope.

Section FlS.
  Context {M X : Type} (M_dec : forall a b : M, {a = b} + {a <> b}).

  Definition masters (s : flstate M X) : list M := match fl_cont s with Some l => l | None => [] end.

  (** an observer that edits a Python list with the notified values and indexes *)
  Fixpoint fl_observes (l : list X) (tr : list (flev X)) (l' : list X) : Prop :=
    match tr with
    | [] => l = l'
    | LfIns x i :: tr' => fl_observes (py_insert i x l) tr' l'
    | LfRem x i :: tr' => py_get l i = Ok x /\ exists l1, py_del l i = Ok l1 /\ fl_observes l1 tr' l'
    | _ :: tr' => fl_observes l tr' l'
    end.

  (** the container holds each master at most once; child edits use an index inside the child list; any integer is
      allowed as the index of a container edit *)
  Definition fl_proper (s : flstate M X) (o : flop M X) : Prop :=
    match o with
    | LfInsert _ m => ~ In m (masters s)
    | LfKidInsert m i _ => (0 <= i <= Z.of_nat (length (fl_kids s m)))%Z
    | LfKidRemove m i => (0 <= i)%Z
    | LfSetContainer (Some l) => NoDup l
    | _ => True
    end.
  (** operations that only remove *)
  Definition fl_removing (s : flstate M X) (o : flop M X) : Prop :=
    match o with
    | LfRemove _ => True
    | LfKidRemove _ i => (0 <= i)%Z
    | LfSetContainer None => True
    | _ => False
    end.

  Fixpoint fl_along (P : flstate M X -> flop M X -> Prop) (s : flstate M X) (h : list (flop M X)) : Prop :=
    match h with
    | [] => True
    | o :: h' => P s o /\ fl_along P (fst (fst (fl_step M_dec s o))) h'
    end.
End FlS.

(** insert_index / remove_index calls in a trace (ListModel.py:901-902, 915-916) *)
Fixpoint fl_selection_calls {X} (tr : list (flev X)) : list sop :=
  match tr with
  | [] => []
  | LfSelIns i :: tr' => OInsertIndex i :: fl_selection_calls tr'
  | LfSelRem i :: tr' => ORemoveIndex i :: fl_selection_calls tr'
  | _ :: tr' => fl_selection_calls tr'
  end.
