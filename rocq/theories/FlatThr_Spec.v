(** Flattened lists under threads: what is meant to be shown. *)
From Coq Require Import List ZArith Bool Arith.
From Verif Require Import PyBase Flattened_Model Flattened_Spec FlatThr_Model.
Import ListNotations.

Section Spec.
  Context {M X : Type} (M_dec : forall a b : M, {a = b} + {a <> b}).
  Notation fth := (fth M X).

  (** no call is under way *)
  Definition idle (s : fth) : Prop := forall m, t_call s m = None.

  (** the children of [m] in the flattened list: those of the copy, but for an edit that has reached the
      copy and not yet the flattened list *)
  Definition in_flat (s : fth) (m : M) : list X :=
    match t_call s m with
    | Some (PFlat (KIns i x) _) => delete_at i (fl_children (t_fl s) m)
    | Some (PFlat (KRem i x) _) => insert_at i x (fl_children (t_fl s) m)
    | _ => fl_children (t_fl s) m
    end.

  (** the master items before [m] *)
  Fixpoint before (m : M) (l : list M) : list M :=
    match l with [] => [] | m' :: l' => if M_dec m' m then [] else m' :: before m l' end.

  (** where the edit is made in a list of [n] items (an index past the end of it inserts at the end) *)
  Definition lands (e : kedit X) (k n : nat) : nat := match e with KIns _ _ => Nat.min k n | KRem _ _ => k end.
  (** an edit of the flattened list is made at the place of the child as the list is at that time *)
  Definition in_place (s : fth) (a : fact M X) : Prop :=
    match a with
    | AGo m => match t_call s m with
               | Some (PFlat e k) =>
                   lands e k (length (fl_items (t_fl s))) =
                   length (flat_map (in_flat s) (before m (fl_master (t_fl s)))) + kindex e
               | _ => True
               end
    | _ => True
    end.

  (** the flattened list is not edited while an edit of it has still to be told *)
  Definition told_first (s : fth) (a : fact M X) : Prop :=
    match a with
    | AGo m => match t_call s m with
               | Some (PFlat _ _) => forall m' e k, t_call s m' <> Some (PTell e k)
               | _ => True
               end
    | _ => True
    end.

  (** one call after the other *)
  Definition one_by_one (s : fth) (a : fact M X) : Prop :=
    match a with AIns _ _ _ | ARem _ _ => idle s | _ => True end.

  (** indices are in range; see [fl_proper] of Flattened_Spec.v *)
  Definition fproper (s : fth) (a : fact M X) : Prop :=
    match a with
    | AIns m i _ => i <= length (fl_kids (t_fl s) m)
    | ASeq o => fl_proper (t_fl s) o
    | _ => True
    end.
  Definition inserting (a : fact M X) : Prop := match a with AIns _ _ _ | AGo _ => True | _ => False end.

  Fixpoint along (P : fth -> fact M X -> Prop) (s : fth) (h : list (fact M X)) : Prop :=
    match h with [] => True | a :: h' => P s a /\ along P (fstep M_dec s a) h' end.

  (** an observer that edits a list at the indices it is told *)
  Fixpoint follow (l : list X) (tr : list (flev X)) : option (list X) :=
    match tr with
    | [] => Some l
    | LfIns x i :: tr' => follow (py_insert i x l) tr'
    | LfRem _ i :: tr' => match py_del l i with Ok l1 => follow l1 tr' | Err _ => None end
    | _ :: tr' => follow l tr'
    end.
End Spec.
