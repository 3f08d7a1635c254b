(** What a client that keeps the set object of a selection can rely on. *)
From stdpp Require Import gmap sets list.
From Verif Require Import PyBase Selection_Model SelShare_Model.
Open Scope Z_scope.

(** the selection as it is seen through its methods *)
Definition seen (w : shared) : sel := Sel (h_style w) (own w) (h_anchor w).
(** the selection has a set object *)
Definition sound (w : shared) : Prop := (h_cur w < length (h_heap w))%nat.
(** which calls put another set object in place of the selection's own, by style and contents *)
Definition replaces (st : style) (S : gset Z) (o : sop) : Prop :=
  match o with
  | OClear => st <> SSingle
  | OSet _ => True
  | OAdd _ | OExtend _ => st <> SMultiple
  | OAddRange l => st <> SMultiple /\ l <> []
  | ORemove _ => st = SNone
  | OToggle i => (i ∈ S -> st = SNone) /\ (i ∉ S -> st <> SMultiple)
  | OSetMultiple l => st = SSingle -> length l = 1%nat
  | OInsertIndex k | ORemoveIndex k => exists i, i ∈ S /\ k <= i
  | OSetAnchor _ => False
  end.
(** the action does not edit set object [k] from outside *)
Definition spares (k : nat) (a : hact) : Prop := match a with HPut j _ => j <> k | _ => True end.
