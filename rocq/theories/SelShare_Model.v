(** The set object that IndexedSelection gives out, /repo/nion/utils/Selection.py:25-205.

    [indexes] (65-67) returns the set object itself, not a copy.  Here the sets that were the selection's own are objects; some
    methods edit the object in place and some put another one in its place.  Clients keep the object, and may edit it; and the
    public attribute selection_style (31) may be assigned.  The operations and what they report are those of Selection_Model.v,
    with its simplifications. *)
From stdpp Require Import gmap sets list.
From Verif Require Import PyBase Selection_Model.
Open Scope Z_scope.

(** all set objects so far, by number; [h_cur]: the one in __indexes *)
Record shared := Sh { h_style : style; h_heap : list (gset Z); h_cur : nat; h_anchor : option Z }.
Definition h_new (st : style) : shared := Sh st [∅] 0 None.                                             (* 28-31 *)
(** the contents of a set object *)
Definition contents (w : shared) (k : nat) : gset Z := nth k (h_heap w) ∅.
(** Selection.py:65-67 *)
Definition own (w : shared) : gset Z := contents w (h_cur w).

(** the object is edited, and the anchor set *)
Definition edited (w : shared) (S : gset Z) (a : option Z) : shared := Sh (h_style w) (<[h_cur w := S]> (h_heap w)) (h_cur w) a.
(** another object takes its place, and the anchor is set *)
Definition replaced (w : shared) (S : gset Z) (a : option Z) : shared := Sh (h_style w) (h_heap w ++ [S]) (length (h_heap w)) a.
(** [if old_index != self.__indexes: self.__changed_event.fire()] *)
Definition told (w w' : shared) : shared * outcome := (w', fire_if_changed (own w) (own w')).

(** Selection.py:77-86 *)
Definition h_clear (w : shared) : shared * outcome :=
  told w (match h_style w with SSingle => edited w ({[0]} ∪ own w) (Some 0) | _ => replaced w ∅ None end).
(** Selection.py:138-148 *)
Definition h_set (i : Z) (w : shared) : shared * outcome :=
  match h_style w with SNone => h_clear w | _ => told w (replaced w {[i]} (Some i)) end.
(** Selection.py:93-105 *)
Definition h_add (i : Z) (w : shared) : shared * outcome :=
  match h_style w with
  | SSingle | SSingleOrNone => h_set i w
  | SMultiple => told w (edited w ({[i]} ∪ own w) (if decide (own w = ∅) then Some i else h_anchor w))
  | SNone => h_clear w
  end.
(** Selection.py:107-119 *)
Definition h_remove (i : Z) (w : shared) : shared * outcome :=
  match h_style w with
  | SMultiple | SSingleOrNone =>
      if decide (i ∈ own w) then
        let S' := own w ∖ {[i]} in
        let a' := match h_anchor w with
                  | Some a => if decide (a ∈ S') then Some a else update_anchor (elements S') (Some a)
                  | None => update_anchor (elements S') None
                  end in
        told w (edited w S' a')
      else (w, Outcome 0 (Some KeyError))
  | SSingle => (w, Outcome 0 None)
  | SNone => h_clear w
  end.
(** Selection.py:121-123 *)
Fixpoint h_add_range (l : list Z) (w : shared) : shared * outcome :=
  match l with
  | [] => (w, Outcome 0 None)
  | i :: l' =>
      let '(w1, o1) := h_add i w in
      let '(w2, o2) := h_add_range l' w1 in
      (w2, Outcome (o_fires o1 + o_fires o2) (o_err o2))
  end.
(** Selection.py:125-136 *)
Definition h_set_multiple (l : list Z) (w : shared) : shared * outcome :=
  match h_style w with
  | SMultiple => told w (replaced w (list_to_set l) (head l))
  | SSingle | SSingleOrNone => match l with [i] => h_set i w | _ => h_clear w end
  | SNone => h_clear w
  end.
(** Selection.py:150-155 *)
Definition h_toggle (i : Z) (w : shared) : shared * outcome := if decide (i ∈ own w) then h_remove i w else h_add i w.
(** Selection.py:157-176 *)
Definition h_extend (i : Z) (w : shared) : shared * outcome :=
  match h_style w with
  | SMultiple =>
      told w (match h_anchor w with
              | Some a =>
                  if a <? i then edited w (own w ∪ list_to_set (zrange a (i + 1))) (Some a)
                  else if i <? a then edited w (own w ∪ list_to_set (zrange i (a + 1))) (Some a)
                  else w
              | None => edited w ({[i]} ∪ own w) (Some i)
              end)
  | SSingle | SSingleOrNone => h_set i w
  | SNone => h_clear w
  end.
(** Selection.py:188-189, 204-205: the new set takes the place of the old one if it is another *)
Definition moved (w : shared) (S : gset Z) (a : option Z) : shared :=
  if decide (own w = S) then Sh (h_style w) (h_heap w) (h_cur w) a else replaced w S a.
(** Selection.py:178-189 *)
Definition h_insert_index (k : Z) (w : shared) : shared * outcome :=
  (moved w (set_map (fun i => if i <? k then i else i + 1) (own w))
         (match h_anchor w with Some a => if k <=? a then Some (a + 1) else Some a | None => None end), Outcome 0 None).
(** Selection.py:191-205 *)
Definition h_remove_index (k : Z) (w : shared) : shared * outcome :=
  (moved w (set_map (fun i => if k <? i then i - 1 else i) (own w ∖ {[k]}))
         (match h_anchor w with
          | Some a => if k =? a then update_anchor (elements (own w)) (Some a) else if k <? a then Some (a - 1) else Some a
          | None => None
          end), Outcome 0 None).

Definition h_op (w : shared) (o : sop) : shared * outcome :=
  match o with
  | OClear => h_clear w
  | OAdd i => h_add i w
  | ORemove i => h_remove i w
  | OAddRange l => h_add_range l w
  | OSetMultiple l => h_set_multiple l w
  | OSet i => h_set i w
  | OToggle i => h_toggle i w
  | OExtend i => h_extend i w
  | OInsertIndex k => h_insert_index k w
  | ORemoveIndex k => h_remove_index k w
  | OSetAnchor a => (Sh (h_style w) (h_heap w) (h_cur w) a, Outcome 0 None)                             (* 54-56 *)
  end.
(** a method is called; selection_style is assigned; a client edits set object [k] (add, discard, clear, update): it has the
    contents [C] then *)
Inductive hact := HOp (o : sop) | HStyle (st : style) | HPut (k : nat) (C : gset Z).
Definition h_step (w : shared) (a : hact) : shared * outcome :=
  match a with
  | HOp o => h_op w o
  | HStyle st => (Sh st (h_heap w) (h_cur w) (h_anchor w), Outcome 0 None)                              (* 31 *)
  | HPut k C => (Sh (h_style w) (<[k := C]> (h_heap w)) (h_cur w) (h_anchor w), Outcome 0 None)
  end.
Definition h_run (w : shared) (h : list hact) : shared := fold_left (fun w a => (h_step w a).1) h w.
