(** Model of /repo/nion/utils/Selection.py, class IndexedSelection (lines 25-205).
    Simplifications: the index type check [isinstance(index, numbers.Integral)] always passes because
    indexes are [Z]; [changed_event.fire()] is counted, not delivered (it is always the last action of
    a method, so a re-entrant listener acts as a following operation); the public attribute
    [selection_style] is fixed after construction; the set object returned by [indexes] is not mutated
    by the client. *)
From stdpp Require Import gmap sets list.
From Verif Require Import PyBase.
Open Scope Z_scope.

(** Selection.py:18-22 *)
Inductive style := SNone | SSingle | SSingleOrNone | SMultiple.
Global Instance style_eq_dec : EqDecision style.
Proof. solve_decision. Defined.

(** Selection.py:28-31 *)
Record sel := Sel { s_style : style; s_indexes : gset Z; s_anchor : option Z }.

Definition new_selection (st : style) : sel := Sel st ∅ None.

(** What a call does besides changing the state: number of changed_event firings, exception. *)
Record outcome := Outcome { o_fires : nat; o_err : option exn }.

(** The idiom [if old_index != self.__indexes: self.__changed_event.fire()]. *)
Definition fire_if_changed (old new : gset Z) : outcome :=
  Outcome (if decide (old = new) then 0 else 1)%nat None.

Definition finish (s s' : sel) : sel * outcome := (s', fire_if_changed (s_indexes s) (s_indexes s')).

(** Selection.py:44-48 *)
Definition current_index (s : sel) : option Z :=
  match elements (s_indexes s) with [i] => Some i | _ => None end.

(** Selection.py:62-63 *)
Definition contains (s : sel) (i : Z) : bool := bool_decide (i ∈ s_indexes s).

(** list.remove(x): first occurrence *)
Fixpoint list_remove1 (x : Z) (l : list Z) : list Z :=
  match l with
  | [] => []
  | y :: l' => if decide (y = x) then l' else y :: list_remove1 x l'
  end.

(** Selection.py:69-75 *)
Definition ordered_indexes (s : sel) : list Z :=
  let l := py_sorted Z.ltb (elements (s_indexes s)) in
  match s_anchor s with
  | Some a => if decide (a ∈ s_indexes s) then a :: list_remove1 a l else l
  | None => l
  end.

(** Selection.py:77-86 *)
Definition clear (s : sel) : sel * outcome :=
  finish s (match s_style s with
            | SSingle => Sel (s_style s) ({[0]} ∪ s_indexes s) (Some 0)
            | _ => Sel (s_style s) ∅ None
            end).

(** Selection.py:88-91; the loop over the set is a fold over its elements (the result does not depend on
    the iteration order, lemma [update_anchor_spec]). *)
Definition update_anchor (l : list Z) (a : option Z) : option Z :=
  fold_left (fun a i => match a with
                        | None => Some i
                        | Some b => if i <? b then Some i else a
                        end) l a.

(** Selection.py:138-148 *)
Definition set_ (i : Z) (s : sel) : sel * outcome :=
  match s_style s with
  | SNone => clear s
  | _ => finish s (Sel (s_style s) {[i]} (Some i))
  end.

(** Selection.py:93-105 *)
Definition add (i : Z) (s : sel) : sel * outcome :=
  match s_style s with
  | SSingle | SSingleOrNone => set_ i s
  | SMultiple =>
      finish s (Sel (s_style s) ({[i]} ∪ s_indexes s)
                    (if decide (s_indexes s = ∅) then Some i else s_anchor s))
  | SNone => clear s
  end.

(** Selection.py:107-119 *)
Definition remove (i : Z) (s : sel) : sel * outcome :=
  match s_style s with
  | SMultiple | SSingleOrNone =>
      if decide (i ∈ s_indexes s) then
        let S' := s_indexes s ∖ {[i]} in
        let a' := match s_anchor s with
                  | Some a => if decide (a ∈ S') then Some a else update_anchor (elements S') (Some a)
                  | None => update_anchor (elements S') None
                  end in
        finish s (Sel (s_style s) S' a')
      else (s, Outcome 0 (Some KeyError))
  | SSingle => (s, Outcome 0 None)
  | SNone => clear s
  end.

(** Selection.py:121-123 *)
Fixpoint add_range (l : list Z) (s : sel) : sel * outcome :=
  match l with
  | [] => (s, Outcome 0 None)
  | i :: l' =>
      let '(s1, o1) := add i s in
      let '(s2, o2) := add_range l' s1 in
      (s2, Outcome (o_fires o1 + o_fires o2) (o_err o2))
  end.

(** Selection.py:125-136; the argument is the iteration order of the set. *)
Definition set_multiple (l : list Z) (s : sel) : sel * outcome :=
  match s_style s with
  | SMultiple => finish s (Sel (s_style s) (list_to_set l) (head l))
  | SSingle | SSingleOrNone =>
      match l with
      | [i] => set_ i s
      | _ => clear s
      end
  | SNone => clear s
  end.

(** Selection.py:150-155 *)
Definition toggle (i : Z) (s : sel) : sel * outcome :=
  if decide (i ∈ s_indexes s) then remove i s else add i s.

(** range(lo, hi) *)
Definition zrange (lo hi : Z) : list Z := (fun n : nat => lo + Z.of_nat n) <$> seq 0 (Z.to_nat (hi - lo)).

(** Selection.py:157-176 *)
Definition extend (i : Z) (s : sel) : sel * outcome :=
  match s_style s with
  | SMultiple =>
      finish s
        (match s_anchor s with
         | Some a =>
             if a <? i then Sel (s_style s) (s_indexes s ∪ list_to_set (zrange a (i + 1))) (Some a)
             else if i <? a then Sel (s_style s) (s_indexes s ∪ list_to_set (zrange i (a + 1))) (Some a)
             else s
         | None => Sel (s_style s) ({[i]} ∪ s_indexes s) (Some i)
         end)
  | SSingle | SSingleOrNone => set_ i s
  | SNone => clear s
  end.

(** Selection.py:178-189 *)
Definition insert_index (k : Z) (s : sel) : sel * outcome :=
  (Sel (s_style s)
       (set_map (fun i => if i <? k then i else i + 1) (s_indexes s))
       (match s_anchor s with
        | Some a => if k <=? a then Some (a + 1) else Some a
        | None => None
        end),
   Outcome 0 None).

(** Selection.py:191-205; note that [__update_anchor_index] runs on the old set, before the new set is
    assigned. *)
Definition remove_index (k : Z) (s : sel) : sel * outcome :=
  (Sel (s_style s)
       (set_map (fun i => if k <? i then i - 1 else i) (s_indexes s ∖ {[k]}))
       (match s_anchor s with
        | Some a => if k =? a then update_anchor (elements (s_indexes s)) (Some a)
                    else if k <? a then Some (a - 1) else Some a
        | None => None
        end),
   Outcome 0 None).

(** The public operations, as data. *)
Inductive sop :=
| OClear | OAdd (i : Z) | ORemove (i : Z) | OAddRange (l : list Z) | OSetMultiple (l : list Z)
| OSet (i : Z) | OToggle (i : Z) | OExtend (i : Z) | OInsertIndex (k : Z) | ORemoveIndex (k : Z)
| OSetAnchor (a : option Z).

Definition sel_step (s : sel) (o : sop) : sel * outcome :=
  match o with
  | OClear => clear s
  | OAdd i => add i s
  | ORemove i => remove i s
  | OAddRange l => add_range l s
  | OSetMultiple l => set_multiple l s
  | OSet i => set_ i s
  | OToggle i => toggle i s
  | OExtend i => extend i s
  | OInsertIndex k => insert_index k s
  | ORemoveIndex k => remove_index k s
  | OSetAnchor a => (Sel (s_style s) (s_indexes s) a, Outcome 0 None)   (* Selection.py:54-56 *)
  end.

Definition sel_run (s : sel) (h : list sop) : sel := fold_left (fun s o => (sel_step s o).1) h s.
