(** Model of making and releasing selections of a list model, /repo/nion/utils/ListModel.py, and of the comparison of
    selections that list.remove uses, /repo/nion/utils/Selection.py.
    FilteredListModel, MappedListModel and FlattenedListModel have the same methods (602-608, 760-766, 852-858) and the same
    loops over the selections when an item comes or goes (626-627, 639-640, 776-777, 789-790, 901-902, 915-916).  Selections are objects with
    numbers; their own methods are those of Selection_Model.  What the list shows, and which edits it makes, is that of the
    models of the lists; here the edits are given. *)
From stdpp Require Import gmap sets list.
From Verif Require Import PyBase Selection_Model Selection_Spec.
Local Open Scope nat_scope.

(** all selections there are, by number, and the list [__selections] *)
Record lm := LM { objs : list sel; kept : list nat }.
(** 265-267, 661-663, 809-811: selections given to the constructor (one at most in the code) are in the list from the start *)
Definition fresh (given : list sel) : lm := LM given (seq 0 (length given)).

(** Selection.py:33-34: the style is not compared *)
Definition sel_eqb (s t : sel) : bool := bool_decide (s_indexes s = s_indexes t) && bool_decide (s_anchor s = s_anchor t).
(** what list.remove asks of an element: is it the object, or equal to it *)
Definition matches (l : list sel) (i j : nat) : bool :=
  (j =? i) || match l !! j, l !! i with Some s, Some t => sel_eqb s t | _, _ => false end.
(** list.remove: the first that matches *)
Fixpoint remove_first (f : nat -> bool) (l : list nat) : option (list nat) :=
  match l with
  | [] => None
  | j :: l' => if f j then Some l' else match remove_first f l' with Some r => Some (j :: r) | None => None end
  end.

Inductive rop (A : Type) :=
  | Make                        (* make_selection *)
  | Release (i : nat)           (* release_selection *)
  | Use (i : nat) (o : sop)     (* a client uses a selection *)
  | Edit (e : ledit A).         (* an item is inserted or removed *)
Arguments Make {A}.
Arguments Release {A} i.
Arguments Use {A} i o.
Arguments Edit {A} e.

Definition use (o : sop) (l : list sel) (i : nat) : list sel := alter (fun s => (sel_step s o).1) i l.

Definition rstep {A} (st : lm) (o : rop A) : lm * option exn :=
  match o with
  | Make => (LM (objs st ++ [new_selection SMultiple]) (kept st ++ [length (objs st)]), None)    (* 602-605 *)
  | Release i =>                                                                                 (* 607-608 *)
      match remove_first (matches (objs st) i) (kept st) with
      | Some r => (LM (objs st) r, None)
      | None => (st, Some ValueError)
      end
  | Use i o => (LM (use o (objs st) i) (kept st), None)
  | Edit e => (LM (fold_left (use (accompany e)) (kept st) (objs st)) (kept st), None)           (* 626-627, 639-640 *)
  end.
Definition rrun {A} (st : lm) (h : list (rop A)) : lm := fold_left (fun st o => (rstep st o).1) h st.
