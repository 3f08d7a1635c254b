(** Model of ListModel, /repo/nion/utils/ListModel.py:21-54.  Listeners that edit the list from within a
    notification are not modelled; the key argument of the notifications is omitted. *)
From Coq Require Import List ZArith.
From Verif Require Import PyBase.
Import ListNotations.
Open Scope Z_scope.

(** item_inserted_event(key, value, before_index), item_removed_event(key, value, index) *)
Inductive lnote A := LnIns (i : Z) (x : A) | LnRem (i : Z) (x : A).
Arguments LnIns {A} i x.
Arguments LnRem {A} i x.

Section ListModel.
  Context {A : Type}.

  (** ListModel.py:35-37 *)
  Definition lm_insert (i : Z) (x : A) (l : list A) : list A * list (lnote A) * option exn :=
    (py_insert i x l, [LnIns i x], None).

  (** ListModel.py:39-42 *)
  Definition lm_remove (i : Z) (l : list A) : list A * list (lnote A) * option exn :=
    match py_get l i with
    | Err e => (l, [], Some e)
    | Ok x => match py_del l i with
              | Err e => (l, [], Some e)
              | Ok l' => (l', [LnRem i x], None)
              end
    end.

  (** ListModel.py:31-33, the while loop; [fuel] bounds the iterations (the length is enough, see
      [lm_clear_exact]) *)
  Fixpoint lm_clear_loop (fuel : nat) (l : list A) : list A * list (lnote A) * option exn :=
    match fuel, l with
    | _, [] => (l, [], None)
    | O, _ => (l, [], None)
    | S fuel', _ =>
        match lm_remove (Z.of_nat (length l) - 1) l with
        | (l', n, Some e) => (l', n, Some e)
        | (l', n, None) => let '(l2, n2, e) := lm_clear_loop fuel' l' in (l2, n ++ n2, e)
        end
    end.

  Inductive lop := LInsert (i : Z) (x : A) | LRemove (i : Z) | LAppend (x : A) | LClear.

  Definition lm_step (l : list A) (o : lop) : list A * list (lnote A) * option exn :=
    match o with
    | LInsert i x => lm_insert i x l
    | LRemove i => lm_remove i l
    | LAppend x => lm_insert (Z.of_nat (length l)) x l          (* 44-45 *)
    | LClear => lm_clear_loop (length l) l
    end.

  Fixpoint lm_run (l : list A) (h : list lop) : list A * list (lnote A) :=
    match h with
    | [] => (l, [])
    | o :: h' => let '(l1, n1, _) := lm_step l o in let '(l2, n2) := lm_run l1 h' in (l2, n1 ++ n2)
    end.
End ListModel.
Arguments lop : clear implicits.
