(** Model of FilteredListModel, /repo/nion/utils/ListModel.py:233-641, with filters that may raise.  There is no sort
    key, no change block is open, items do not change and there is no selection.  Edits of the container reach the
    model through Event.fire (Event.py:103-114), which swallows what the handlers raise; assigning the container or the
    filter calls them directly.  Items are told apart by [eqb]. *)
From Coq Require Import List ZArith Bool Arith.
From Verif Require Import PyBase.
Import ListNotations.

Section FiltFail.
  Context {A : Type} (eqb : A -> A -> bool).

  (** [f_live]: the listeners of the container exist (557-571 closes them first); [f_keys] are the items with an entry
      in __item_changed_event_listeners *)
  Record fstate := Fs { f_cont : option (list A); f_live : bool; f_master : list A; f_items : list A;
                        f_keys : list A; f_filter : A -> res bool }.
  Inductive fev := FIns (x : A) (i : Z) | FRem (x : A) (i : Z).
  Definition fres : Type := fstate * list fev * option exn.

  Definition f_mem (x : A) (l : list A) : bool := existsb (eqb x) l.
  (** [l.index(x)] *)
  Fixpoint f_index (x : A) (l : list A) : nat :=
    match l with [] => 0 | y :: l' => if eqb y x then 0 else S (f_index x l') end.

  (** 375-382 *)
  Fixpoint find_index (flt : A -> res bool) (x : A) (l : list A) : res nat :=
    match l with
    | [] => Ok 0
    | y :: l' =>
        if eqb y x then Ok 0
        else match flt y with
             | Err e => Err e
             | Ok b => match find_index flt x l' with
                       | Err e => Err e
                       | Ok n => Ok (if b then S n else n)
                       end
             end
    end.

  (** 611-627 with 385-394 and 396-406 *)
  Definition f_inserted (s : fstate) (x : A) (i : Z) : fres :=
    if f_mem x (f_master s) then (s, [], Some AssertionError)
    else
      let m := py_insert i x (f_master s) in
      let s1 := Fs (f_cont s) (f_live s) m (f_items s) (x :: f_keys s) (f_filter s) in
      match f_filter s x with
      | Err e => (s1, [], Some e)
      | Ok false => (s1, [], None)
      | Ok true =>
          match find_index (f_filter s) x m with
          | Err e => (s1, [], Some e)
          | Ok n => (Fs (f_cont s) (f_live s) m (py_insert (Z.of_nat n) x (f_items s)) (x :: f_keys s) (f_filter s),
                     [FIns x (Z.of_nat n)], None)
          end
      end.

  (** 630-641 with 416-426 and 408-413 *)
  Definition f_removed (s : fstate) (x : A) (i : Z) : fres :=
    match py_del (f_master s) i with
    | Err e => (s, [], Some e)
    | Ok m =>
        if f_mem x (f_keys s) then
          let keys := filter (fun y => negb (eqb y x)) (f_keys s) in
          if f_mem x (f_items s) then
            let n := f_index x (f_items s) in
            (Fs (f_cont s) (f_live s) m (delete_at n (f_items s)) keys (f_filter s), [FRem x (Z.of_nat n)], None)
          else (Fs (f_cont s) (f_live s) m (f_items s) keys (f_filter s), [], None)
        else (Fs (f_cont s) (f_live s) m (f_items s) (f_keys s) (f_filter s), [], Some KeyError)
    end.

  (** 572-573 *)
  Fixpoint f_remove_loop (xs : list A) (s : fstate) : fres :=
    match xs with
    | [] => (s, [], None)
    | x :: xs' =>
        match f_removed s x (Z.of_nat (length (f_master s)) - 1) with
        | (s1, t1, Some e) => (s1, t1, Some e)
        | (s1, t1, None) => let '(s2, t2, e) := f_remove_loop xs' s1 in (s2, t1 ++ t2, e)
        end
    end.
  (** 599-600 *)
  Fixpoint f_insert_loop (xs : list A) (idx : nat) (s : fstate) : fres :=
    match xs with
    | [] => (s, [], None)
    | x :: xs' =>
        match f_inserted s x (Z.of_nat idx) with
        | (s1, t1, Some e) => (s1, t1, Some e)
        | (s1, t1, None) => let '(s2, t2, e) := f_insert_loop xs' (S idx) s1 in (s2, t1 ++ t2, e)
        end
    end.
  (** 574-600 *)
  Definition f_attach (s : fstate) (c : option (list A)) : fres :=
    match c with
    | None => (Fs None false (f_master s) (f_items s) (f_keys s) (f_filter s), [], None)
    | Some l => f_insert_loop l 0 (Fs (Some l) true (f_master s) (f_items s) (f_keys s) (f_filter s))
    end.
  (** 557-600; the listeners are closed and forgotten first, so a second attempt after a failed one calls close of
      None, 559 *)
  Definition f_set_container (s : fstate) (c : option (list A)) : fres :=
    match f_cont s with
    | None => f_attach s c
    | Some old =>
        if f_live s then
          match f_remove_loop (rev old) (Fs (f_cont s) false (f_master s) (f_items s) (f_keys s) (f_filter s)) with
          | (s1, t1, Some e) => (s1, t1, Some e)
          | (s1, t1, None) => let '(s2, t2, e) := f_attach s1 c in (s2, t1 ++ t2, e)
          end
        else (s, [], Some AttributeError)
    end.

  (** 469-490 *)
  Fixpoint f_build (flt : A -> res bool) (l : list A) : res (list A) :=
    match l with
    | [] => Ok []
    | x :: l' =>
        match flt x with
        | Err e => Err e
        | Ok b => match f_build flt l' with
                  | Err e => Err e
                  | Ok r => Ok (if b then x :: r else r)
                  end
        end
    end.
  (** 535-539: the removals name the old items from the front while the list shrinks from the end *)
  Fixpoint f_pops (l : list A) : list fev :=
    match l with [] => [] | x :: l' => FRem x (Z.of_nat (length l')) :: f_pops l' end.
  (** 540-544 *)
  Fixpoint f_appends (idx : nat) (l : list A) : list fev :=
    match l with [] => [] | x :: l' => FIns x (Z.of_nat idx) :: f_appends (S idx) l' end.
  (** 340-344 with 493-549 *)
  Definition f_set_filter (s : fstate) (flt : A -> res bool) : fres :=
    match f_build flt (f_master s) with
    | Err e => (Fs (f_cont s) (f_live s) (f_master s) (f_items s) (f_keys s) flt, [], Some e)
    | Ok r => (Fs (f_cont s) (f_live s) (f_master s) r (f_keys s) flt, f_pops (f_items s) ++ f_appends 0 r, None)
    end.

  Inductive fop := FInsert (i : Z) (x : A) | FRemove (i : Z)        (* on the container *)
                 | FSet (c : option (list A))                       (* .container = *)
                 | FFilter (flt : A -> res bool).                   (* .filter = *)

  Definition f_swallowed (r : fres) : fres := let '(s, t, _) := r in (s, t, None).

  Definition f_step (s : fstate) (o : fop) : fres :=
    match o with
    | FInsert i x =>
        match f_cont s with
        | None => (s, [], None)
        | Some l =>
            let s1 := Fs (Some (py_insert i x l)) (f_live s) (f_master s) (f_items s) (f_keys s) (f_filter s) in
            if f_live s then f_swallowed (f_inserted s1 x i) else (s1, [], None)
        end
    | FRemove i =>
        match f_cont s with
        | None => (s, [], None)
        | Some l =>
            match py_get l i, py_del l i with
            | Ok x, Ok l' =>
                let s1 := Fs (Some l') (f_live s) (f_master s) (f_items s) (f_keys s) (f_filter s) in
                if f_live s then f_swallowed (f_removed s1 x i) else (s1, [], None)
            | _, _ => (s, [], Some IndexError)
            end
        end
    | FSet c => f_set_container s c
    | FFilter flt => f_set_filter s flt
    end.

  Definition f_new : fstate := Fs None false [] [] [] (fun _ => Ok true).                       (* 245-271 *)

  Fixpoint f_run (s : fstate) (h : list fop) : fstate * list fev * list (option exn) :=
    match h with
    | [] => (s, [], [])
    | o :: h' =>
        let '(s1, t1, e1) := f_step s o in
        let '(s2, t2, es) := f_run s1 h' in (s2, t1 ++ t2, e1 :: es)
    end.
End FiltFail.
Arguments fev : clear implicits.
Arguments fstate : clear implicits.
Arguments fop : clear implicits.
