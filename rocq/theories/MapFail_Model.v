(** Model of MappedListModel, /repo/nion/utils/ListModel.py:643-790, with map_fn and unmap_fn that may raise.
    [mapf n x] is the outcome of the n-th call of map_fn, [unmapf n b] that of the n-th call of unmap_fn.  Edits
    of the container reach the model through Event.fire (Event.py:103-114), which swallows what the handlers
    raise; assigning the container calls the handlers directly.  Not modelled: change blocks (no exceptions
    there), selections, the message printed for a swallowed exception. *)
From Coq Require Import List ZArith Bool Arith.
From Verif Require Import PyBase.
Import ListNotations.

Section MapFail.
  Context {A B : Type}.
  Variable mapf : nat -> A -> res B.
  Variable unmapf : nat -> B -> option exn.

  (** [q_live]: the listeners of the container exist, 741-742 (727-730 closes them) *)
  Record qstate := Qs { q_cont : option (list A); q_live : bool; q_items : list B; q_maps : nat; q_unmaps : nat }.

  Inductive qev := QMap (a : A) (r : res B) | QUnmap (b : B) (ok : bool) | QIns (b : B) (i : Z) | QRem (b : B) (i : Z).
  Definition qres : Type := qstate * list qev * option exn.

  (** 769-777 *)
  Definition q_inserted (s : qstate) (x : A) (i : Z) : qres :=
    let r := mapf (q_maps s) x in
    match r with
    | Err e => (Qs (q_cont s) (q_live s) (q_items s) (S (q_maps s)) (q_unmaps s), [QMap x r], Some e)
    | Ok b => (Qs (q_cont s) (q_live s) (py_insert i b (q_items s)) (S (q_maps s)) (q_unmaps s), [QMap x r; QIns b i], None)
    end.

  (** 780-790 *)
  Definition q_removed (s : qstate) (i : Z) : qres :=
    match py_get (q_items s) i, py_del (q_items s) i with
    | Ok b, Ok l =>
        match unmapf (q_unmaps s) b with
        | Some e => (Qs (q_cont s) (q_live s) (q_items s) (q_maps s) (S (q_unmaps s)), [QUnmap b false], Some e)
        | None => (Qs (q_cont s) (q_live s) l (q_maps s) (S (q_unmaps s)), [QUnmap b true; QRem b i], None)
        end
    | _, _ => (s, [], Some IndexError)
    end.

  (** 738-739 *)
  Fixpoint q_remove_loop (xs : list A) (s : qstate) : qres :=
    match xs with
    | [] => (s, [], None)
    | _ :: xs' =>
        match q_removed s (Z.of_nat (length (q_items s)) - 1) with
        | (s1, t1, Some e) => (s1, t1, Some e)
        | (s1, t1, None) => let '(s2, t2, e) := q_remove_loop xs' s1 in (s2, t1 ++ t2, e)
        end
    end.
  (** 757-758 *)
  Fixpoint q_insert_loop (xs : list A) (idx : nat) (s : qstate) : qres :=
    match xs with
    | [] => (s, [], None)
    | x :: xs' =>
        match q_inserted s x (Z.of_nat idx) with
        | (s1, t1, Some e) => (s1, t1, Some e)
        | (s1, t1, None) => let '(s2, t2, e) := q_insert_loop xs' (S idx) s1 in (s2, t1 ++ t2, e)
        end
    end.

  (** 741-758 *)
  Definition q_attach (s : qstate) (c : option (list A)) : qres :=
    match c with
    | None => (Qs None false (q_items s) (q_maps s) (q_unmaps s), [], None)
    | Some l => q_insert_loop l 0 (Qs (Some l) true (q_items s) (q_maps s) (q_unmaps s))
    end.

  (** 724-758: the listeners are closed and forgotten first, so a second attempt after a failed one calls close
      of None, 727 *)
  Definition q_set_container (s : qstate) (c : option (list A)) : qres :=
    match q_cont s with
    | None => q_attach s c
    | Some old =>
        if q_live s then
          match q_remove_loop (rev old) (Qs (q_cont s) false (q_items s) (q_maps s) (q_unmaps s)) with
          | (s1, t1, Some e) => (s1, t1, Some e)
          | (s1, t1, None) => let '(s2, t2, e) := q_attach s1 c in (s2, t1 ++ t2, e)
          end
        else (s, [], Some AttributeError)
    end.

  Inductive qop := QInsert (i : Z) (x : A) | QRemove (i : Z)        (* on the container *)
                 | QSet (c : option (list A)).                      (* .container = *)

  (** what the caller of the operation sees: an exception of a handler is swallowed by Event.fire *)
  Definition swallowed (r : qres) : qres := let '(s, t, _) := r in (s, t, None).

  Definition q_step (s : qstate) (o : qop) : qres :=
    match o with
    | QInsert i x =>
        match q_cont s with
        | None => (s, [], None)
        | Some l =>
            let s1 := Qs (Some (py_insert i x l)) (q_live s) (q_items s) (q_maps s) (q_unmaps s) in
            if q_live s then swallowed (q_inserted s1 x i) else (s1, [], None)
        end
    | QRemove i =>
        match q_cont s with
        | None => (s, [], None)
        | Some l =>
            match py_del l i with
            | Err e => (s, [], Some e)
            | Ok l' =>
                let s1 := Qs (Some l') (q_live s) (q_items s) (q_maps s) (q_unmaps s) in
                if q_live s then swallowed (q_removed s1 i) else (s1, [], None)
            end
        end
    | QSet c => q_set_container s c
    end.

  Definition q_new : qstate := Qs None false [] 0 0.                                            (* 645-664 *)

  (** outcomes: the exception of each operation *)
  Fixpoint q_run (s : qstate) (h : list qop) : qstate * list qev * list (option exn) :=
    match h with
    | [] => (s, [], [])
    | o :: h' =>
        let '(s1, t1, e1) := q_step s o in
        let '(s2, t2, es) := q_run s1 h' in (s2, t1 ++ t2, e1 :: es)
    end.
End MapFail.
Arguments qev : clear implicits.
Arguments qstate : clear implicits.
Arguments qop : clear implicits.
