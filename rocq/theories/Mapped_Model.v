(** Model of MappedListModel, /repo/nion/utils/ListModel.py:643-790.
    map_fn may be stateful: [mapf n x] is the result of its n-th call.  The container is given by its item
    list.  Not modelled: map_fn or unmap_fn that raise, listeners that change the model from within a
    notification, threads. *)
From Coq Require Import List ZArith Bool Arith.
From Verif Require Import PyBase.
Import ListNotations.

Section Mapped.
  Context {A B : Type}.
  Variable mapf : nat -> A -> B.

  Record mstate := Ms { ms_cont : option (list A); ms_items : list B; ms_calls : nat; ms_level : Z }.

  (** calls of map_fn (call number, argument, result) and unmap_fn, item_inserted / item_removed
      notifications, insert_index / remove_index on the selections, begin / end changes events *)
  Inductive mev := MMap (n : nat) (a : A) (b : B) | MUnmap (b : B) | MIns (b : B) (i : Z) | MRem (b : B) (i : Z)
                 | MSelIns (i : Z) | MSelRem (i : Z) | MBegin | MEnd.
  Definition mres : Type := mstate * list mev * option exn.

  (** 769-777 *)
  Definition m_inserted (s : mstate) (x : A) (i : Z) : mstate * list mev :=
    let b := mapf (ms_calls s) x in
    (Ms (ms_cont s) (py_insert i b (ms_items s)) (S (ms_calls s)) (ms_level s),
     [MMap (ms_calls s) x b; MIns b i; MSelIns i]).

  (** 780-790 *)
  Definition m_removed (s : mstate) (i : Z) : mres :=
    match py_get (ms_items s) i, py_del (ms_items s) i with
    | Ok b, Ok l => (Ms (ms_cont s) l (ms_calls s) (ms_level s), [MUnmap b; MRem b i; MSelRem i], None)
    | _, _ => (s, [], Some IndexError)
    end.

  (** 738-739 and 757-758 *)
  Fixpoint m_remove_loop (xs : list A) (s : mstate) : mres :=
    match xs with
    | [] => (s, [], None)
    | _ :: xs' =>
        match m_removed s (Z.of_nat (length (ms_items s)) - 1) with
        | (s1, t1, Some e) => (s1, t1, Some e)
        | (s1, t1, None) => let '(s2, t2, e) := m_remove_loop xs' s1 in (s2, t1 ++ t2, e)
        end
    end.
  Fixpoint m_insert_loop (xs : list A) (idx : nat) (s : mstate) : mstate * list mev :=
    match xs with
    | [] => (s, [])
    | x :: xs' =>
        let '(s1, t1) := m_inserted s x (Z.of_nat idx) in
        let '(s2, t2) := m_insert_loop xs' (S idx) s1 in (s2, t1 ++ t2)
    end.

  Definition m_attach (s : mstate) (c : option (list A)) : mstate * list mev :=
    let s1 := Ms c (ms_items s) (ms_calls s) (ms_level s) in
    match c with None => (s1, []) | Some l => m_insert_loop l 0 s1 end.

  (** 724-758 *)
  Definition m_set_container (s : mstate) (c : option (list A)) : mres :=
    match ms_cont s with
    | None => let '(s1, t1) := m_attach s c in (s1, t1, None)
    | Some old =>
        match m_remove_loop (rev old) s with
        | (s1, t1, Some e) => (s1, t1, Some e)
        | (s1, t1, None) => let '(s2, t2) := m_attach s1 c in (s2, t1 ++ t2, None)
        end
    end.

  Inductive mop :=
  | MInsert (i : Z) (x : A) | MRemove (i : Z)                 (* on the container *)
  | MSetContainer (c : option (list A))
  | MBeginChange | MEndChange.                                (* also on begin/end events of the container *)

  Definition m_step (s : mstate) (o : mop) : mres :=
    match o with
    | MInsert i x =>
        match ms_cont s with
        | None => (s, [], None)
        | Some l => let '(s1, t1) := m_inserted (Ms (Some (py_insert i x l)) (ms_items s) (ms_calls s) (ms_level s)) x i in (s1, t1, None)
        end
    | MRemove i =>
        match ms_cont s with
        | None => (s, [], None)
        | Some l =>
            match py_del l i with
            | Err e => (s, [], Some e)
            | Ok l' => m_removed (Ms (Some l') (ms_items s) (ms_calls s) (ms_level s)) i
            end
        end
    | MSetContainer c => m_set_container s c
    | MBeginChange =>                                                      (* 671-675 *)
        (Ms (ms_cont s) (ms_items s) (ms_calls s) (ms_level s + 1), if (ms_level s =? 0)%Z then [MBegin] else [], None)
    | MEndChange =>                                                        (* 677-682 *)
        (Ms (ms_cont s) (ms_items s) (ms_calls s) (ms_level s - 1), if (ms_level s - 1 =? 0)%Z then [MEnd] else [], None)
    end.

  Definition m_new : mstate := Ms None [] 0 0.                             (* 645-664 *)

  Fixpoint m_run (s : mstate) (h : list mop) : mstate * list mev :=
    match h with
    | [] => (s, [])
    | o :: h' => let '(s1, t1, _) := m_step s o in let '(s2, t2) := m_run s1 h' in (s2, t1 ++ t2)
    end.
End Mapped.
Arguments mev : clear implicits.
Arguments mstate : clear implicits.
Arguments mop : clear implicits.
