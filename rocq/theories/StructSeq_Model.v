(** Model of ItemsSequence, /repo/nion/utils/StructuredModel.py:210-232: the list-like view of an ArrayModel that reading an
    array field of a record gives, with the methods it inherits from collections.abc.MutableSequence (Python 3.11).
    Indexes are integers, not slices.  Items are numbered; two items are equal if their numbers are.  The array is the
    [tramp] of Struct_Model.v: its items and its list of trampolines. *)
From Coq Require Import ZArith Bool List.
From Verif Require Import PyBase Struct_Model.
Import ListNotations.

(** notifications of the array, with the index as given *)
Inductive note := Inserted (x : nat) (i : Z) | Removed (x : nat) (i : Z).
Inductive result := RNone | RNum (n : nat) | RItem (x : nat) | RItems (l : list nat).
Inductive sop :=
  | QLen | QGet (i : Z) | QIter | QIndex (x : nat) | QCount (x : nat) | QIn (x : nat)
  | QSet (i : Z) (x : nat) | QDel (i : Z) | QInsert (i : Z) (x : nat) | QAppend (x : nat) | QExtend (l : list nat)
  | QPop (i : Z) | QRemove (x : nat) | QClear | QReverse.

(** 231-232 with ListModel.py 35-37 and StructuredModel.py 294-301 *)
Definition seq_insert (i : Z) (x : nat) (t : tramp) : tramp * list note := (fst (tstep t (TInsert i x)), [Inserted x i]).
(** 225-226 with ListModel.py 39-42 and StructuredModel.py 303-309: the item goes and is announced, then its trampoline *)
Definition seq_del (i : Z) (t : tramp) : tramp * list note * res unit :=
  match py_get (t_items t) i with
  | Err e => (t, [], Err e)
  | Ok x => let '(t', r) := tstep t (TRemove i) in (t', [Removed x i], r)
  end.
(** Sequence.index: the first equal item from the start, ValueError if there is none *)
Fixpoint seq_find (x : nat) (k : nat) (l : list nat) : res nat :=
  match l with
  | [] => Err ValueError
  | y :: l' => if Nat.eqb y x then Ok k else seq_find x (S k) l'
  end.
(** MutableSequence.extend: append each *)
Fixpoint seq_extend (l : list nat) (t : tramp) : tramp * list note :=
  match l with
  | [] => (t, [])
  | x :: l' =>
      let '(t1, n1) := seq_insert (Z.of_nat (length (t_items t))) x t in
      let '(t2, n2) := seq_extend l' t1 in (t2, n1 ++ n2)
  end.
(** MutableSequence.clear: pop the last item until IndexError; each call takes an item away or raises, so one more
    call than there are items is enough *)
Fixpoint seq_clear (fuel : nat) (t : tramp) : tramp * list note :=
  match fuel with
  | O => (t, [])
  | S f =>
      let '(t1, n1, r) := seq_del (-1) t in
      match r with
      | Ok _ => let '(t2, n2) := seq_clear f t1 in (t2, n1 ++ n2)
      | Err _ => (t1, n1)
      end
  end.
Definition seq_step (t : tramp) (o : sop) : tramp * list note * res result :=
  let l := t_items t in
  match o with
  | QLen => (t, [], Ok (RNum (length l)))                                          (* 216-217 *)
  | QGet i => (t, [], match py_get l i with Ok x => Ok (RItem x) | Err e => Err e end)   (* 219-220 *)
  | QIter => (t, [], Ok (RItems l))                                               (* Sequence.__iter__ *)
  | QIndex x => (t, [], match seq_find x 0 l with Ok k => Ok (RNum k) | Err e => Err e end)
  | QCount x => (t, [], Ok (RNum (length (filter (fun y => Nat.eqb y x) l))))
  | QIn _ => (t, [], Err AttributeError)                                          (* 228-229: a list has no contains *)
  | QSet _ _ => (t, [], Err IndexError)                                           (* 222-223 *)
  | QDel i => let '(t', n, r) := seq_del i t in (t', n, match r with Ok _ => Ok RNone | Err e => Err e end)
  | QInsert i x => let '(t', n) := seq_insert i x t in (t', n, Ok RNone)
  | QAppend x => let '(t', n) := seq_insert (Z.of_nat (length l)) x t in (t', n, Ok RNone)
  | QExtend xs => let '(t', n) := seq_extend xs t in (t', n, Ok RNone)
  | QPop i =>                                                                     (* MutableSequence.pop *)
      match py_get l i with
      | Err e => (t, [], Err e)
      | Ok x => let '(t', n, r) := seq_del i t in (t', n, match r with Ok _ => Ok (RItem x) | Err e => Err e end)
      end
  | QRemove x =>                                                                  (* MutableSequence.remove *)
      match seq_find x 0 l with
      | Err e => (t, [], Err e)
      | Ok k => let '(t', n, r) := seq_del (Z.of_nat k) t in (t', n, match r with Ok _ => Ok RNone | Err e => Err e end)
      end
  | QClear => let '(t', n) := seq_clear (S (length l)) t in (t', n, Ok RNone)
  | QReverse => (t, [], if Nat.ltb 1 (length l) then Err IndexError else Ok RNone)   (* its first step assigns an item *)
  end.
