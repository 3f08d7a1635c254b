(** Python lists, as relations, and the observer of an array. *)
From Coq Require Import ZArith Bool List.
From Verif Require Import PyBase StructSeq_Model.
Import ListNotations.

(** position [k] of a list of [n] items is what index [i] denotes *)
Definition denotes (n : nat) (i : Z) (k : nat) : Prop :=
  (0 <= i /\ Z.of_nat k = i /\ i < Z.of_nat n \/ i < 0 /\ Z.of_nat k = i + Z.of_nat n /\ 0 <= i + Z.of_nat n)%Z.
(** where list.insert(i) puts an item *)
Definition insert_place (n : nat) (i : Z) (k : nat) : Prop :=
  (0 <= i /\ Z.of_nat k = Z.min i (Z.of_nat n) \/ i < 0 /\ Z.of_nat k = Z.max 0 (i + Z.of_nat n))%Z.
(** what the operation does to a Python list: before, result, after *)
Inductive list_op : sop -> list nat -> res result -> list nat -> Prop :=
  | L_len l : list_op QLen l (Ok (RNum (length l))) l
  | L_get i a x b : denotes (length (a ++ x :: b)) i (length a) -> list_op (QGet i) (a ++ x :: b) (Ok (RItem x)) (a ++ x :: b)
  | L_get_err i l : (forall k, ~ denotes (length l) i k) -> list_op (QGet i) l (Err IndexError) l
  | L_iter l : list_op QIter l (Ok (RItems l)) l
  | L_index x a b : ~ In x a -> list_op (QIndex x) (a ++ x :: b) (Ok (RNum (length a))) (a ++ x :: b)
  | L_index_err x l : ~ In x l -> list_op (QIndex x) l (Err ValueError) l
  | L_count x l : list_op (QCount x) l (Ok (RNum (count_occ Nat.eq_dec l x))) l
  | L_del i a x b : denotes (length (a ++ x :: b)) i (length a) -> list_op (QDel i) (a ++ x :: b) (Ok RNone) (a ++ b)
  | L_del_err i l : (forall k, ~ denotes (length l) i k) -> list_op (QDel i) l (Err IndexError) l
  | L_insert i x a b : insert_place (length (a ++ b)) i (length a) -> list_op (QInsert i x) (a ++ b) (Ok RNone) (a ++ x :: b)
  | L_append x l : list_op (QAppend x) l (Ok RNone) (l ++ [x])
  | L_extend xs l : list_op (QExtend xs) l (Ok RNone) (l ++ xs)
  | L_pop i a x b : denotes (length (a ++ x :: b)) i (length a) -> list_op (QPop i) (a ++ x :: b) (Ok (RItem x)) (a ++ b)
  | L_pop_err i l : (forall k, ~ denotes (length l) i k) -> list_op (QPop i) l (Err IndexError) l
  | L_remove x a b : ~ In x a -> list_op (QRemove x) (a ++ x :: b) (Ok RNone) (a ++ b)
  | L_remove_err x l : ~ In x l -> list_op (QRemove x) l (Err ValueError) l
  | L_clear l : list_op QClear l (Ok RNone) [].
(** the operations that are no list operations here *)
Definition unlike_list (o : sop) : Prop := match o with QIn _ | QSet _ _ | QReverse => True | _ => False end.
(** an observer applies the notifications to its copy *)
Inductive follows : list nat -> list note -> list nat -> Prop :=
  | F_done l : follows l [] l
  | F_insert i x a b ns l' : insert_place (length (a ++ b)) i (length a) -> follows (a ++ x :: b) ns l' -> follows (a ++ b) (Inserted x i :: ns) l'
  | F_remove i x a b ns l' : denotes (length (a ++ x :: b)) i (length a) -> follows (a ++ b) ns l' -> follows (a ++ x :: b) (Removed x i :: ns) l'.
