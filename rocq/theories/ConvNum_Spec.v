(** What decimal text denotes. *)
From Coq Require Import String Ascii List ZArith Bool.
From Verif Require Import Text_Model.
Import ListNotations.
Local Open Scope Z_scope.

(** positional value: each digit times ten to the number of digits after it *)
Fixpoint positional (ds : str) : Z :=
  match ds with
  | [] => 0
  | c :: ds' => (code c - code "0") * 10 ^ Z.of_nat (List.length ds') + positional ds'
  end.
Definition a_digit (c : ascii) : Prop := code "0" <= code c <= code "9".

(** [grouped t ds]: [t] is the non-empty digit sequence [ds] with single underscores allowed between digits *)
Inductive grouped : str -> str -> Prop :=
| grouped_one c : a_digit c -> grouped [c] [c]
| grouped_next c t ds : a_digit c -> grouped t ds -> grouped (c :: t) (c :: ds)
| grouped_under c t ds : a_digit c -> grouped t ds -> grouped (c :: "_"%char :: t) (c :: ds).

Definition c_space (c : ascii) : Prop := 9 <= code c <= 13 \/ code c = 32.

(** the text [s] is an integer literal of value [n] *)
Definition int_literal (s : str) (n : Z) : Prop :=
  exists pre sg t ds post,
    s = pre ++ sg ++ t ++ post /\ Forall c_space pre /\ Forall c_space post /\ grouped t ds /\
    ((sg = [] \/ sg = lit "+") /\ n = positional ds \/ sg = lit "-" /\ n = - positional ds).
