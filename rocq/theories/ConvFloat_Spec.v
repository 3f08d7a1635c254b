(** Decimal numerals. *)
From Coq Require Import String Ascii List ZArith Bool QArith.
From Verif Require Import Text_Model ConvNum_Spec.
Import ListNotations.
Local Open Scope Z_scope.

(** [sign_text sg k]: the optional sign [sg] stands for the factor [k] *)
Inductive sign_text : str -> Z -> Prop :=
| sign_none : sign_text [] 1
| sign_plus : sign_text (lit "+") 1
| sign_minus : sign_text (lit "-") (-1).
(** fraction part: empty, or the decimal mark followed by digits *)
Inductive frac_part (mark : ascii) : str -> str -> Prop :=
| frac_none : frac_part mark [] []
| frac_some ds : Forall a_digit ds -> frac_part mark (mark :: ds) ds.
(** exponent part of value [e] *)
Inductive exp_part : str -> Z -> Prop :=
| exp_none : exp_part [] 0
| exp_some x sg k ds : (x = "e"%char \/ x = "E"%char) -> sign_text sg k -> ds <> [] -> Forall a_digit ds ->
    exp_part (x :: sg ++ ds) (k * positional ds).

(** [numeral mark t q]: [t] is a decimal numeral of value [q] with decimal mark [mark]: at least one digit before or after it *)
Definition numeral (mark : ascii) (t : str) (q : Q) : Prop :=
  exists sg k i fr f ex e,
    t = sg ++ i ++ fr ++ ex /\ sign_text sg k /\ Forall a_digit i /\ frac_part mark fr f /\ i ++ f <> [] /\ exp_part ex e /\
    (q == inject_Z (k * positional (i ++ f)) * Qpower (10 # 1) (e - Z.of_nat (List.length f)))%Q.

(** a numeral with decimal point or decimal comma *)
Definition a_numeral (t : str) : Prop := exists mark q, (mark = "."%char \/ mark = ","%char) /\ numeral mark t q.

Definition prefix_of (t s : str) : Prop := exists r, s = t ++ r.
(** [t] is the longest prefix of [s] that is a numeral *)
Definition leading_numeral (s t : str) : Prop :=
  prefix_of t s /\ a_numeral t /\ forall t', prefix_of t' s -> a_numeral t' -> (List.length t' <= List.length t)%nat.

(** [t] with every character [c] left out *)
Fixpoint without (c : ascii) (t : str) : str :=
  match t with [] => [] | x :: t' => if ascii_dec x c then without c t' else x :: without c t' end.
