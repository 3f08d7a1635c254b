(** Calendar dates and their fixed width texts. *)
From Coq Require Import String Ascii List ZArith Bool.
From Verif Require Import Text_Model ConvNum_Spec ConvDate_Model.
Import ListNotations.
Local Open Scope Z_scope.

Definition leap_year (y : Z) : Prop := (4 | y) /\ ((100 | y) -> (400 | y)).
(** [day] is a day of month [m] of year [y] in the Gregorian calendar *)
Definition day_of_month (y m day : Z) : Prop :=
  1 <= day /\
  ((In m [1; 3; 5; 7; 8; 10; 12] /\ day <= 31) \/ (In m [4; 6; 9; 11] /\ day <= 30) \/
   (m = 2 /\ day <= 28) \/ (m = 2 /\ day = 29 /\ leap_year y)).
Definition valid_datetime (d : datetime) : Prop :=
  1 <= dt_year d <= 9999 /\ day_of_month (dt_year d) (dt_month d) (dt_day d) /\
  0 <= dt_hour d < 24 /\ 0 <= dt_minute d < 60 /\ 0 <= dt_second d < 60 /\ 0 <= dt_micro d < 1000000.

(** [t] is the number [n] written with exactly [k] digits *)
Definition field (k : nat) (n : Z) (t : str) : Prop := List.length t = k /\ Forall a_digit t /\ positional t = n.

(** [s] is a text YYYY-MM-DD<sep>HH:MM:SS of [d] followed by [frac]; the day may be written with a space for a leading 0 *)
Definition date_text (d : datetime) (sep : ascii) (frac s : str) : Prop :=
  exists y mo dd h mi sec,
    s = y ++ lit "-" ++ mo ++ lit "-" ++ dd ++ [sep] ++ h ++ lit ":" ++ mi ++ lit ":" ++ sec ++ frac /\
    field 4 (dt_year d) y /\ field 2 (dt_month d) mo /\
    (field 2 (dt_day d) dd \/ exists c, dd = [" "%char; c] /\ field 1 (dt_day d) [c]) /\
    field 2 (dt_hour d) h /\ field 2 (dt_minute d) mi /\ field 2 (dt_second d) sec.
