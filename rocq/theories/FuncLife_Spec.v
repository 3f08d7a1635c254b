(** Specification vocabulary for the life of function stream value models. *)
From Coq Require Import List ZArith Arith Bool.
From Verif Require Import PyBase PropModel_Model FuncLife_Model.
Import ListNotations.

(** an evaluation that has neither ended nor failed *)
Definition pending {V F} (p : phase V F) : bool := match p with Waiting _ | Running _ | Done _ => true | Ended | Raised => false end.
(** a task that has not reached its last line *)
Definition unfinished {V F} (p : phase V F) : bool := match p with Ended => false | _ => true end.
Definition count {A} (f : A -> bool) (l : list A) : nat := length (filter f l).
Definition is_close {V F} (o : lop V F) : bool := match o with LClose => true | _ => false end.
(** the client does nothing but close *)
Definition leaves_alone {V F} (o : lop V F) : bool := match o with LSet _ | LCallback => false | _ => true end.
Definition notifications {V} (m : pmodel V) : nat := count (fun e => match e with Notified => true | Called _ => false end) (p_log m).
Definition calls {V} (m : pmodel V) : nat := count (fun e => match e with Notified => false | Called _ => true end) (p_log m).
