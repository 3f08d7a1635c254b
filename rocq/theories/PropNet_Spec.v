(** What callbacks, storage and callers have seen of a property, by the events alone (newest first). *)
From Coq Require Import List.
From Verif Require Import PropNet_Model.
Import ListNotations.

Section Spec.
  Context {N V J : Type} (N_dec : forall x y : N, {x = y} + {x <> y}).
  Notation event := (@event N V J).
  (** what its callback was last told, or what the property was at the start *)
  Fixpoint last_told (v0 : V) (n : N) (l : list event) : V :=
    match l with
    | [] => v0
    | Called m v :: l' => if N_dec m n then v else last_told v0 n l'
    | _ :: l' => last_told v0 n l'
    end.
  (** what the storage handler was last told *)
  Fixpoint last_written (j0 : option J) (n : N) (l : list event) : option J :=
    match l with
    | [] => j0
    | Wrote m j :: l' => if N_dec m n then j else last_written j0 n l'
    | Custom m j :: l' => if N_dec m n then Some j else last_written j0 n l'
    | _ :: l' => last_written j0 n l'
    end.
  (** how the last use of the property that is over ended *)
  Inductive ending := Never | Well | Badly.
  Fixpoint last_end (n : N) (l : list event) : ending :=
    match l with
    | [] => Never
    | Wrote m _ :: l' => if N_dec m n then Well else last_end n l'
    | Failed m :: l' | WasRead m :: l' | Custom m _ :: l' => if N_dec m n then Badly else last_end n l'
    | _ :: l' => last_end n l'
    end.
  Definition writes (l : list event) : nat :=
    length (filter (fun e => match e with Wrote _ _ | Custom _ _ => true | _ => false end) l).
  (** the storage holds the property as it is *)
  Definition in_step (json : N -> V -> option J) (s : state) (n : N) : Prop := stored s n = json n (value s n).
  Definition sets (n : N) (a : @act N V J) : Prop := match a with Set_ m _ => m = n | Update m _ => m = n | _ => False end.
End Spec.
