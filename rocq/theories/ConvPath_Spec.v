(** Paths as there can be, text that stays as it is, and the place a text denotes. *)
From Coq Require Import List Bool Arith.
From Verif Require Import PyBase ConvPath_Model.
Import ListNotations.

Section Spec.
  Context {Ch : Type} (Ch_dec : forall x y : Ch, {x = y} + {x <> y}) (slash dot : Ch).
  Notation text := (list Ch).

  (** a name of a directory entry, or '..' *)
  Definition name (x : text) : Prop := x <> [] /\ x <> [dot] /\ ~ In slash x.
  (** the paths there can be *)
  Definition proper (p : path (Ch := Ch)) : Prop := Forall name (p_parts p).
  (** names with slashes between them *)
  Inductive names : text -> Prop :=
  | names_one x : name x -> names x
  | names_more x t : name x -> names t -> names (x ++ slash :: t).
  (** the text of a path in normal form *)
  Definition normal (t : text) : Prop :=
    t = [dot] \/ t = [slash] \/ t = [slash; slash] \/ names t \/ exists t', names t' /\ (t = slash :: t' \/ t = slash :: slash :: t').

  (** Looking up a path in a file system.  [dir]: is it a directory, [down]: the entry with that name, [start]: the directory to
      begin with *)
  Context {Node : Type} (dir : Node -> bool) (down : Node -> text -> option Node) (start : root -> Node).
  (** one or more than two leading slashes; two *)
  Definition root_of (t : text) : root :=
    match t with
    | a :: b :: c :: _ => if Ch_dec a slash then if Ch_dec b slash then if Ch_dec c slash then OneRoot else TwoRoots else OneRoot else NoRoot
    | [a; b] => if Ch_dec a slash then if Ch_dec b slash then TwoRoots else OneRoot else NoRoot
    | [a] => if Ch_dec a slash then OneRoot else NoRoot
    | [] => NoRoot
    end.
  (** along the text, [x] the part of a component that was read; what is before a slash must be a directory *)
  Definition enter (n : Node) (x : text) : option Node :=
    if dir n then match x with [] => Some n | [c] => if Ch_dec c dot then Some n else down n x | _ => down n x end else None.
  Fixpoint walk (n : Node) (x : text) (t : text) : option Node :=
    match t with
    | [] => enter n x
    | c :: t' => if Ch_dec c slash then match enter n x with Some m => walk m [] t' | None => None end else walk n (x ++ [c]) t'
    end.
  Definition denotes (t : text) : option Node := walk (start (root_of t)) [] t.
  (** the text ends with a slash or a component that is a dot *)
  Definition ends_open (t : text) : Prop := exists t', t = t' ++ [slash] \/ t = t' ++ [slash; dot] \/ t = [dot].
End Spec.
