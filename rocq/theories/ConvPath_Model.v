(** PathToStringConverter, /repo/nion/utils/Converter.py:148-152, on POSIX.

    pathlib.Path(text) and str(path) are those of the standard library (PurePosixPath): the text is split at slashes, empty
    components and single dots are dropped, and two leading slashes are kept apart from one or more than two.  A path is its
    root and its components.  Characters are of any type with two different ones for the slash and the dot. *)
From Coq Require Import List Bool Arith.
From Verif Require Import PyBase.
Import ListNotations.

Section ConvPath.
  Context {Ch : Type} (Ch_dec : forall x y : Ch, {x = y} + {x <> y}) (slash dot : Ch).
  Notation text := (list Ch).

  Inductive root := NoRoot | OneRoot | TwoRoots.
  Record path := Pa { p_root : root; p_parts : list text }.

  (** text.lstrip('/') *)
  Fixpoint lstrip (t : text) : text := match t with c :: t' => if Ch_dec c slash then lstrip t' else t | [] => [] end.
  (** text.split('/') *)
  Fixpoint split (t : text) : list text :=
    match t with
    | [] => [[]]
    | c :: t' => if Ch_dec c slash then [] :: split t' else match split t' with x :: l => (c :: x) :: l | [] => [[c]] end
    end.
  (** [x and x != '.'] *)
  Definition counts (x : text) : bool := match x with [] => false | [c] => if Ch_dec c dot then false else true | _ => true end.
  (** pathlib.Path(text) *)
  Definition parse (t : text) : path :=
    Pa (match length t - length (lstrip t) with 0 => NoRoot | 2 => TwoRoots | _ => OneRoot end) (filter counts (split (lstrip t))).
  Definition root_text (r : root) : text := match r with NoRoot => [] | OneRoot => [slash] | TwoRoots => [slash; slash] end.
  (** '/'.join(l) *)
  Fixpoint join (l : list text) : text := match l with [] => [] | [x] => x | x :: l' => x ++ slash :: join l' end.
  (** str(path) *)
  Definition show (p : path) : text := match root_text (p_root p) ++ join (p_parts p) with [] => [dot] | t => t end.

  (** Converter.py:149-150; a path is always true *)
  Definition convert (v : option path) : option text := match v with Some p => Some (show p) | None => None end.
  (** Converter.py:151-152 *)
  Definition convert_back (v : option text) : option path := match v with None | Some [] => None | Some t => Some (parse t) end.
End ConvPath.
