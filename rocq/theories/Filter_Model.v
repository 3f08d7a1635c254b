(** Model of the filters, /repo/nion/utils/ListModel.py:57-226.
    The filtered object and its attribute values are abstract: [attr] is getattr, [str_of] is str(),
    [lower] is str.lower, [as_string] tells whether a value has a startswith method (i.e. is a string),
    [date_of] whether it has year, month and day. *)
From Coq Require Import List ZArith Bool String.
From Verif Require Import PyBase.
Import ListNotations.
Open Scope Z_scope.

Section Filter.
  Context {Key Obj Val : Type}.
  Variable attr : Key -> Obj -> res Val.
  Variable str_of : Val -> string.
  Variable lower : string -> string.
  Variable as_string : Val -> option string.
  Variable date_of : Val -> option (Z * Z * Z).

  Inductive filter :=
  | FBase (default : bool)                                                  (* 57-69 *)
  | FAnd (fs : list filter)                                                 (* 72-83 *)
  | FOr (fs : list filter)                                                  (* 86-97 *)
  | FNot (f : filter)                                                       (* 100-111 *)
  | FEq (key : Key) (value : Val) (cmp : Val -> Val -> res bool)            (* 114-130 *)
  | FNotEq (key : Key) (value : Val) (cmp : Val -> Val -> res bool)         (* 133-149 *)
  | FStartsWith (key : Key) (value : string)                                (* 152-166 *)
  | FText (key : Key) (text : string) (lower_text : option string)          (* 169-184; None: attribute missing *)
  | FDate (key : Key) (year month day : option Z)                           (* 187-211 *)
  | FPredicate (predicate : Obj -> res bool).                               (* 214-226 *)

  (** TextFilter.__init__, 170-174 *)
  Definition text_filter (key : Key) (text : string) : filter := FText key text (Some (lower text)).

  (** all(map(...)), any(map(...)) *)
  Section AllAny.
    Variable m : filter -> res bool.
    Fixpoint py_all (fs : list filter) : res bool :=
      match fs with
      | [] => Ok true
      | f :: fs' => match m f with Ok true => py_all fs' | Ok false => Ok false | Err e => Err e end
      end.
    Fixpoint py_any (fs : list filter) : res bool :=
      match fs with
      | [] => Ok false
      | f :: fs' => match m f with Ok true => Ok true | Ok false => py_any fs' | Err e => Err e end
      end.
  End AllAny.

  Definition py_not (r : res bool) : res bool := match r with Ok b => Ok (negb b) | Err e => Err e end.

  (** d_value.find(text) >= 0 *)
  Fixpoint py_contains (pat s : string) : bool :=
    (prefix pat s || match s with EmptyString => false | String _ s' => py_contains pat s' end)%bool.

  (** [if self.__year and d_value.year != self.__year: return False] *)
  Definition date_field (want : option Z) (have : option Z) : res bool :=
    match want with
    | None => Ok true
    | Some w => if w =? 0 then Ok true else
                match have with None => Err AttributeError | Some h => Ok (h =? w) end
    end.

  Fixpoint matches (f : filter) (d : Obj) : res bool :=
    match f with
    | FBase b => Ok b
    | FAnd fs => py_all (fun f => matches f d) fs
    | FOr fs => py_any (fun f => matches f d) fs
    | FNot f => py_not (matches f d)
    | FEq k v cmp => match attr k d with Ok x => cmp x v | Err e => Err e end
    | FNotEq k v cmp => match attr k d with Ok x => py_not (cmp x v) | Err e => Err e end
    | FStartsWith k v =>
        match attr k d with
        | Ok x => match as_string x with Some s => Ok (prefix v s) | None => Err AttributeError end
        | Err e => Err e
        end
    | FText k _ lt =>
        match attr k d with
        | Ok x => match lt with Some t => Ok (py_contains t (lower (str_of x))) | None => Err AttributeError end
        | Err e => Err e
        end
    | FDate k y m dd =>
        match attr k d with
        | Ok x =>
            match date_field y (option_map (fun t => fst (fst t)) (date_of x)) with
            | Ok true => match date_field m (option_map (fun t => snd (fst t)) (date_of x)) with
                         | Ok true => date_field dd (option_map snd (date_of x))
                         | r => r
                         end
            | r => r
            end
        | Err e => Err e
        end
    | FPredicate p => p d
    end.

  (** the __deepcopy__ methods, 61, 77, 91, 105, 121, 140, 158, 176, 195, 220 *)
  Fixpoint deepcopy (f : filter) : filter :=
    match f with
    | FBase b => FBase b
    | FAnd fs => FAnd (map deepcopy fs)
    | FOr fs => FOr (map deepcopy fs)
    | FNot f => FNot (deepcopy f)
    | FEq k v cmp => FEq k v cmp
    | FNotEq k v cmp => FNotEq k v cmp
    | FStartsWith k v => FStartsWith k v
    | FText k t _ => FText k t None
    | FDate k y m d => FDate k y m d
    | FPredicate p => FPredicate p
    end.
End Filter.
Arguments filter : clear implicits.
