(** Model of the notifications of nested structured models, /repo/nion/utils/StructuredModel.py:90-309, and of the
    attributes of a record, 192-207.
    A model is a tree; an object is addressed by the path from the root.  Every object is at one place only.  Recorded
    are the calls of listeners from outside that were added after the models were built, of property_changed_event,
    item_inserted_event, item_removed_event and model_changed_event; field_value_changed_event and the
    array_item events only serve the enclosing record.  Listeners do not change the models. *)
From Coq Require Import String ZArith Bool List.
From Verif Require Import PyBase.
Import ListNotations.

Section Tree.
  Context {V : Type}.
  (** Model.py 44-49: the assigned value is taken and announced only if it differs from the current one *)
  Variable differs : V -> V -> bool.

  (** [NField] is a FieldPropertyModel, [NRaw] a primitive item of an array; a record is [wired] until it is
      closed; items of an array are numbered, and [listen]
      is __model_changed_listeners: for each entry the item its trampoline listens to, None for a primitive *)
  Inductive node :=
    | NField (v : V)
    | NRaw (v : V)
    | NRecord (wired : bool) (fields : list (string * node))
    | NArray (items : list (nat * node)) (listen : list (option nat)).
  Inductive place := Fld (n : string) | Itm (i : nat).
  Inductive event :=
    | Changed (p : list place) (key : string)                       (* property_changed_event *)
    | Inserted (p : list place) (key : string) (id : nat) (i : Z)   (* item_inserted_event *)
    | Removed (p : list place) (key : string) (id : nat) (i : Z)    (* item_removed_event *)
    | Touched (p : list place).                                     (* model_changed_event *)
  Inductive edit := Assign (v : V) | Insert (i : Z) (id : nat) (x : node) | Remove (i : Z) | Close.

  Fixpoint get (p : list place) (x : node) : option node :=
    match p, x with
    | [], _ => Some x
    | Fld n :: p', NRecord _ fields => match dict_get string_dec n fields with Some y => get p' y | None => None end
    | Itm i :: p', NArray items _ => match nth_error items i with Some (_, y) => get p' y | None => None end
    | _, _ => None
    end.
  Definition opt_nat_dec (a b : option nat) : {a = b} + {a <> b}. decide equality; apply Nat.eq_dec. Defined.
  Fixpoint times {X} (n : nat) (l : list X) : list X := match n with O => [] | S m => l ++ times m l end.
  (** which trampoline an item gets, 297-300 and 254-258 *)
  Definition tag (p : nat * node) : option nat := match snd p with NRecord _ _ | NArray _ _ => Some (fst p) | _ => None end.
  (** An edit of the object reached by the path [p] from [x].  [here] is the path of [x], [up] what a fire of its
      model_changed_event calls: the record it is a field of passes it on (154) unless closed (167), an array once per trampoline that
      listens to it (255-257, 299), each before the listeners from outside; [owner] is the
      record it is a field of, if not closed. *)
  Fixpoint change (p : list place) (e : edit) (here : list place) (up : list event) (owner : option (list place * string)) (x : node)
      : option (node * list event * res unit) :=
    match p, x with
    | Fld n :: p', NRecord wired fields =>
        match dict_get string_dec n fields with
        | Some y =>
            match change p' e (here ++ [Fld n]) ((if wired then up else []) ++ [Touched (here ++ [Fld n])]) (if wired then Some (here, n) else None) y with
            | Some (y', tr, r) => Some (NRecord wired (dict_set string_dec n y' fields), tr, r)
            | None => None
            end
        | None => None
        end
    | Itm i :: p', NArray items listen =>
        match nth_error items i with
        | Some (id, y) =>
            match change p' e (here ++ [Itm i]) (times (count_occ opt_nat_dec listen (Some id)) up ++ [Touched (here ++ [Itm i])]) None y with
            | Some (y', tr, r) => Some (NArray (firstn i items ++ (id, y') :: skipn (S i) items) listen, tr, r)
            | None => None
            end
        | None => None
        end
    | [], NField old =>
        match e with
        | Assign v =>                                                        (* 111-114 with 141-143 *)
            Some (if differs old v
                  then (NField v, [Changed here "value"] ++ (match owner with Some (q, n) => [Changed q n] | None => [] end) ++ up, Ok tt)
                  else (x, [], Ok tt))
        | Close => Some (x, [], Ok tt)                                       (* Model.py 35-36 *)
        | _ => None
        end
    | [], NRecord wired fields =>
        match e with
        | Close => Some (NRecord false fields, [], if wired then Ok tt else match fields with [] => Ok tt | _ => Err KeyError end)   (* 159-168 *)
        | _ => None
        end
    | [], NArray items listen =>
        match e with
        | Assign _ => None
        | Close => Some (x, [], Err TypeError)                               (* 261: items is a list, not a method *)
        | Insert i id y =>                                                   (* ListModel.py 35-37; 294-301 with 145-147 *)
            Some (NArray (py_insert i (id, y) items) (listen ++ [tag (id, y)]),
                  [Inserted here "items" id i] ++ (match owner with Some (q, n) => [Inserted q n id i] | None => [] end) ++ up, Ok tt)
        | Remove i =>                                                        (* ListModel.py 39-42; 303-309 with 149-151 *)
            match py_get items i, py_del items i with
            | Ok (id, _), Ok items' =>
                match py_del listen i with
                | Ok listen' =>
                    Some (NArray items' listen',
                          [Removed here "items" id i] ++ (match owner with Some (q, n) => [Removed q n id i] | None => [] end) ++ up, Ok tt)
                | Err er => Some (NArray items' listen, [Removed here "items" id i], Err er)
                end
            | _, _ => Some (x, [], Err IndexError)
            end
        end
    | _, _ => None
    end.
  (** 237-258: an array made of [items] *)
  Definition array_made (items : list (nat * node)) : node := NArray items (map tag items).
  (** the edit of the object at path [p] of the model [x]; None if there is no such object or edit *)
  Definition edit_at (p : list place) (e : edit) (x : node) : option (node * list event * res unit) := change p e [] [Touched []] None x.
  (** a history; an edit that is not possible is left out *)
  Fixpoint history (l : list (list place * edit)) (x : node) : node :=
    match l with
    | [] => x
    | (p, e) :: l' => history l' (match edit_at p e x with Some (x', _, _) => x' | None => x end)
    end.
End Tree.
Arguments node : clear implicits.
Arguments edit : clear implicits.

(** ** Attributes of a record, 192-203.  [builtin] tells the names that normal attribute lookup finds on every record:
    methods, events and schema.  Field models and assigned values are of type [M] and [A]; [put] assigns the value of a
    primitive field. *)
Section Attr.
  Context {M A : Type}.
  Variable builtin : string -> bool.
  Variable primitive : M -> bool.
  Variable field_value : M -> A.
  Variable put : A -> M -> M.
  Record obj := Obj { o_fields : list (string * M); o_assigned : list (string * A) }.
  Inductive found := FAssigned (a : A) | FBuiltin (n : string) | FValue (a : A) | FModel (m : M).
  (** name[:-6] if name ends with "_model", 195 *)
  Definition model_suffix (n : string) : option string :=
    let k := (String.length n - 6)%nat in
    if (6 <=? String.length n)%nat then if string_dec (substring k 6 n) "_model" then Some (substring 0 k n) else None else None.
  (** an instance or class attribute if there is one, else 192-197 *)
  Definition getattr (n : string) (o : obj) : res found :=
    match dict_get string_dec n (o_assigned o) with
    | Some a => Ok (FAssigned a)
    | None =>
        if builtin n then Ok (FBuiltin n)
        else match dict_get string_dec n (o_fields o) with
             | Some m => Ok (FValue (field_value m))
             | None =>
                 match model_suffix n with
                 | Some k => match dict_get string_dec k (o_fields o) with Some m => Ok (FModel m) | None => Err AttributeError end
                 | None => Err AttributeError
                 end
             end
    end.
  (** 199-203; names of properties without setter are outside the model *)
  Definition setattr (n : string) (a : A) (o : obj) : obj :=
    match dict_get string_dec n (o_fields o) with
    | Some m => if primitive m then Obj (dict_set string_dec n (put a m) (o_fields o)) (o_assigned o)
                else Obj (o_fields o) (dict_set string_dec n a (o_assigned o))
    | None => Obj (o_fields o) (dict_set string_dec n a (o_assigned o))
    end.
End Attr.
