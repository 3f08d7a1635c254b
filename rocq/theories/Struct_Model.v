(** Model of /repo/nion/utils/StructuredModel.py: schemas, build_model, build_value, RecordModel, ArrayModel and
    FieldPropertyModel as values, and the listeners of an ArrayModel. *)
From Coq Require Import String ZArith Bool List.
From Verif Require Import PyBase.
Import ListNotations.

Section Values.
  Context {A : Type} (truthy : A -> bool).
  (** JSON-like Python values; [VAtom] is a string, number or boolean *)
  Inductive pyval := VNone | VAtom (a : A) | VList (l : list pyval) | VDict (d : list (string * pyval)).
  (** schemas, 33-61: [SPrim] is one of "string", "boolean", "int", "float", as a string or as the type of a dict;
      [SBad] is any other string, such as "double", the FLOAT of line 30 and the result of define_float.  A field is
      name, type and default, with VNone for no default (49-53). *)
  Inductive schema := SPrim | SBad | SRecord (fields : list (string * schema * pyval)) | SArray (items : schema).
  (** models; [MRaw] is the item of an array of primitives, a plain Python value (build_value, 80 and 83) *)
  Inductive model :=
    | MField (v : pyval)
    | MRecord (fields : list (string * schema * pyval)) (models : list (string * model))
    | MArray (items_schema : schema) (items : list model)
    | MRaw (v : pyval).
  Definition is_none (v : pyval) : bool := match v with VNone => true | _ => false end.
  Definition sget {X} (k : string) (d : list (string * X)) : option X := dict_get string_dec k d.
  (** a dict made by assigning the pairs in order *)
  Definition of_pairs {X} (l : list (string * X)) : list (string * X) := fold_left (fun d p => dict_set string_dec (fst p) (snd p) d) l [].
  (** [value or dict()], 71-72 and 138, where a dict is needed.  A true value that is no dict raises some exception or,
      for a list of pairs, is read as a dict: that is outside the model, which raises TypeError. *)
  Definition as_dict (v : pyval) : res (list (string * pyval)) :=
    match v with
    | VNone => Ok []
    | VDict d => Ok d
    | VList [] => Ok []
    | VList _ => Err TypeError
    | VAtom a => if truthy a then Err TypeError else Ok []
    end.
  (** 71-72: the default's entries, updated by the value's *)
  Definition merged (default value : pyval) : res (list (string * pyval)) :=
    match as_dict default with
    | Ok dd => match as_dict value with Ok dv => Ok (fold_left (fun d p => dict_set string_dec (fst p) (snd p) d) dv dd) | Err e => Err e end
    | Err e => Err e
    end.
  Definition get_or_none (k : string) (d : list (string * pyval)) : pyval := match sget k d with Some v => v | None => VNone end.
  (** build_model (64-75) if [as_model], else build_value (78-87); RecordModel.__init__ 121-139; ArrayModel.__init__
      237-247, where values that are no list are outside the model.  The string of an unsupported type has no [get]. *)
  Fixpoint build (as_model : bool) (s : schema) (default value : pyval) : res model :=
    match s with
    | SPrim => Ok (if as_model then MField (if is_none default then value else default) else MRaw value)
    | SBad => Err AttributeError
    | SRecord fields =>
        match (if as_model then merged default value else as_dict value) with
        | Err e => Err e
        | Ok values =>
            match (fix go (fs : list (string * schema * pyval)) : res (list (string * model)) :=
                     match fs with
                     | [] => Ok []
                     | (n, t, d) :: fs' =>
                         match build true t d (get_or_none n values) with
                         | Err e => Err e
                         | Ok m => match go fs' with Err e => Err e | Ok ms => Ok ((n, m) :: ms) end
                         end
                     end) fields with
            | Err e => Err e
            | Ok ms => Ok (MRecord fields (of_pairs ms))
            end
        end
    | SArray it =>
        match (if as_model then (if is_none value then default else value) else value) with
        | VNone => Ok (MArray it [])
        | VList l =>
            match (fix go (l : list pyval) : res (list model) :=
                     match l with
                     | [] => Ok []
                     | v :: l' => match build false it VNone v with
                                  | Err e => Err e
                                  | Ok m => match go l' with Err e => Err e | Ok ms => Ok (m :: ms) end
                                  end
                     end) l with
            | Err e => Err e
            | Ok ms => Ok (MArray it ms)
            end
        | _ => Err TypeError
        end
    end.
  Definition build_model (s : schema) (default value : pyval) : res model := build true s default value.
  Definition build_value (s : schema) (value : pyval) : res model := build false s VNone value.

  (** 184-190: the fields in schema order, without those that are None *)
  Fixpoint collect (fields : list (string * schema * pyval)) (vals : list (string * res pyval)) (acc : list (string * pyval)) : res pyval :=
    match fields with
    | [] => Ok (VDict acc)
    | (n, _, _) :: fs =>
        match sget n vals with
        | Some (Ok v) => collect fs vals (if is_none v then acc else dict_set string_dec n v acc)
        | Some (Err e) => Err e
        | None => Err KeyError
        end
    end.
  (** 102-105, 182-190, 284-288; a plain value has no to_dict_value *)
  Fixpoint to_dict (m : model) : res pyval :=
    match m with
    | MField v => Ok v
    | MRecord fields models => collect fields (map (fun p => (fst p, to_dict (snd p))) models) []
    | MArray _ items =>
        match (fix go (l : list model) : res (list pyval) :=
                 match l with
                 | [] => Ok []
                 | m :: l' => match to_dict m with
                              | Err e => Err e
                              | Ok v => match go l' with Err e => Err e | Ok vs => Ok (v :: vs) end
                              end
                 end) items with
        | Err e => Err e
        | Ok vs => Ok (VList vs)
        end
    | MRaw _ => Err AttributeError
    end.

  (** 276-280: as many items as values, new ones built without a value *)
  Definition resize (it : schema) (n : nat) (items : list model) : res (list model) :=
    if Nat.leb n (length items) then Ok (firstn n items)
    else match build_value it VNone with Ok m => Ok (items ++ repeat m (n - length items)) | Err e => Err e end.
  (** 99-100, 177-180, 275-282.  PropertyModel keeps the old value where it compares equal to the new one; here it is
      replaced.  Only the final state of a call that does not raise is modelled. *)
  Fixpoint from_dict (v : pyval) (m : model) : res model :=
    match m with
    | MField _ => Ok (MField v)
    | MRecord fields models =>
        match v with
        | VDict d =>
            let fs := map (fun p => (fst p, from_dict (snd p))) d in
            match (fix go (l : list (string * model)) : res (list (string * model)) :=
                     match l with
                     | [] => Ok []
                     | (k, mk) :: l' =>
                         match (match sget k fs with Some f => f mk | None => Ok mk end) with
                         | Err e => Err e
                         | Ok mk' => match go l' with Err e => Err e | Ok r => Ok ((k, mk') :: r) end
                         end
                     end) models with
            | Err e => Err e
            | Ok ms => Ok (MRecord fields ms)
            end
        | _ => Err TypeError
        end
    | MArray it items =>
        match v with
        | VList l =>
            match resize it (length l) items with
            | Err e => Err e
            | Ok items' =>
                match (fix go (fs : list (model -> res model)) (ms : list model) : res (list model) :=
                         match fs, ms with
                         | f :: fs', m :: ms' =>
                             match f m with
                             | Err e => Err e
                             | Ok m' => match go fs' ms' with Err e => Err e | Ok r => Ok (m' :: r) end
                             end
                         | _, _ => Ok ms
                         end) (map from_dict l) items' with
                | Err e => Err e
                | Ok ms => Ok (MArray it ms)
                end
            end
        | _ => Err TypeError
        end
    | MRaw _ => Err AttributeError
    end.
  (** 174-175, 272-273 *)
  Definition copy_from (target source : model) : res model :=
    match to_dict source with Ok d => from_dict d target | Err e => Err e end.
  (** 170-172, 268-270 *)
  Definition deepcopy (m : model) : res model :=
    match to_dict m with
    | Err e => Err e
    | Ok d => match m with
              | MRecord fields _ => build_value (SRecord fields) d
              | MArray it _ => build_value (SArray it) d
              | _ => Ok m
              end
    end.
End Values.
Arguments pyval : clear implicits.
Arguments schema : clear implicits.
Arguments model : clear implicits.

(** ** The trampolines of an ArrayModel of records, 253-258, 294-309.  Records are numbered; [t_listen] is
    __model_changed_listeners, the record each trampoline listens to. *)
Record tramp := Tramp { t_items : list nat; t_listen : list nat }.
Inductive top := TInsert (i : Z) (r : nat) | TRemove (i : Z) | TLoad (n : nat) (made : list nat).
(** insert_item and remove_item (ListModel.py 35-42) with 294-301 and 303-309; from_dict_value 276-280 edits the list
    itself, without notifications: [made] are the records it builds *)
Definition tstep (t : tramp) (o : top) : tramp * res unit :=
  match o with
  | TInsert i r => (Tramp (py_insert i r (t_items t)) (t_listen t ++ [r]), Ok tt)
  | TRemove i =>
      match py_del (t_items t) i with
      | Err e => (t, Err e)
      | Ok items =>
          match py_del (t_listen t) i with
          | Ok listen => (Tramp items listen, Ok tt)
          | Err e => (Tramp items (t_listen t), Err e)
          end
      end
  | TLoad n made =>
      (Tramp (if Nat.leb n (length (t_items t)) then firstn n (t_items t)
              else t_items t ++ firstn (n - length (t_items t)) made) (t_listen t), Ok tt)
  end.
Definition trun (l : list top) (t : tramp) : tramp := fold_left (fun t o => fst (tstep t o)) l t.
(** 237-258 *)
Definition tramp_make (items : list nat) : tramp := Tramp items items.
(** how often model_changed_event of the array fires when record [r] changes once *)
Definition fires_on (t : tramp) (r : nat) : nat := count_occ Nat.eq_dec (t_listen t) r.
