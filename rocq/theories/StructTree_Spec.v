(** Vocabulary for notifications of nested models: who hears of an edit, and what the edit does to its object. *)
From Coq Require Import String ZArith Bool List.
From Verif Require Import PyBase StructTree_Model.
From Verif Require StructSeq_Spec.
Import ListNotations.

(** all prefixes of a path, from the root down to the object itself *)
Fixpoint prefixes (p : list place) : list (list place) :=
  [] :: match p with [] => [] | s :: p' => map (cons s) (prefixes p') end.
(** the record that the object at the path is a field of *)
Definition owner_of (p : list place) : option (list place * string) :=
  match rev p with Fld n :: q => Some (rev q, n) | _ => None end.
(** neither path leads through the other *)
Fixpoint apart (p q : list place) : Prop :=
  match p, q with
  | s :: p', t :: q' => s <> t \/ (s = t /\ apart p' q')
  | _, _ => False
  end.

Section Wiring.
  Context {V : Type}.
  Variable differs : V -> V -> bool.
  Notation node := (node V).
  Definition is_model (x : node) : Prop := match x with NRecord _ _ | NArray _ _ => True | _ => False end.
  (** the items of arrays are primitive values, records and arrays, not field models *)
  Definition item_kind (x : node) : Prop := match x with NField _ => False | _ => True end.
  (** every array of the tree, at any depth, listens exactly once to each record and array in it *)
  Inductive heard_once : node -> Prop :=
    | H_field v : heard_once (NField v)
    | H_raw v : heard_once (NRaw v)
    | H_record w fields : Forall (fun f => heard_once (snd f)) fields -> heard_once (NRecord w fields)
    | H_array items listen :
        NoDup (map fst items) ->
        (forall id y, In (id, y) items -> is_model y -> count_occ opt_nat_dec listen (Some id) = 1) ->
        (forall id, ~ In id (map fst items) -> ~ In (Some id) listen) ->
        Forall (fun f => item_kind (snd f) /\ heard_once (snd f)) items -> heard_once (NArray items listen).
  (** the listeners are in the order of the items *)
  Inductive in_order : node -> Prop :=
    | O_field v : in_order (NField v)
    | O_raw v : in_order (NRaw v)
    | O_record w fields : Forall (fun f => in_order (snd f)) fields -> in_order (NRecord w fields)
    | O_array items listen :
        NoDup (map fst items) ->
        Forall2 (fun it l => (is_model (snd it) -> l = Some (fst it)) /\ (~ is_model (snd it) -> l = None)) items listen ->
        Forall (fun f => item_kind (snd f) /\ in_order (snd f)) items -> in_order (NArray items listen).

  Definition closed_at (x : node) (q : list place) : Prop := exists fields, get q x = Some (NRecord false fields).
  (** the model_changed_event of the object at [q] fires when the one of the object at [q ++ r] below it does: no record
      on the way is closed *)
  Definition open_to (x : node) (q r : list place) : Prop := forall r1 s r2, r = r1 ++ s :: r2 -> ~ closed_at x (q ++ r1).
  (** [l] are the objects above and including [p] that hear of a change of it, outermost first *)
  Inductive hearers (x : node) (p : list place) : list (list place) -> list (list place) -> Prop :=
    | Hr_nil : hearers x p [] []
    | Hr_yes q r qs l : p = q ++ r -> open_to x q r -> hearers x p qs l -> hearers x p (q :: qs) (q :: l)
    | Hr_no q r qs l : p = q ++ r -> ~ open_to x q r -> hearers x p qs l -> hearers x p (q :: qs) l.
  (** the event of the object itself, and of the record it is a field of *)
  Inductive told (x : node) (p : list place) (ev : list place -> string -> event) (key : string) : list event -> Prop :=
    | Td_none : owner_of p = None -> told x p ev key [ev p key]
    | Td_closed q n : owner_of p = Some (q, n) -> closed_at x q -> told x p ev key [ev p key]
    | Td_owner q n : owner_of p = Some (q, n) -> ~ closed_at x q -> told x p ev key [ev p key; ev q n].
  Definition announced (x : node) (p : list place) (ev : list place -> string -> event) (key : string) (tr : list event) : Prop :=
    exists t l, told x p ev key t /\ hearers x p (prefixes p) l /\ tr = t ++ map Touched l.
  (** what an edit does to the object [a] at path [p] of [x], what is announced, and the error *)
  Inductive outcome (x : node) (p : list place) : edit V -> node -> node -> list event -> res unit -> Prop :=
    | Out_same old v : differs old v = false -> outcome x p (Assign v) (NField old) (NField old) [] (Ok tt)
    | Out_assign old v tr : differs old v = true -> announced x p Changed "value" tr ->
        outcome x p (Assign v) (NField old) (NField v) tr (Ok tt)
    | Out_insert i id y a b l l' tr : StructSeq_Spec.insert_place (length (a ++ b)) i (length a) ->
        announced x p (fun q k => Inserted q k id i) "items" tr ->
        outcome x p (Insert i id y) (NArray (a ++ b) l) (NArray (a ++ (id, y) :: b) l') tr (Ok tt)
    | Out_remove i id y a b l l' tr : StructSeq_Spec.denotes (length (a ++ (id, y) :: b)) i (length a) ->
        announced x p (fun q k => Removed q k id i) "items" tr ->
        outcome x p (Remove i) (NArray (a ++ (id, y) :: b) l) (NArray (a ++ b) l') tr (Ok tt)
    | Out_no_item i items l : (forall k, ~ StructSeq_Spec.denotes (length items) i k) ->
        outcome x p (Remove i) (NArray items l) (NArray items l) [] (Err IndexError)
    | Out_no_listener i id y a b l : StructSeq_Spec.denotes (length (a ++ (id, y) :: b)) i (length a) ->
        (forall k, ~ StructSeq_Spec.denotes (length l) i k) ->
        outcome x p (Remove i) (NArray (a ++ (id, y) :: b) l) (NArray (a ++ b) l) [Removed p "items" id i] (Err IndexError)
    | Out_close_field v : outcome x p Close (NField v) (NField v) [] (Ok tt)
    | Out_close fields : outcome x p Close (NRecord true fields) (NRecord false fields) [] (Ok tt)
    | Out_close_empty : outcome x p Close (NRecord false []) (NRecord false []) [] (Ok tt)
    | Out_close_twice f fields : outcome x p Close (NRecord false (f :: fields)) (NRecord false (f :: fields)) [] (Err KeyError)
    | Out_close_array items l : outcome x p Close (NArray items l) (NArray items l) [] (Err TypeError).
  (** an edit that is possible on such an object *)
  Definition edit_for (e : edit V) (a : node) : Prop :=
    match e, a with
    | Assign _, NField _ | Insert _ _ _, NArray _ _ | Remove _, NArray _ _ => True
    | Close, NField _ | Close, NRecord _ _ | Close, NArray _ _ => True
    | _, _ => False
    end.

  (** an edit that inserts new objects only: with a number not in use in the array, and well wired *)
  Definition fresh_edit (well : node -> Prop) (p : list place) (e : edit V) (x : node) : Prop :=
    match e with Insert _ id y => well y /\ item_kind y /\ forall items l, get p x = Some (NArray items l) -> ~ In id (map fst items) | _ => True end.
  (** an edit that inserts at the end of its array only *)
  Definition append_edit (p : list place) (e : edit V) (x : node) : Prop :=
    match e with Insert i _ _ => forall items l, get p x = Some (NArray items l) -> i = Z.of_nat (length items) | _ => True end.
  Definition removes (e : edit V) : Prop := match e with Remove _ => True | _ => False end.
  (** every edit of the history satisfies [P] when it is made *)
  Fixpoint always (P : list place -> edit V -> node -> Prop) (l : list (list place * edit V)) (x : node) : Prop :=
    match l with
    | [] => True
    | (p, e) :: l' => P p e x /\ always P l' (match edit_at differs p e x with Some (x', _, _) => x' | None => x end)
    end.
End Wiring.
