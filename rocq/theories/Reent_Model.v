(** Model of observers that change the observed object again from within a notification: an object with state [St] whose
    changes notify the listeners of an Event, /repo/nion/utils/Event.py:103-113, in the order added, each listener
    finishing its own further changes, with their complete notifications, before the next is called.  Every listener is on
    all events of the object, added to each in the same order, and none is added or removed; an edit that raises changes
    nothing, notifies nobody, and the listener making it catches the exception. *)
From Coq Require Import List ZArith Bool Arith.
From Verif Require Import PyBase ListModel_Model.
From Verif Require PropModel_Model Filtered_Model.
Import ListNotations.
Open Scope nat_scope.

Section Reent.
  Context {St Op Note : Type}.
  (** an edit: nothing to notify (or an exception), or the new state and what is told *)
  Variable step : St -> Op -> option (St * Note).
  (** the number of listeners *)
  Variable n : nat.

  (** an edit together with the edits that every listener makes when called for it, in order; any finite execution is
      given by a list of these *)
  Inductive tree := Node (o : Op) (react : list (list tree)).
  (** what has happened: an edit, with the state after it; a call of listener [j], with the state at that time *)
  Inductive rnev := EEdit (x : Note) (s : St) | ECall (j : nat) (x : Note) (s : St).
  Definition r_call (j : nat) (x : Note) (w : St * list rnev) : St * list rnev := (fst w, snd w ++ [ECall j x (fst w)]).
  (** Event.py:109-111 *)
  Fixpoint r_run (t : tree) (w : St * list rnev) {struct t} : St * list rnev :=
    let 'Node o react := t in
    match step (fst w) o with
    | None => w
    | Some (s', x) =>
        (fix go (j : nat) (rs : list (list tree)) (w : St * list rnev) {struct rs} : St * list rnev :=
           match rs with
           | [] => fold_left (fun w j => r_call j x w) (seq j (n - j)) w
           | r :: rs' => if Nat.ltb j n then go (S j) rs' (fold_left (fun w t => r_run t w) r (r_call j x w)) else w
           end) 0 react (s', snd w ++ [EEdit x s'])
    end.
  Definition r_runs (ts : list tree) (s : St) : St * list rnev := fold_left (fun w t => r_run t w) ts (s, []).
End Reent.
Arguments Node {Op}.
Arguments tree : clear implicits.
Arguments rnev : clear implicits.

(** insert_item and remove_item of a ListModel, ListModel.py:35-42; clear_items makes several removals *)
Inductive led A := EdInsert (i : Z) (x : A) | EdRemove (i : Z).
Arguments EdInsert {A}.
Arguments EdRemove {A}.
Definition list_step {A} (l : list A) (o : led A) : option (list A * lnote A) :=
  match (match o with EdInsert i x => lm_insert i x l | EdRemove i => lm_remove i l end) with
  | (l', [x], None) => Some (l', x)
  | _ => None
  end.
(** the setter of PropertyModel.value, Model.py:42-54; its on_value_changed is a last listener, told the new value *)
Definition prop_step {V} (cmp : V -> V -> bool) (v w : option V) : option (option V * option V) :=
  if PropModel_Model.not_equal cmp v w then Some (w, w) else None.

(** a FilteredListModel as listener [j] of its container: its handlers, ListModel.py:611-640 (model: Filtered_Model), run with
    the container as it is at that time *)
Section Filtered.
  Context {A C K : Type} (A_dec : forall a b : A, {a = b} + {a <> b}) (lt : K -> K -> bool).
  Definition f_hear (l : list A) (x : lnote A) (s : Filtered_Model.fstate A C K) : Filtered_Model.fstate A C K :=
    let s1 := Filtered_Model.with_cont s (Some l) true in
    fst (fst (match x with LnIns i y => Filtered_Model.item_inserted A_dec lt s1 y i | LnRem i y => Filtered_Model.item_removed A_dec s1 y i end)).
  Fixpoint f_feed (j : nat) (d : list (rnev (list A) (lnote A))) (s : Filtered_Model.fstate A C K) : Filtered_Model.fstate A C K :=
    match d with
    | [] => s
    | EEdit _ _ :: d' => f_feed j d' s
    | ECall k x l :: d' => if Nat.eqb k j then f_feed j d' (f_hear l x s) else f_feed j d' s
    end.
End Filtered.
