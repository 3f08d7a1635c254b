(** Model of the mutexes of lists that are derived from each other, /repo/nion/utils/ListModel.py: ListModel (22-54) has none;
    FilteredListModel, MappedListModel and FlattenedListModel have each an RLock (250, 652, 798), held while they tell their
    listeners of changes.  Lists are numbered.  What a call does is given as the sequence of mutexes it takes and gives back.
    Simplification: whether and how often a list tells its listeners depends on the items, filters and keys; here it may do so any
    number of times, so the calls do all that they do in the code and more.  The mutexes of events (Event.py:70-76, 107-108) are
    held only while a list is copied or changed, take no other, and are left out.  Filters, sort keys and map functions take no
    mutex. *)
From Coq Require Import Arith Bool List.
From Verif Require Import PyBase.
Import ListNotations.

Inductive kind := Base | Filt | Map | Flat.
(** who listens to a list: a list derived from it (577-578, 738-739, 839-840), a flattened list of which the list is a master
    item (861-862), or other code that reads the items of a list when it is told of a change *)
Inductive listener := Derived (d : nat) | Within (f : nat) | Reads (m : nat).
(** item_inserted_event and item_removed_event; begin_changes_event; end_changes_event; reset_list_event *)
Inductive note := Item | Begin | End | Reset.
Inductive act := Acq (n : nat) | Rel (n : nat).

Section Calls.
  Variable list_kind : nat -> kind.
  Variable listeners : nat -> list listener.       (* in the order of listening *)
  Variable masters : nat -> list nat.              (* lists that may be master items of a flattened list *)

  (** with self._update_mutex: *)
  Definition locked (n : nat) (p : list act) : list act :=
    match list_kind n with Base => p | _ => Acq n :: p ++ [Rel n] end.

  Inductive job :=
    | Send (n : nat) (k : note)                    (* the list fires one of its events *)
    | Sends (n : nat)                              (* any number of events, one after another *)
    | Hears (ls : list listener) (k : note)        (* Event.fire with these listeners *)
    | Hear (l : listener) (k : note)
    | Flatten (d : nat)                            (* what a flattened list does with a master item *)
    | Changed (ns : list nat)                      (* item_changed_event of an item that is in these lists *)
    | Call (c : call)
    | Calls (cs : list call)
  with call :=
    | Edit (n : nat)                               (* insert_item, remove_item of a ListModel *)
    | Read (n : nat)                               (* items *)
    | SetFilter (n : nat)
    | SetSort (n : nat)                            (* sort_key, sort_reverse *)
    | BeginChange (n : nat)
    | EndChange (n : nat)
    | SetContainer (n old new : nat)
    | ChangeItem (ns : list nat).

  (** what is done, as the mutexes taken and given back *)
  Inductive does : job -> list act -> Prop :=
    | does_send n k p : does (Hears (listeners n) k) p -> does (Send n k) p
    | does_none n : does (Sends n) []
    | does_more n k p q : does (Send n k) p -> does (Sends n) q -> does (Sends n) (p ++ q)
    (* Event.py:103-113: a listener that raises ends the fire *)
    | does_heard k : does (Hears [] k) []
    | does_raised l ls k p : does (Hear l k) p -> does (Hears (l :: ls) k) p
    | does_hears l ls k p q : does (Hear l k) p -> does (Hears ls k) q -> does (Hears (l :: ls) k) (p ++ q)
    | does_reads m k : does (Hear (Reads m) k) (locked m [])
    (* 611-640, with 396-425; 582-596 without the mutex *)
    | does_filt_item d p : list_kind d = Filt -> does (Sends d) p -> does (Hear (Derived d) Item) (locked d p)
    | does_filt_note d k p : list_kind d = Filt -> k <> Item -> does (Send d k) p -> does (Hear (Derived d) k) p
    (* 769-791; 671-682 called from 742-748; no listener for resets *)
    | does_map_item d p : list_kind d = Map -> does (Sends d) p -> does (Hear (Derived d) Item) (locked d p)
    | does_map_begin d p : list_kind d = Map -> does (Sends d) p -> does (Hear (Derived d) Begin) p
    | does_map_end d p : list_kind d = Map -> does (Sends d) p -> does (Hear (Derived d) End) (locked d p)
    | does_map_reset d : list_kind d = Map -> does (Hear (Derived d) Reset) []
    (* 852-884; 886-916 without the mutex *)
    | does_flat_item d p : list_kind d = Flat -> does (Flatten d) p -> does (Hear (Derived d) Item) (locked d p)
    | does_flat_note d k : list_kind d = Flat -> k <> Item -> does (Hear (Derived d) k) []
    | does_flat_done d : does (Flatten d) []
    | does_flat_read d m p : In m (masters d) -> does (Flatten d) p -> does (Flatten d) (locked m [] ++ p)
    | does_flat_send d p q : does (Send d Item) p -> does (Flatten d) q -> does (Flatten d) (p ++ q)
    | does_child f p : does (Sends f) p -> does (Hear (Within f) Item) p
    | does_child_note f k : k <> Item -> does (Hear (Within f) k) []
    (* 619-624, with 428-466 *)
    | does_unchanged : does (Changed []) []
    | does_changed n ns p q : does (Sends n) p -> does (Changed ns) q -> does (Changed (n :: ns)) (locked n p ++ q)
    (* 34-41; 348-351, 704-707, 818-821 *)
    | does_edit n p : list_kind n = Base -> does (Send n Item) p -> does (Call (Edit n)) p
    | does_read n : does (Call (Read n)) (locked n [])
    (* 340-345: reset_list_event is fired without the mutex; 311-317, 325-331; with 493-546 *)
    | does_filter n p q : list_kind n = Filt -> does (Send n Reset) p -> does (Sends n) q -> does (Call (SetFilter n)) (p ++ locked n q)
    | does_sort n p q : list_kind n = Filt -> does (Send n Reset) p -> does (Sends n) q -> does (Call (SetSort n)) (locked n p ++ locked n q)
    (* 274-276, 671-675: without the mutex; 278-283, 677-682 *)
    | does_begin n p : does (Sends n) p -> does (Call (BeginChange n)) p
    | does_end n p : does (Sends n) p -> does (Call (EndChange n)) (locked n p)
    (* 556-600, 725-757, 833-843: the items of the container are read, without the own mutex, and then each is taken out or put in
       (the list is a listener of the container; what it does is the same) *)
    | does_container n old new ps p qs :
        does (Hears (repeat (Derived n) ps) Item) p -> forall q, does (Sends n) q -> forall r, does (Hears (repeat (Derived n) qs) Item) r ->
        does (Call (SetContainer n old new)) (locked old [] ++ p ++ q ++ locked new [] ++ r)
    | does_change ns p : does (Changed ns) p -> does (Call (ChangeItem ns)) p
    | does_nothing : does (Calls []) []
    | does_next c cs p q : does (Call c) p -> does (Calls cs) q -> does (Calls (c :: cs)) (p ++ q).
End Calls.

(** ** threads *)
(** a thread holds mutexes, a mutex as often as it has taken it, and has things still to do *)
Record thread := Thread { t_held : list nat; t_acts : list act }.
(** a mutex can be taken if no other thread holds it *)
Inductive step : list thread -> list thread -> Prop :=
  | step_acq l1 l2 held n p :
      (forall t, In t (l1 ++ l2) -> ~ In n (t_held t)) ->
      step (l1 ++ Thread held (Acq n :: p) :: l2) (l1 ++ Thread (n :: held) p :: l2)
  | step_rel l1 l2 held held' n p : held = n :: held' -> step (l1 ++ Thread held (Rel n :: p) :: l2) (l1 ++ Thread held' p :: l2).
Inductive steps : list thread -> list thread -> Prop :=
  | steps_refl l : steps l l
  | steps_next l l' l'' : steps l l' -> step l' l'' -> steps l l''.
Definition started (ps : list (list act)) : list thread := map (Thread []) ps.
