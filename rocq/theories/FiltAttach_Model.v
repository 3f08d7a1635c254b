(** Setting the container of a [FilteredListModel] while the container is being edited.

    The setter ([nion/utils/ListModel.py] 556-600) is marked "thread safe" but takes no lock as a
    whole: only [__item_inserted] and [__item_removed] (610-640), which it calls once per item, hold
    the mutex.  The container, a [ListModel] (20-60), may be edited between any two steps of the
    setter: by another thread, or by a listener of the filtered list that is told about an item.

    Simplified: one container is attached and detached over and over (a change from one container to
    another is a detachment from the first followed by an attachment to the second); one edit of the
    container is under way at a time (a [ListModel] has no lock of its own); items are compared by
    identity, which is what the [id(item)] keys do; of the filtered list only the master items and
    the dictionary of item listeners are kept, the shown items follow from the master items and are
    the subject of other files. *)
From Coq Require Import ZArith Bool List.
From Verif Require Import PyBase.
Import ListNotations.
Open Scope nat_scope.

Section Model.
  Variable A : Type.
  Variable A_dec : forall x y : A, {x = y} + {x <> y}.

  (** ListModel.py 615, [item in self.__master_items]. *)
  Definition inb (x : A) (l : list A) : bool := if in_dec A_dec x l then true else false.

  (** What the container tells: Observable.py [notify_insert_item]/[notify_remove_item], as called
      by ListModel.py 37 and 42. *)
  Inductive note : Type :=
  | NIns (x : A) (i : nat)
  | NRem (x : A) (i : nat).

  (** Where the setter is (ListModel.py 557-600). *)
  Inductive place : Type :=
  | Off                          (* no container: 574-577 done with [None] *)
  | Half                         (* 578 done: insertions are listened to *)
  | Loop (k : nat)               (* 599: the iterator of the live list is about to read index [k] *)
  | Put (k : nat) (x : A)        (* 600: [x] was read at index [k] and is about to be inserted *)
  | On                           (* the setter is over *)
  | Deaf                         (* 559-560 done: insertions are not listened to any more *)
  | Copy                         (* 561-571 done: nothing is listened to; 572 is about to copy *)
  | Drop (l : list A)            (* 572-573: items of the reversed copy still to be removed *)
  | Stuck.                       (* 573 raised: listeners gone, container kept *)

  Record st : Type := mkSt {
    cont   : list A;             (* the items of the container *)
    told   : option note;        (* the edit whose notification has not been delivered yet *)
    master : list A;             (* [__master_items] *)
    keys   : list A;             (* keys of [__item_changed_event_listeners] *)
    at_    : place;
    raised : list exn            (* exceptions that left the setter, latest first *)
  }.

  (** ListModel.py 611-627: [__item_inserted] on the master items and the listeners; an exception
      leaves what was done before it. *)
  Definition item_inserted (m ks : list A) (x : A) (i : Z) : list A * list A * option exn :=
    if inb x m then (m, ks, Some AssertionError)
    else (py_insert i x m, x :: ks, None).

  (** ListModel.py 630-640: [__item_removed]; line 634 comes before the dictionary is looked at. *)
  Definition item_removed (m ks : list A) (x : A) (i : Z) : list A * list A * option exn :=
    match py_del m i with
    | Err e => (m, ks, Some e)
    | Ok m' => if inb x ks then (m', remove A_dec x ks, None) else (m', ks, Some KeyError)
    end.

  (** Who listens where: the listeners are set at 578-579 and dropped at 559-562. *)
  Definition hears_ins (p : place) : bool :=
    match p with Half | Loop _ | Put _ _ | On => true | _ => false end.
  Definition hears_rem (p : place) : bool :=
    match p with Loop _ | Put _ _ | On | Deaf => true | _ => false end.

  Inductive act : Type :=
  | EIns (i : nat) (x : A)       (* ListModel.py 36: the list of the container is edited *)
  | ERem (i : nat)               (* ListModel.py 40-41 *)
  | Tell                         (* ListModel.py 37, 42: the edit is notified *)
  | Attach                       (* [container = c] from no container: up to 578 *)
  | Detach                       (* [container = None]: 559-560 *)
  | Go.                          (* one more step of the setter *)

  (** The notification: Event.py [fire] prints and drops exceptions of the listeners. *)
  Definition tell (s : st) : st :=
    match told s with
    | None => s
    | Some (NIns x i) =>
        if hears_ins (at_ s) then
          let '(m, ks, _) := item_inserted (master s) (keys s) x (Z.of_nat i) in
          mkSt (cont s) None m ks (at_ s) (raised s)
        else mkSt (cont s) None (master s) (keys s) (at_ s) (raised s)
    | Some (NRem x i) =>
        if hears_rem (at_ s) then
          let '(m, ks, _) := item_removed (master s) (keys s) x (Z.of_nat i) in
          mkSt (cont s) None m ks (at_ s) (raised s)
        else mkSt (cont s) None (master s) (keys s) (at_ s) (raised s)
    end.

  (** One step of the setter.  The for statement of 599 walks the live list ([ListModel.items], 48,
      returns the list itself): reading index [k] ends the loop when [k] is not below the present
      length.  An exception of 600 leaves the setter with the container set and the listeners on; one
      of 573 leaves it with the listeners gone and the container kept. *)
  Definition go (s : st) : st :=
    match at_ s with
    | Half => mkSt (cont s) (told s) (master s) (keys s) (Loop 0) (raised s)
    | Loop k =>
        match nth_error (cont s) k with
        | Some x => mkSt (cont s) (told s) (master s) (keys s) (Put k x) (raised s)
        | None => mkSt (cont s) (told s) (master s) (keys s) On (raised s)
        end
    | Put k x =>
        match item_inserted (master s) (keys s) x (Z.of_nat k) with
        | (m, ks, None) => mkSt (cont s) (told s) m ks (Loop (S k)) (raised s)
        | (m, ks, Some e) => mkSt (cont s) (told s) m ks On (e :: raised s)
        end
    | Deaf => mkSt (cont s) (told s) (master s) (keys s) Copy (raised s)
    | Copy => mkSt (cont s) (told s) (master s) (keys s) (Drop (rev (cont s))) (raised s)
    | Drop [] => mkSt (cont s) (told s) (master s) (keys s) Off (raised s)
    | Drop (x :: l) =>
        match item_removed (master s) (keys s) x (Z.of_nat (length (master s)) - 1) with
        | (m, ks, None) => mkSt (cont s) (told s) m ks (Drop l) (raised s)
        | (m, ks, Some e) => mkSt (cont s) (told s) m ks Stuck (e :: raised s)
        end
    | Off | On | Stuck => s
    end.

  (** An edit needs the one before it to have been notified; [Attach] and [Detach] need the setter to
      be over.  ListModel.py 559 on [None] (after 573 raised) is an AttributeError. *)
  Definition step (s : st) (a : act) : st :=
    match a with
    | EIns i x =>
        match told s with
        | None => mkSt (insert_at i x (cont s)) (Some (NIns x i)) (master s) (keys s) (at_ s) (raised s)
        | Some _ => s
        end
    | ERem i =>
        match told s, nth_error (cont s) i with
        | None, Some x => mkSt (delete_at i (cont s)) (Some (NRem x i)) (master s) (keys s) (at_ s) (raised s)
        | _, _ => s
        end
    | Tell => tell s
    | Attach =>
        match at_ s with
        | Off => mkSt (cont s) (told s) (master s) (keys s) Half (raised s)
        | Stuck => mkSt (cont s) (told s) (master s) (keys s) Stuck (AttributeError :: raised s)
        | _ => s
        end
    | Detach =>
        match at_ s with
        | On => mkSt (cont s) (told s) (master s) (keys s) Deaf (raised s)
        | Stuck => mkSt (cont s) (told s) (master s) (keys s) Stuck (AttributeError :: raised s)
        | _ => s
        end
    | Go => go s
    end.

  Definition run (l : list act) (s : st) : st := fold_left step l s.

  (** A filtered list without container beside a container with the given items. *)
  Definition start (l : list A) : st := mkSt l None [] [] Off [].
End Model.

Arguments NIns {A}. Arguments NRem {A}.
Arguments Off {A}. Arguments Half {A}. Arguments Loop {A}. Arguments Put {A}. Arguments On {A}.
Arguments Deaf {A}. Arguments Copy {A}. Arguments Drop {A}. Arguments Stuck {A}.
Arguments mkSt {A}. Arguments cont {A}. Arguments told {A}. Arguments master {A}.
Arguments keys {A}. Arguments at_ {A}. Arguments raised {A}.
Arguments EIns {A}. Arguments ERem {A}. Arguments Tell {A}. Arguments Attach {A}.
Arguments Detach {A}. Arguments Go {A}.
Arguments run {A}. Arguments step {A}. Arguments start {A}.
