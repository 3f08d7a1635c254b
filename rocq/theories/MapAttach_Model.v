(** Setting the container of a [MappedListModel] while the container is being edited.

    The setter ([nion/utils/ListModel.py] 724-758) is marked "thread safe" but takes no lock as a
    whole: only [__master_item_inserted] and [__master_item_removed] (769-790), which it calls once
    per item, hold the mutex.  The container, a [ListModel] (20-60), may be edited between any two
    steps of the setter: by another thread, or by a listener of the mapped list that is told about an
    item (775, 788).

    Simplified: one container is attached and detached over and over (a change from one container to
    another is a detachment from the first followed by an attachment to the second); one edit of the
    container is under way at a time (a [ListModel] has no lock of its own); map_fn and unmap_fn do
    not raise (they do in MapFail_Model.v).  The mapped item made by the n-th call of map_fn, with
    argument [x], is written [(n, x)].  Not kept: selections and change blocks. *)
From Coq Require Import ZArith Bool List.
From Verif Require Import PyBase.
Import ListNotations.
Open Scope nat_scope.

Section Model.
  Variable A : Type.

  (** What a list tells: Observable.py [notify_insert_item]/[notify_remove_item], as called by
      ListModel.py 37 and 42 (the container) and 775 and 788 (the mapped list). *)
  Inductive note (B : Type) : Type :=
  | NIns (x : B) (i : nat)
  | NRem (x : B) (i : nat).

  (** Where the setter is (ListModel.py 724-758). *)
  Inductive place : Type :=
  | Off                          (* no container: 741-742 done with [None] *)
  | Half                         (* 743 done: insertions are listened to *)
  | Loop (k : nat)               (* 757: the iterator of the live list is about to read index [k] *)
  | Put (k : nat) (x : A)        (* 758: [x] was read at index [k] and is about to be inserted *)
  | On                           (* the setter is over *)
  | Deaf                         (* 728-729 done: insertions are not listened to any more *)
  | Copy                         (* 730-737 done: nothing is listened to; 738 is about to copy *)
  | Drop (l : list A)            (* 738-739: items of the reversed copy still to be removed *)
  | Stuck.                       (* 739 raised: listeners gone, container kept *)

  Record st : Type := mkSt {
    cont   : list A;                   (* the items of the container *)
    told   : option (note A);          (* the edit whose notification has not been delivered yet *)
    items  : list (nat * A);           (* [__items] *)
    made   : list A;                   (* the arguments of the calls of map_fn, in order *)
    gone   : list (nat * A);           (* the arguments of the calls of unmap_fn, latest first *)
    said   : list (note (nat * A));    (* what the mapped list has told, latest first *)
    at_    : place;
    raised : list exn                  (* exceptions that left the setter, latest first *)
  }.

  (** ListModel.py 769-777: [__master_item_inserted].  The index told is the one given. *)
  Definition item_inserted (s : st) (x : A) (i : nat) : st :=
    let b := (length (made s), x) in
    mkSt (cont s) (told s) (py_insert (Z.of_nat i) b (items s)) (made s ++ [x]) (gone s)
      (NIns _ b i :: said s) (at_ s) (raised s).

  (** ListModel.py 780-790: [__master_item_removed]; the item is not looked at, only the index. *)
  Definition item_removed (s : st) (i : Z) : st * option exn :=
    match py_index (length (items s)) i with
    | None => (s, Some IndexError)
    | Some j =>
        match nth_error (items s) j with
        | None => (s, Some IndexError)
        | Some b =>
            (mkSt (cont s) (told s) (delete_at j (items s)) (made s) (b :: gone s)
               (NRem _ b j :: said s) (at_ s) (raised s), None)
        end
    end.

  Definition set_told (t : option (note A)) (s : st) : st :=
    mkSt (cont s) t (items s) (made s) (gone s) (said s) (at_ s) (raised s).
  Definition set_at (p : place) (s : st) : st :=
    mkSt (cont s) (told s) (items s) (made s) (gone s) (said s) p (raised s).
  Definition raise (e : exn) (s : st) : st :=
    mkSt (cont s) (told s) (items s) (made s) (gone s) (said s) (at_ s) (e :: raised s).
  Definition edit (c : list A) (n : note A) (s : st) : st :=
    mkSt c (Some n) (items s) (made s) (gone s) (said s) (at_ s) (raised s).

  (** Who listens where: the listeners are set at 743-744 and dropped at 728-731. *)
  Definition hears_ins (p : place) : bool :=
    match p with Half | Loop _ | Put _ _ | On => true | _ => false end.
  Definition hears_rem (p : place) : bool :=
    match p with Loop _ | Put _ _ | On | Deaf => true | _ => false end.

  Inductive act : Type :=
  | EIns (i : nat) (x : A)       (* ListModel.py 36: the list of the container is edited *)
  | ERem (i : nat)               (* ListModel.py 40-41 *)
  | Tell                         (* ListModel.py 37, 42: the edit is notified *)
  | Attach                       (* [container = c] from no container: up to 743 *)
  | Detach                       (* [container = None]: 728-729 *)
  | Go.                          (* one more step of the setter *)

  (** The notification: Event.py [fire] (103-114) prints and drops exceptions of the listeners. *)
  Definition tell (s : st) : st :=
    match told s with
    | None => s
    | Some (NIns _ x i) =>
        if hears_ins (at_ s) then item_inserted (set_told None s) x i else set_told None s
    | Some (NRem _ x i) =>
        if hears_rem (at_ s) then fst (item_removed (set_told None s) (Z.of_nat i)) else set_told None s
    end.

  (** One step of the setter.  The for statement of 757 walks the live list ([ListModel.items], 48,
      returns the list itself): reading index [k] ends the loop when [k] is not below the present
      length.  An exception of 739 leaves the setter with the listeners gone and the container kept. *)
  Definition go (s : st) : st :=
    match at_ s with
    | Half => set_at (Loop 0) s
    | Loop k =>
        match nth_error (cont s) k with
        | Some x => set_at (Put k x) s
        | None => set_at On s
        end
    | Put k x => set_at (Loop (S k)) (item_inserted s x k)
    | Deaf => set_at Copy s
    | Copy => set_at (Drop (rev (cont s))) s
    | Drop [] => set_at Off s
    | Drop (x :: l) =>
        match item_removed s (Z.of_nat (length (items s)) - 1) with
        | (s', None) => set_at (Drop l) s'
        | (s', Some e) => set_at Stuck (raise e s')
        end
    | Off | On | Stuck => s
    end.

  (** An edit needs the one before it to have been notified; [Attach] and [Detach] need the setter to
      be over.  ListModel.py 728 on [None] (after 739 raised) is an AttributeError. *)
  Definition step (s : st) (a : act) : st :=
    match a with
    | EIns i x =>
        match told s with
        | None => edit (insert_at i x (cont s)) (NIns _ x i) s
        | Some _ => s
        end
    | ERem i =>
        match told s, nth_error (cont s) i with
        | None, Some x => edit (delete_at i (cont s)) (NRem _ x i) s
        | _, _ => s
        end
    | Tell => tell s
    | Attach =>
        match at_ s with
        | Off => set_at Half s
        | Stuck => raise AttributeError s
        | _ => s
        end
    | Detach =>
        match at_ s with
        | On => set_at Deaf s
        | Stuck => raise AttributeError s
        | _ => s
        end
    | Go => go s
    end.

  Definition run (l : list act) (s : st) : st := fold_left step l s.

  (** ListModel.py 645-664: a mapped list without container beside a container with the given items. *)
  Definition start (l : list A) : st := mkSt l None [] [] [] [] Off [].
End Model.

Arguments NIns {B}. Arguments NRem {B}.
Arguments Off {A}. Arguments Half {A}. Arguments Loop {A}. Arguments Put {A}. Arguments On {A}.
Arguments Deaf {A}. Arguments Copy {A}. Arguments Drop {A}. Arguments Stuck {A}.
Arguments mkSt {A}. Arguments cont {A}. Arguments told {A}. Arguments items {A}. Arguments made {A}.
Arguments gone {A}. Arguments said {A}. Arguments at_ {A}. Arguments raised {A}.
Arguments EIns {A}. Arguments ERem {A}. Arguments Tell {A}. Arguments Attach {A}.
Arguments Detach {A}. Arguments Go {A}.
Arguments item_inserted {A}. Arguments item_removed {A}. Arguments tell {A}. Arguments go {A}.
Arguments set_told {A}. Arguments set_at {A}. Arguments raise {A}. Arguments edit {A}.
Arguments hears_ins {A}. Arguments hears_rem {A}.
Arguments run {A}. Arguments step {A}. Arguments start {A}.
