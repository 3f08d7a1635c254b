(** Model of the change blocks of lists derived from each other: begin_changes_event and end_changes_event of
    FilteredListModels and MappedListModels (/repo/nion/utils/ListModel.py:232-640 and 643-790), any number of them, each
    with at most one other as container, and the container may be changed at any time (556-600, 724-758).  A handler
    that is called while an event is being fired may do anything, so an operation may come between any two calls of
    handlers; what is still to be done then waits on a stack (the calls in progress of one thread, Event.fire
    103-114).  Only the begin / end events are modelled: items, selections and filters are the subject of other files.
    Simplified: one thread; handlers do not raise; the keys are right (582-588, 747-753).  Containers that are no such
    lists (ListModel, FlattenedListModel) have no such events (580, 745): a list with one of them counts as one without
    a container. *)
From Coq Require Import ZArith Bool List Arith.
Import ListNotations.

(** which of the two events *)
Inductive mark := Begin | End.

(** a listener: its identity, the list that made it and the list it listens to (590-591, 755-756; the listeners of the
    two events are made and closed together) *)
Record reg := Reg { r_id : nat; r_who : nat; r_src : nat }.

Definition reg_eqb (a b : reg) : bool :=
  (r_id a =? r_id b) && (r_who a =? r_who b) && (r_src a =? r_src b).

(** what is still to be done by a call in progress *)
Inductive task :=
| Notify (r : reg) (m : mark)    (* Event.py 110-112: the next listener is to be called *)
| Inc (j : nat).                 (* ListModel.py 675: begin_change has fired and is to count *)

Record blk := Blk {
  b_regs : list reg;             (* the open listeners, oldest first *)
  b_next : nat;                  (* identity of the next listener *)
  b_level : nat -> Z;            (* MappedListModel.__change_level *)
  b_stack : list task;
  b_out : list (nat * mark)      (* the events fired so far, latest first: which list, which event *)
}.

Section Blocks.
  (** which lists are MappedListModels; the others are FilteredListModels *)
  Variable mapped : nat -> bool.

  Definition set_level (f : nat -> Z) (j : nat) (z : Z) : nat -> Z := fun i => if i =? j then z else f i.

  (** Event.fire, Event.py 103-112: the listeners are read once, oldest first; [after] is done when all have been
      called *)
  Definition emit (j : nat) (m : mark) (after : list task) (s : blk) : blk :=
    Blk (b_regs s) (b_next s) (b_level s)
        (map (fun r => Notify r m) (filter (fun r => r_src r =? j) (b_regs s)) ++ after ++ b_stack s)
        ((j, m) :: b_out s).

  Definition put_level (j : nat) (z : Z) (s : blk) : blk :=
    Blk (b_regs s) (b_next s) (set_level (b_level s) j z) (b_stack s) (b_out s).

  (** MappedListModel.begin_change, 671-675: the event is fired before the level is counted *)
  Definition begin_change (j : nat) (s : blk) : blk :=
    if (b_level s j =? 0)%Z then emit j Begin [Inc j] s else put_level j (b_level s j + 1) s.

  (** MappedListModel.end_change, 677-682 *)
  Definition end_change (j : nat) (s : blk) : blk :=
    let s1 := put_level j (b_level s j - 1) s in
    if (b_level s1 j =? 0)%Z then emit j End [] s1 else s1.

  (** a block of list [j] begins or ends: for a MappedListModel begin_change / end_change, called by a client or by the
      handlers 747-753; for a FilteredListModel the events that surround its own changes (404-406, 411-413, 513-546)
      or that it passes on (582-588) *)
  Definition turn (j : nat) (m : mark) (s : blk) : blk :=
    if mapped j then match m with Begin => begin_change j s | End => end_change j s end
    else emit j m [] s.

  (** the container setter (557-591, 725-756), as far as listeners of the two events go: the old ones are closed, new
      ones are made.  The changes of the items in between make blocks of their own in a FilteredListModel: these are
      [Turn]s between a [Move] to no container and a [Move] to the new one. *)
  Definition move (j : nat) (c : option nat) (s : blk) : blk :=
    let kept := filter (fun r => negb (r_who r =? j)) (b_regs s) in
    match c with
    | None => Blk kept (b_next s) (b_level s) (b_stack s) (b_out s)
    | Some k => Blk (kept ++ [Reg (b_next s) j k]) (S (b_next s)) (b_level s) (b_stack s) (b_out s)
    end.

  Definition open (r : reg) (s : blk) : bool := existsb (reg_eqb r) (b_regs s).

  (** the call in progress goes on: the next listener is called, or, if it was closed since, not (Event.py 33-37);
      or begin_change counts *)
  Definition go_on (s : blk) : blk :=
    match b_stack s with
    | [] => s
    | t :: rest =>
        let s1 := Blk (b_regs s) (b_next s) (b_level s) rest (b_out s) in
        match t with
        | Inc j => put_level j (b_level s1 j + 1) s1
        | Notify r m => if open r s then turn (r_who r) m s1 else s1
        end
    end.

  Inductive act :=
  | Turn (j : nat) (m : mark)            (* a block of list [j] begins or ends *)
  | Move (j : nat) (c : option nat)      (* list [j] gets another container *)
  | GoOn.                                (* the call in progress goes on *)

  Definition b_step (s : blk) (a : act) : blk :=
    match a with
    | Turn j m => turn j m s
    | Move j c => move j c s
    | GoOn => go_on s
    end.

  (** lists without containers, 232-268, 645-664 *)
  Definition b_new : blk := Blk [] 0 (fun _ => 0%Z) [] [].
  Definition b_run (s : blk) (h : list act) : blk := fold_left b_step h s.
End Blocks.
