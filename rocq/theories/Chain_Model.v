(** Model of a FilteredListModel whose container is another FilteredListModel, /repo/nion/utils/ListModel.py:556-640
    (used that way in test/ListModel_test.py:97-108).  The upstream list [c_up] and the downstream list [c_down]
    are states of Filtered_Model; here the notifications of the upstream list are delivered, one by one and as
    soon as they are fired, to the handlers the downstream list has registered (569-598).  Exceptions in a handler
    are swallowed by Event.fire (Event.py:103-114).  The items of both lists are the same objects, so a content
    change runs the item listeners of both lists.  Not modelled: as in Filtered_Model. *)
From Coq Require Import List ZArith Bool Arith.
From Verif Require Import PyBase Filtered_Model.
Import ListNotations.

Section Chain.
  Context {A C K : Type}.
  Variable A_dec : forall a b : A, {a = b} + {a <> b}.
  Variable lt : K -> K -> bool.
  Notation fstate := (fstate A C K).
  Notation fev := (fev A).

  (** The handlers of the downstream list for one notification of its container: 611-627 (inserted), 630-640
      (removed: the index comes from the notification for the master list, the item for listeners and items),
      582-588 (begin and end), 594-596 (reset).  Upstream selections are not seen. *)
  Definition deliver1 (s : fstate) (e : fev) : fstate * list fev :=
    match fs_cont s with
    | None => (s, [])
    | Some l =>
        match e with
        | FIns x k => fst (f_step A_dec lt s (FInsert (Z.of_nat k) x))
        | FRem x k =>
            let s1 := with_cont s (Some (delete_at k l)) (fs_conn s) in
            if fs_conn s then fst (item_removed A_dec s1 x (Z.of_nat k)) else (s1, [])
        | FBegin => if fs_conn s then fst (f_step A_dec lt s FContBegin) else (s, [])
        | FEnd => if fs_conn s then fst (f_step A_dec lt s FContEnd) else (s, [])
        | FReset => if fs_conn s then fst (f_step A_dec lt s FContReset) else (s, [])
        | FSelIns _ | FSelRem _ => (s, [])
        end
    end.

  Fixpoint deliver (s : fstate) (tr : list fev) : fstate * list fev :=
    match tr with
    | [] => (s, [])
    | e :: tr' => let '(s1, t1) := deliver1 s e in let '(s2, t2) := deliver s1 tr' in (s2, t1 ++ t2)
    end.

  Record chain := Chain { c_up : fstate; c_down : fstate }.

  (** which of the two lists an operation is made on *)
  Inductive stage := Up | Down.

  Inductive cop :=
  | CInsert (i : Z) (x : A) | CRemove (i : Z) | CSource (c : option (list A))       (* the source list *)
  | CContent (x : A) (c : C)                                                      (* an item changes *)
  | CFilter (st : stage) (f : C -> bool) | CKey (st : stage) (k : option (C -> K)) | CRev (st : stage) (b : bool)
  | CBegin (st : stage) | CEnd (st : stage) (ord : list A -> list A)
  | CAttach | CDetach.                                    (* downstream.container = upstream, = None *)

  Definition on_up (c : chain) (o : fop A C K) : chain * list fev :=
    let '(u, t, _) := f_step A_dec lt (c_up c) o in
    let '(d, t2) := deliver (c_down c) t in (Chain u d, t2).
  Definition on_down (c : chain) (o : fop A C K) : chain * list fev :=
    let '(d, t, _) := f_step A_dec lt (c_down c) o in (Chain (c_up c) d, t).
  Definition on (st : stage) (c : chain) (o : fop A C K) : chain * list fev :=
    match st with Up => on_up c o | Down => on_down c o end.

  Definition removes (x : A) (e : fev) : bool :=
    match e with FRem y _ => if A_dec y x then true else false | _ => false end.

  (** item_changed_event of x: the snapshot of listeners (Event.py:108-109) holds the one of the upstream list,
      registered first, and then the one of the downstream list; the latter does nothing if it has been closed
      by a removal meanwhile (EventListener.close, Event.py:33-37), and a listener made meanwhile is not in the
      snapshot.  Handler: ListModel.py:619-624.  Simplification: the upstream listener is the newer one when the upstream
      list lost the item and took it back inside one of its change blocks; Cascade_Model keeps the real order. *)
  Definition on_content (c : chain) (x : A) (v : C) : chain * list fev :=
    let d0 := with_content (c_down c) (update_content A_dec (fs_content (c_down c)) x v) in
    let '(u, t, _) := f_step A_dec lt (c_up c) (FContent x v) in
    let '(d1, t1) := deliver d0 t in
    if inb A_dec x (fs_listen (c_down c)) && negb (existsb (removes x) t) then
      if inb A_dec x (fs_master d1) then let '(d2, t2) := updated_master A_dec lt d1 x in (Chain u d2, t1 ++ t2)
      else (Chain u d1, t1)
    else (Chain u d1, t1).

  Definition c_step (c : chain) (o : cop) : chain * list fev :=
    match o with
    | CInsert i x => on_up c (FInsert i x)
    | CRemove i => on_up c (FRemove i)
    | CSource l => on_up c (FSetContainer l)
    | CContent x v => on_content c x v
    | CFilter st f => on st c (FSetFilter f)
    | CKey st k => on st c (FSetKey k)
    | CRev st b => on st c (FSetRev b)
    | CBegin st => on st c FBeginChange
    | CEnd st ord => on st c (FEndChange ord)
    | CAttach => on_down c (FSetContainer (Some (fs_items (c_up c))))
    | CDetach => on_down c (FSetContainer None)
    end.

  Definition c_new (w : A -> C) : chain := Chain (f_new w) (f_new w).

  Fixpoint c_run (c : chain) (h : list cop) : chain * list fev :=
    match h with
    | [] => (c, [])
    | o :: h' => let '(c1, t1) := c_step c o in let '(c2, t2) := c_run c1 h' in (c2, t1 ++ t2)
    end.
End Chain.
Arguments chain : clear implicits.
Arguments cop : clear implicits.
