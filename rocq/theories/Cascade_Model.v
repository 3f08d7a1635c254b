(** Model of FilteredListModels in a row, each the container of the next, /repo/nion/utils/ListModel.py:231-640
    (two of them: test/ListModel_test.py:97-108).  Any number of lists, numbered from the one whose container is the
    source list.  Every list is a state of Filtered_Model and its notifications reach the next list through
    [deliver] of Chain_Model.  The handlers of a list (569-598) look at no other list, so each list is given the
    whole trace of the one before it at once; the code interleaves them.  Unlike Chain_Model, the order in which the
    lists listen to an item is kept (Event.py:66-77: new listeners are appended), because that is the order in which
    they hear that the item changed.  Not modelled: as in Filtered_Model. *)
From Coq Require Import List ZArith Bool Arith.
From Verif Require Import PyBase Filtered_Model Chain_Model.
Import ListNotations.

Section Cascade.
  Context {A C K : Type}.
  Variable A_dec : forall a b : A, {a = b} + {a <> b}.
  Variable lt : K -> K -> bool.
  Notation fstate := (fstate A C K).
  Notation fev := (fev A).

  (** who listens to which item: (list number, item), oldest first; the listeners of one item_changed_event are the
      entries of that item, in this order *)
  Definition regs := list (nat * A).

  Definition registered (r : regs) (j : nat) (y : A) : bool :=
    existsb (fun p => Nat.eqb (fst p) j && if A_dec (snd p) y then true else false) r.
  (** the listeners of list [j] are now those of the items [now]: the others are closed (634-636), new ones are made
      (625: appended) *)
  Definition relisten (j : nat) (now : list A) (r : regs) : regs :=
    let kept := filter (fun p => negb (Nat.eqb (fst p) j) || inb A_dec (snd p) now) r in
    kept ++ map (pair j) (filter (fun y => negb (registered kept j y)) (nodup A_dec now)).

  (** the listeners of list [j] while the notifications [tr] of its container arrive *)
  Fixpoint hear (j : nat) (s : fstate) (tr : list fev) (r : regs) : regs :=
    match tr with
    | [] => r
    | e :: tr' => let s1 := fst (deliver1 A_dec lt s e) in hear j s1 tr' (relisten j (fs_listen s1) r)
    end.

  (** the notifications [tr] reach list [j] (the head), and what it fires the next lists; the notifications of every
      list are returned *)
  Fixpoint flow (j : nat) (ls : list fstate) (tr : list fev) (r : regs) : list fstate * list (list fev) * regs :=
    match ls with
    | [] => ([], [], r)
    | s :: rest =>
        let '(s', t) := deliver A_dec lt s tr in
        let '(rest', ts, r') := flow (S j) rest t (hear j s tr r) in
        (s' :: rest', t :: ts, r')
    end.

  (** something is done to list [i] ([j] is the number of the head), and the next lists are told *)
  Fixpoint at_level (f : fstate -> fstate * list fev) (g : nat -> fstate -> fstate -> regs -> regs) (j i : nat) (ls : list fstate) (r : regs)
    : list fstate * list (list fev) * regs :=
    match ls with
    | [] => ([], [], r)
    | s :: rest =>
        match i with
        | O => let '(s', t) := f s in
               let '(rest', ts, r') := flow (S j) rest t (g j s s' r) in
               (s' :: rest', t :: ts, r')
        | S i' => let '(rest', ts, r') := at_level f g (S j) i' rest r in (s :: rest', [] :: ts, r')
        end
    end.

  Record casc := Cs { cs_lists : list fstate; cs_regs : regs }.

  Definition do_op (o : fop A C K) (s : fstate) : fstate * list fev := fst (f_step A_dec lt s o).
  (** a new container: all listeners of the list are closed, then new ones made (572-573, 599-600) *)
  Definition listen_op (o : fop A C K) (j : nat) (s s' : fstate) (r : regs) : regs :=
    match o with
    | FSetContainer _ => relisten j (fs_listen s') (relisten j [] r)
    | _ => relisten j (fs_listen s') r
    end.
  Definition on_level (c : casc) (i : nat) (o : fop A C K) : casc * list (list fev) :=
    let '(ls, ts, r) := at_level (do_op o) (listen_op o) 0 i (cs_lists c) (cs_regs c) in (Cs ls r, ts).

  (** item_content_changed, 619-624, when its assert holds *)
  Definition heard (x : A) (s : fstate) : fstate * list fev := updated_master A_dec lt s x.
  (** the assert of 622 in list [i] *)
  Definition asserts (x : A) (ls : list fstate) (i : nat) : bool :=
    match nth_error ls i with Some s => inb A_dec x (fs_master s) | None => false end.

  (** the lists whose listener to x was closed: a list hears the notifications of the one before it *)
  Definition closed_in (x : A) (ts : list (list fev)) : list nat :=
    map S (filter (fun k => existsb (removes A_dec x) (nth k ts [])) (seq 0 (length ts))).
  Fixpoint both (ts us : list (list fev)) : list (list fev) :=
    match ts, us with
    | t :: ts', u :: us' => (t ++ u) :: both ts' us'
    | [], us => us
    | ts, [] => ts
    end.
  (** Event.fire of item_changed_event (Event.py:103-114): the listeners [snap] of a snapshot, except those [closed] meanwhile
      (EventListener.close, Event.py:33-37); an exception ends the loop and is printed (113-114) *)
  Fixpoint fire (x : A) (snap closed : list nat) (ls : list fstate) (r : regs) : list fstate * list (list fev) * regs :=
    match snap with
    | [] => (ls, map (fun _ => []) ls, r)
    | i :: snap' =>
        if existsb (Nat.eqb i) closed then fire x snap' closed ls r
        else if negb (asserts x ls i) then (ls, map (fun _ => []) ls, r)
        else
          let '(ls1, t1, r1) := at_level (heard x) (fun _ _ _ r => r) 0 i ls r in
          let '(ls2, t2, r2) := fire x snap' (closed ++ closed_in x t1) ls1 r1 in
          (ls2, both t1 t2, r2)
    end.
  (** the content of x becomes [v], then its item_changed_event is fired *)
  Definition on_change (c : casc) (x : A) (v : C) : casc * list (list fev) :=
    let snap := map fst (filter (fun p => if A_dec (snd p) x then true else false) (cs_regs c)) in
    let '(ls, ts, r) :=
      fire x snap [] (map (fun s => with_content s (update_content A_dec (fs_content s) x v)) (cs_lists c)) (cs_regs c) in
    (Cs ls r, ts).

  (** what is done to one list: its setters (302-346) and change blocks (274-283) *)
  Inductive lop :=
  | LFilter (f : C -> bool) | LKey (k : option (C -> K)) | LRev (b : bool) | LBegin | LEnd (ord : list A -> list A).
  Definition lop_op (o : lop) : fop A C K :=
    match o with
    | LFilter f => FSetFilter f | LKey k => FSetKey k | LRev b => FSetRev b | LBegin => FBeginChange | LEnd ord => FEndChange ord
    end.

  Inductive csop :=
  | KInsert (i : Z) (x : A) | KRemove (i : Z) | KSource (l : option (list A))      (* the source list *)
  | KContent (x : A) (v : C)                                                     (* an item changes *)
  | KSet (j : nat) (o : lop)                                                     (* list j *)
  | KAttach (j : nat) | KDetach (j : nat).                     (* list (j+1).container = list j, = None *)

  Definition cs_step (c : casc) (o : csop) : casc * list (list fev) :=
    match o with
    | KInsert i x => on_level c 0 (FInsert i x)
    | KRemove i => on_level c 0 (FRemove i)
    | KSource l => on_level c 0 (FSetContainer l)
    | KContent x v => on_change c x v
    | KSet j o => on_level c j (lop_op o)
    | KAttach j =>
        match nth_error (cs_lists c) j with
        | Some s => on_level c (S j) (FSetContainer (Some (fs_items s)))
        | None => (c, map (fun _ => []) (cs_lists c))
        end
    | KDetach j => on_level c (S j) (FSetContainer None)
    end.

  (** n lists just made (243-268), not yet connected *)
  Definition cs_new (n : nat) (w : A -> C) : casc := Cs (repeat (f_new w) n) [].

  Fixpoint cs_run (c : casc) (h : list csop) : casc * list (list fev) :=
    match h with
    | [] => (c, map (fun _ => []) (cs_lists c))
    | o :: h' => let '(c1, t1) := cs_step c o in let '(c2, t2) := cs_run c1 h' in (c2, both t1 t2)
    end.
End Cascade.
Arguments casc : clear implicits.
Arguments csop : clear implicits.
Arguments lop : clear implicits.
