(** Model of FilteredListModel, /repo/nion/utils/ListModel.py:232-640, without sort key and without change blocks, used
    by any number of threads.  Every call goes on by its own steps; a step is the code between two places where
    another thread can come in: taking the mutex, reading __filter for an item, reading or writing __items_sorted,
    writing the filter or the content of an item.  Code holding the mutex that touches only what the mutex guards is
    one step.  Items are values of a type with decidable equality, and a filter is a predicate on their content.
    Listeners of this model do nothing here, and the container reports its edits with the index they have in the
    master list.  Python iterates over a set in __update_items; the order is given with the step. *)
From Coq Require Import List ZArith Bool Arith.
From Verif Require Import PyBase Filtered_Model.
Import ListNotations.

Section FiltThr.
  Context {A C : Type}.
  Variable A_dec : forall a b : A, {a = b} + {a <> b}.

  (** where a call is *)
  Inductive tpc :=
  | TIns (x : A) (i : Z)            (* __item_inserted to be called, 611 *)
  | TMatch (x : A)                  (* holding the mutex, before the filter is read for [x], 393 *)
  | TPlace (x : A)                  (* the filter passed; before it is read again for the index, 402 *)
  | TDel (i : Z)                    (* __item_removed to be called, 630 *)
  | TEdit (x : A) (c : C)           (* the content of an item to be changed *)
  | TTell (x : A)                   (* content changed; item_changed_event to call item_content_changed, 619 *)
  | TCheck (x : A)                  (* in __updated_master_item, before the filter is read, 437 *)
  | TSetFilter (f : C -> bool)      (* the filter to be assigned, 340 *)
  | TSetFlag                        (* __filter written, __items_sorted not yet, 343 *)
  | TSortKey                        (* the sort key to be set to None, or the order to False, 311, 325 *)
  | TReset                          (* reset_list_event of the container, 594 *)
  | TUpd                            (* __update_items to take the mutex, 499 *)
  | TBuild (acc rest : list A)      (* in the loop of __build_items, 485 *)
  | TApply (new : list A)           (* items built, __items_sorted not yet read, 514 *)
  | TFlag                           (* __items changed, __items_sorted not yet True, 542 *)
  | TRel                            (* about to give the mutex back *)
  | TDone.

  (** what the threads share *)
  Record shared := Sh { h_master : list A; h_items : list A; h_content : A -> C; h_filter : C -> bool; h_flag : bool }.
  Record tst := Ts { t_sh : shared; t_owner : option nat; t_calls : list tpc; t_log : list (fev A) }.

  (** Filter.matches with the current filter and content *)
  Definition passes (h : shared) (x : A) : bool := h_filter h (h_content h x).

  Definition set_items (h : shared) (items : list A) : shared := Sh (h_master h) items (h_content h) (h_filter h) (h_flag h).
  Definition set_flag (h : shared) (b : bool) : shared := Sh (h_master h) (h_items h) (h_content h) (h_filter h) b.

  (** __remove_item if the item is there, 408-413, 423-425 *)
  Definition drop_item (h : shared) (x : A) : shared * list (fev A) :=
    match index_of A_dec x (h_items h) with
    | Some k => (set_items h (delete_at k (h_items h)), [FBegin; FRem x k; FEnd])
    | None => (h, [])
    end.

  (** 514-541: [new] has been built, [ord] is the order in which the set of new items is visited *)
  Definition apply_items (ord : list A -> list A) (h : shared) (new : list A) : list A * list (fev A) :=
    let old := h_items h in
    if h_flag h then
      let '(it1, t1) := rem_loop (fun x => negb (inb A_dec x new)) old 0 0 old in
      let '(it2, t2) := ins_loop (find_sorted Nat.ltb (index_in A_dec new))
                                 (ord (filter (fun x => negb (inb A_dec x old)) new)) it1 in
      (it2, FBegin :: t1 ++ t2)
    else
      let '(it2, t2) := append_loop new [] in (it2, FBegin :: pop_loop old old ++ t2).

  Definition t_move (ord : list A -> list A) (h : shared) (p : tpc) : shared * tpc * list (fev A) :=
    match p with
    | TIns x i =>                                                                                   (* 614-616 *)
        if inb A_dec x (h_master h) then (h, TDone, [])      (* AssertionError, which Event.fire swallows *)
        else (Sh (py_insert i x (h_master h)) (h_items h) (h_content h) (h_filter h) (h_flag h), TMatch x, [])
    | TMatch x => (h, if passes h x then TPlace x else TRel, [])                                    (* 393 *)
    | TPlace x =>                                                                                   (* 402-406 *)
        let k := find_unsorted A_dec (passes h) x (h_master h) in
        (set_items h (insert_at k x (h_items h)), TRel, [FBegin; FIns x k; FEnd])
    | TDel i =>                                                                                     (* 633-638 *)
        match py_get (h_master h) i, py_del (h_master h) i with
        | Ok x, Ok m =>
            let '(h1, tr) := drop_item (Sh m (h_items h) (h_content h) (h_filter h) (h_flag h)) x in (h1, TRel, tr)
        | _, _ => (h, TDone, [])
        end
    | TEdit x c => (Sh (h_master h) (h_items h) (update_content A_dec (h_content h) x c) (h_filter h) (h_flag h), TTell x, [])
    | TTell x => (h, if inb A_dec x (h_master h) then TCheck x else TDone, [])      (* 620-621, or no listener left *)
    | TCheck x =>                                                                                   (* 437-466 *)
        if passes h x then (h, if inb A_dec x (h_items h) then TRel else TMatch x, [])
        else let '(h1, tr) := drop_item h x in (h1, TRel, tr)
    | TSetFilter f => (Sh (h_master h) (h_items h) (h_content h) f (h_flag h), TSetFlag, [])        (* 342 *)
    | TSetFlag => (set_flag h false, TUpd, [FReset])                                                (* 343-344 *)
    | TSortKey => (set_flag h false, TUpd, [FReset])                                                (* 313-316, 327-330 *)
    | TReset => (set_flag h false, TDone, [FReset])                                                 (* 595-596 *)
    | TUpd => (h, TBuild [] (h_master h), [])                                                       (* 499-503, 477 *)
    | TBuild acc (x :: rest) => (h, TBuild (if passes h x then acc ++ [x] else acc) rest, [])       (* 485-489 *)
    | TBuild acc [] => (h, TApply acc, [])
    | TApply new => let '(it, tr) := apply_items ord h new in (set_items h it, TFlag, tr)
    | TFlag => (set_flag h true, TRel, [FEnd])                                                      (* 542-543 *)
    | TRel => (h, TDone, [])
    | TDone => (h, TDone, [])
    end.

  (** whether a call at this place holds the mutex, or takes it by its next step *)
  Definition holds (p : tpc) : bool :=
    match p with TMatch _ | TPlace _ | TCheck _ | TBuild _ _ | TApply _ | TFlag | TRel => true | _ => false end.
  Definition acquires (p : tpc) : bool :=
    match p with TIns _ _ | TDel _ | TTell _ | TSortKey | TUpd => true | _ => false end.
  (** the calls other code can make *)
  Definition starts (p : tpc) : bool :=
    match p with TIns _ _ | TDel _ | TEdit _ _ | TSetFilter _ | TSortKey | TReset => true | _ => false end.

  Fixpoint t_put (i : nat) (p : tpc) (l : list tpc) {struct l} : list tpc :=
    match l, i with
    | [], _ => []
    | _ :: l', 0 => p :: l'
    | q :: l', S i' => q :: t_put i' p l'
    end.

  Inductive tact := TCall (p : tpc)                               (* some thread makes a call *)
                  | TGo (t : nat) (ord : list A -> list A).       (* call [t] makes a step, if it can *)

  Definition blocked (s : tst) (p : tpc) : bool := match t_owner s with Some _ => acquires p | None => false end.

  Definition t_step (s : tst) (a : tact) : tst :=
    match a with
    | TCall p => if starts p then Ts (t_sh s) (t_owner s) (t_calls s ++ [p]) (t_log s) else s
    | TGo t ord =>
        match nth_error (t_calls s) t with
        | Some p =>
            if blocked s p then s else
            let '(h1, p1, tr) := t_move ord (t_sh s) p in
            Ts h1 (if holds p1 then Some t else if holds p || acquires p then None else t_owner s)
               (t_put t p1 (t_calls s)) (t_log s ++ tr)
        | None => s
        end
    end.
  (** a new model, 243-268 *)
  Definition t_new (w : A -> C) : tst := Ts (Sh [] [] w (fun _ => true) false) None [] [].
  Definition t_run (w : A -> C) (acts : list tact) : tst := fold_left t_step acts (t_new w).
End FiltThr.
Arguments tpc : clear implicits.
Arguments shared : clear implicits.
Arguments tst : clear implicits.
Arguments tact : clear implicits.
