(** Model of FilteredListModel, /repo/nion/utils/ListModel.py:232-640, with filter, sort key, order and change blocks,
    used by any number of threads.  Every call goes on by its own steps.  A step makes at most one access to something
    the mutex does not guard: the change level, the filter, __items_sorted, the content of an item; reading the
    content of all items for a search or for sorting counts as one access, which is a simplification.  begin_change
    adds one to the change level without taking the mutex, so its reading and its writing are two steps; end_change
    takes the mutex, and reads, writes and reads again in three steps.  A change block is one call here, from begin_change
    to the end of end_change; what is done inside the block are calls of their own.
    Listeners of this model do nothing here, filters and keys do not raise, the comparison of keys is any boolean
    function, and the container reports its edits with the index they have in the master list.  Python iterates over
    a set in __update_items; the order is given with the step. *)
From Coq Require Import List ZArith Bool Arith.
From Verif Require Import PyBase Filtered_Model.
Import ListNotations.

Section FiltBlk.
  Context {A C K : Type}.
  Variable A_dec : forall a b : A, {a = b} + {a <> b}.
  Variable lt : K -> K -> bool.

  (** where a call is *)
  Inductive bpc :=
  | BIns (x : A) (i : Z)            (* __item_inserted to be called, 611 *)
  | BMatch (x : A)                  (* the level allows it, the filter not yet read, 393 *)
  | BPlace (x : A)                  (* the filter passed; to be placed, 396 *)
  | BDel (i : Z)                    (* __item_removed to be called, 630 *)
  | BEdit (x : A) (c : C)           (* the content of an item to be changed *)
  | BTell (x : A)                   (* content changed; item_changed_event to call item_content_changed, 619 *)
  | BCheck (x : A)                  (* in __updated_master_item past the level, 437 *)
  | BDrop (x : A) (again : bool)    (* __removed_master_item called from there, 422; then, if [again], 457 or 460 *)
  | BAgain (x : A)                  (* __inserted_master_item called from there, 391 *)
  | BSetFilter (f : C -> bool)      (* the filter to be assigned, 340 *)
  | BSetFlag                        (* __filter written, __items_sorted not yet, 343 *)
  | BSetKey (k : option (C -> K))   (* the sort key to be assigned, 311 *)
  | BSetRev (b : bool)              (* the order to be assigned, 325 *)
  | BReset                          (* reset_list_event of the container, 594 *)
  | BUpd                            (* __update_items to take the mutex, 499 *)
  | BBegin                          (* begin_change to be called, 274 *)
  | BBeginW (r : Z)                 (* the level was read as [r], 276 *)
  | BOpen                           (* inside the block *)
  | BEnd                            (* end_change to take the mutex, 280 *)
  | BEndW (r : Z)                   (* the level was read as [r], 281 *)
  | BEndC                           (* the level has been written, 282 *)
  | BEndU                           (* it was 0; __update_items called, 283 *)
  | BBuild (acc rest : list A)      (* in the loop of __build_items, 485 *)
  | BApply (new : list A)           (* items built, __items_sorted not yet read, 514 *)
  | BFlag                           (* __items changed, __items_sorted not yet True, 542 *)
  | BRel                            (* about to give the mutex back *)
  | BDone.

  (** what the threads share *)
  Record bsh := Bs { b_master : list A; b_items : list A; b_content : A -> C; b_filter : C -> bool;
                     b_key : option (C -> K); b_rev : bool; b_flag : bool; b_level : Z }.
  Record bst := Bst { b_sh : bsh; b_owner : option nat; b_calls : list bpc; b_log : list (fev A) }.

  (** Filter.matches with the current filter and content *)
  Definition b_passes (h : bsh) (x : A) : bool := b_filter h (b_content h x).

  Definition put_master (h : bsh) (m : list A) : bsh := Bs m (b_items h) (b_content h) (b_filter h) (b_key h) (b_rev h) (b_flag h) (b_level h).
  Definition put_items (h : bsh) (l : list A) : bsh := Bs (b_master h) l (b_content h) (b_filter h) (b_key h) (b_rev h) (b_flag h) (b_level h).
  Definition put_content (h : bsh) (w : A -> C) : bsh := Bs (b_master h) (b_items h) w (b_filter h) (b_key h) (b_rev h) (b_flag h) (b_level h).
  Definition put_filter (h : bsh) (f : C -> bool) : bsh := Bs (b_master h) (b_items h) (b_content h) f (b_key h) (b_rev h) (b_flag h) (b_level h).
  Definition put_key (h : bsh) (k : option (C -> K)) (r : bool) : bsh := Bs (b_master h) (b_items h) (b_content h) (b_filter h) k r false (b_level h).
  Definition put_flag (h : bsh) (b : bool) : bsh := Bs (b_master h) (b_items h) (b_content h) (b_filter h) (b_key h) (b_rev h) b (b_level h).
  Definition put_level (h : bsh) (n : Z) : bsh := Bs (b_master h) (b_items h) (b_content h) (b_filter h) (b_key h) (b_rev h) (b_flag h) n.

  (** 391, 422, 435, 500: self.__change_level > 0 *)
  Definition b_held (h : bsh) : bool := (0 <? b_level h)%Z.

  (** the search with the sort key, 399-400, 445-446 *)
  Definition key_pos (h : bsh) (k : C -> K) : list A -> A -> nat :=
    find_sorted (sort_op lt (b_rev h)) (fun y => k (b_content h y)).
  (** 396-403 *)
  Definition place_of (h : bsh) (x : A) : nat :=
    match b_key h with
    | Some k => key_pos h k (b_items h) x
    | None => find_unsorted A_dec (b_passes h) x (b_master h)
    end.

  (** __remove_item if the item is there, 408-413, 424-425 *)
  Definition b_drop (h : bsh) (x : A) : bsh * list (fev A) :=
    match index_of A_dec x (b_items h) with
    | Some k => (put_items h (delete_at k (b_items h)), [FBegin; FRem x k; FEnd])
    | None => (h, [])
    end.

  (** 437-466: what is to be done with an item whose content changed *)
  Definition check_next (h : bsh) (x : A) : bpc :=
    match b_passes h x, index_of A_dec x (b_items h) with
    | true, None => BAgain x                                                     (* 455, 462 *)
    | true, Some i =>
        match b_key h with
        | Some k => if key_pos h k (b_items h) x =? i then BRel else BDrop x true  (* 447-453 *)
        | None => BRel                                                           (* 459 *)
        end
    | false, Some _ => BDrop x false                                             (* 464-466 *)
    | false, None => BRel
    end.

  (** 477-480: the master items, sorted if there is a sort key *)
  Definition sorted_master (h : bsh) : list A :=
    match b_key h with
    | Some k => py_sorted (fun a b => sort_op lt (b_rev h) (k (b_content h a)) (k (b_content h b))) (b_master h)
    | None => b_master h
    end.

  (** 514-541: [new] has been built, [ord] is the order in which the set of new items is visited *)
  Definition b_apply (ord : list A -> list A) (h : bsh) (new : list A) : list A * list (fev A) :=
    let old := b_items h in
    if b_flag h then
      let '(it1, t1) := rem_loop (fun x => negb (inb A_dec x new)) old 0 0 old in
      let pos := match b_key h with
                 | Some k => key_pos h k
                 | None => find_sorted (sort_op Nat.ltb (b_rev h)) (index_in A_dec new)
                 end in
      let '(it2, t2) := ins_loop pos (ord (filter (fun x => negb (inb A_dec x old)) new)) it1 in
      (it2, FBegin :: t1 ++ t2)
    else
      let '(it2, t2) := append_loop new [] in (it2, FBegin :: pop_loop old old ++ t2).

  Definition b_move (ord : list A -> list A) (h : bsh) (p : bpc) : bsh * bpc * list (fev A) :=
    match p with
    | BIns x i =>                                                                                   (* 614-616, 390-392 *)
        if inb A_dec x (b_master h) then (h, BDone, [])      (* AssertionError, which Event.fire swallows *)
        else (put_master h (py_insert i x (b_master h)), if b_held h then BRel else BMatch x, [])
    | BMatch x => (h, if b_passes h x then BPlace x else BRel, [])                                  (* 393 *)
    | BPlace x =>                                                                                   (* 396-406 *)
        let k := place_of h x in (put_items h (insert_at k x (b_items h)), BRel, [FBegin; FIns x k; FEnd])
    | BDel i =>                                                                                     (* 633-638, 421-425 *)
        match py_get (b_master h) i, py_del (b_master h) i with
        | Ok x, Ok m =>
            if b_held h then (put_master h m, BRel, [])
            else let '(h1, tr) := b_drop (put_master h m) x in (h1, BRel, tr)
        | _, _ => (h, BDone, [])
        end
    | BEdit x c => (put_content h (update_content A_dec (b_content h) x c), BTell x, [])
    | BTell x =>                                                                                    (* 620-621, 434-436 *)
        (h, if inb A_dec x (b_master h) then if b_held h then BRel else BCheck x else BDone, [])
    | BCheck x => (h, check_next h x, [])
    | BDrop x again =>                                                                              (* 421-425 *)
        let '(h1, tr) := if b_held h then (h, []) else b_drop h x in (h1, if again then BAgain x else BRel, tr)
    | BAgain x => (h, if b_held h then BRel else BMatch x, [])                                      (* 390-392 *)
    | BSetFilter f => (put_filter h f, BSetFlag, [])                                                (* 342 *)
    | BSetFlag => (put_flag h false, BUpd, [FReset])                                                (* 343-344 *)
    | BSetKey k => (put_key h k (b_rev h), BUpd, [FReset])                                          (* 313-316 *)
    | BSetRev b => (put_key h (b_key h) b, BUpd, [FReset])                                          (* 327-330 *)
    | BReset => (put_flag h false, BDone, [FReset])                                                 (* 595-596 *)
    | BBegin => (h, BBeginW (b_level h), [])                                                        (* 276, reading *)
    | BBeginW r => (put_level h (r + 1), BOpen, [])                                                 (* 276, writing *)
    | BOpen => (h, BEnd, [])
    | BEnd => (h, BEndW (b_level h), [])                                                            (* 280-281, reading *)
    | BEndW r => (put_level h (r - 1), BEndC, [])                                                   (* 281, writing *)
    | BEndC => (h, if (b_level h =? 0)%Z then BEndU else BRel, [])                                  (* 282 *)
    | BUpd | BEndU => (h, if b_held h then BRel else BBuild [] (sorted_master h), [])               (* 499-503, 477-480 *)
    | BBuild acc (x :: rest) => (h, BBuild (if b_passes h x then acc ++ [x] else acc) rest, [])     (* 485-489 *)
    | BBuild acc [] => (h, BApply acc, [])
    | BApply new => let '(it, tr) := b_apply ord h new in (put_items h it, BFlag, tr)
    | BFlag => (put_flag h true, BRel, [FEnd])                                                      (* 542-543 *)
    | BRel => (h, BDone, [])
    | BDone => (h, BDone, [])
    end.

  (** whether a call at this place holds the mutex, or takes it by its next step *)
  Definition b_holds (p : bpc) : bool :=
    match p with
    | BMatch _ | BPlace _ | BCheck _ | BDrop _ _ | BAgain _ | BEndW _ | BEndC | BEndU | BBuild _ _ | BApply _ | BFlag | BRel => true
    | _ => false
    end.
  Definition b_acquires (p : bpc) : bool :=
    match p with BIns _ _ | BDel _ | BTell _ | BSetKey _ | BSetRev _ | BUpd | BEnd => true | _ => false end.
  (** the calls other code can make *)
  Definition b_starts (p : bpc) : bool :=
    match p with
    | BIns _ _ | BDel _ | BEdit _ _ | BSetFilter _ | BSetKey _ | BSetRev _ | BReset | BBegin => true
    | _ => false
    end.

  Fixpoint b_put (i : nat) (p : bpc) (l : list bpc) {struct l} : list bpc :=
    match l, i with
    | [], _ => []
    | _ :: l', 0 => p :: l'
    | q :: l', S i' => q :: b_put i' p l'
    end.

  Inductive bact := BCall (p : bpc)                               (* some thread makes a call *)
                  | BGo (t : nat) (ord : list A -> list A).       (* call [t] makes a step, if it can *)

  Definition b_blocked (s : bst) (p : bpc) : bool := match b_owner s with Some _ => b_acquires p | None => false end.

  Definition b_step (s : bst) (a : bact) : bst :=
    match a with
    | BCall p => if b_starts p then Bst (b_sh s) (b_owner s) (b_calls s ++ [p]) (b_log s) else s
    | BGo t ord =>
        match nth_error (b_calls s) t with
        | Some p =>
            if b_blocked s p then s else
            let '(h1, p1, tr) := b_move ord (b_sh s) p in
            Bst h1 (if b_holds p1 then Some t else if b_holds p || b_acquires p then None else b_owner s)
                (b_put t p1 (b_calls s)) (b_log s ++ tr)
        | None => s
        end
    end.
  (** a new model, 243-268 *)
  Definition b_new (w : A -> C) : bst := Bst (Bs [] [] w (fun _ => true) None false false 0) None [] [].
  Definition b_run (w : A -> C) (acts : list bact) : bst := fold_left b_step acts (b_new w).
End FiltBlk.
Arguments bpc : clear implicits.
Arguments bsh : clear implicits.
Arguments bst : clear implicits.
Arguments bact : clear implicits.
