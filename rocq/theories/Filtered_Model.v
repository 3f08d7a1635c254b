(** Model of FilteredListModel, /repo/nion/utils/ListModel.py:232-640.
    Items are values of a type with decidable equality (object identity); [fs_content] is the current
    content of each item object, on which filter and sort key depend.  The container is a ListModel, given
    by its item list; a change of the container runs the handlers of this class exactly as Event.fire does,
    so an exception in a handler is swallowed.  Python iterates over a set in [update_items]; the order is
    an oracle carried by the operation.  Not modelled: threads, filters and keys that raise, listeners that
    change the model from within a notification, keys of notifications. *)
From Coq Require Import List ZArith Bool Arith.
From Verif Require Import PyBase.
Import ListNotations.

Section Filtered.
  Context {A C K : Type}.
  Variable A_dec : forall a b : A, {a = b} + {a <> b}.
  Variable lt : K -> K -> bool.        (* Python's < on sort keys; > is [lt] with arguments swapped *)

  Definition inb (x : A) (l : list A) : bool := if in_dec A_dec x l then true else false.

  (** list.index *)
  Fixpoint index_of (x : A) (l : list A) : option nat :=
    match l with
    | [] => None
    | y :: l' => if A_dec y x then Some 0 else option_map S (index_of x l')
    end.

  Fixpoint nodupb (l : list A) : bool :=
    match l with [] => true | x :: l' => negb (inb x l') && nodupb l' end.

  Record fstate := Fs {
    fs_cont : option (list A);      (* the container's items *)
    fs_conn : bool;                 (* the container listeners are set *)
    fs_master : list A;
    fs_listen : list A;             (* keys of __item_changed_event_listeners *)
    fs_items : list A;
    fs_sorted : bool;
    fs_filter : C -> bool;
    fs_key : option (C -> K);
    fs_rev : bool;
    fs_level : Z;
    fs_content : A -> C
  }.

  Definition with_items (s : fstate) (items : list A) : fstate :=
    Fs (fs_cont s) (fs_conn s) (fs_master s) (fs_listen s) items (fs_sorted s) (fs_filter s) (fs_key s) (fs_rev s) (fs_level s) (fs_content s).
  Definition with_sorted (s : fstate) (b : bool) : fstate :=
    Fs (fs_cont s) (fs_conn s) (fs_master s) (fs_listen s) (fs_items s) b (fs_filter s) (fs_key s) (fs_rev s) (fs_level s) (fs_content s).
  Definition with_master (s : fstate) (master listen : list A) : fstate :=
    Fs (fs_cont s) (fs_conn s) master listen (fs_items s) (fs_sorted s) (fs_filter s) (fs_key s) (fs_rev s) (fs_level s) (fs_content s).
  Definition with_level (s : fstate) (n : Z) : fstate :=
    Fs (fs_cont s) (fs_conn s) (fs_master s) (fs_listen s) (fs_items s) (fs_sorted s) (fs_filter s) (fs_key s) (fs_rev s) n (fs_content s).
  Definition with_cont (s : fstate) (c : option (list A)) (conn : bool) : fstate :=
    Fs c conn (fs_master s) (fs_listen s) (fs_items s) (fs_sorted s) (fs_filter s) (fs_key s) (fs_rev s) (fs_level s) (fs_content s).
  Definition with_content (s : fstate) (w : A -> C) : fstate :=
    Fs (fs_cont s) (fs_conn s) (fs_master s) (fs_listen s) (fs_items s) (fs_sorted s) (fs_filter s) (fs_key s) (fs_rev s) (fs_level s) w.

  (** begin_changes_event, end_changes_event, reset_list_event, item_inserted_event(item, before_index),
      item_removed_event(item, index), and the calls selection.insert_index / remove_index *)
  Inductive fev := FBegin | FEnd | FReset | FIns (x : A) (k : nat) | FRem (x : A) (k : nat)
                 | FSelIns (i : Z) | FSelRem (i : Z).

  Definition fres : Type := fstate * list fev * option exn.

  Definition matching (s : fstate) (x : A) : bool := fs_filter s (fs_content s x).

  (** sort_operator, 399: operator.gt if sort_reverse else operator.lt *)
  Definition sort_op {X} (ltx : X -> X -> bool) (rev : bool) (a b : X) : bool := if rev then ltx b a else ltx a b.

  (** 363-373; [p y] is sort_operator(sort_key(y), sort_key(item)); the loop needs at most high - low rounds *)
  Fixpoint bsearch (p : A -> bool) (l : list A) (fuel low high : nat) : nat :=
    match fuel with
    | O => low
    | S fuel' =>
        if low <? high then
          let mid := (low + high) / 2 in
          match nth_error l mid with
          | Some y => if p y then bsearch p l fuel' (S mid) high else bsearch p l fuel' low mid
          | None => low       (* unreachable: mid < high <= length l *)
          end
        else low
    end.
  Definition find_sorted {X} (op : X -> X -> bool) (key : A -> X) (l : list A) (x : A) : nat :=
    bsearch (fun y => op (key y) (key x)) l (length l) 0 (length l).

  (** 375-382 *)
  Fixpoint find_unsorted (m : A -> bool) (x : A) (master : list A) : nat :=
    match master with
    | [] => 0
    | y :: l => if A_dec y x then 0 else (if m y then 1 else 0) + find_unsorted m x l
    end.

  (** 396-406, given the position computed by the search *)
  Definition do_insert (s : fstate) (x : A) (k : nat) : fstate * list fev :=
    (with_items s (insert_at k x (fs_items s)), [FBegin; FIns x k; FEnd]).

  Definition insert_pos (s : fstate) (x : A) : nat :=
    match fs_key s with
    | Some k => find_sorted (sort_op lt (fs_rev s)) (fun y => k (fs_content s y)) (fs_items s) x
    | None => find_unsorted (matching s) x (fs_master s)
    end.

  (** 385-394 *)
  Definition inserted_master (s : fstate) (x : A) : fstate * list fev :=
    if (0 <? fs_level s)%Z then (s, [])
    else if matching s x then do_insert s x (insert_pos s x) else (s, []).

  (** 408-413, 416-425 *)
  Definition removed_master (s : fstate) (x : A) : fstate * list fev :=
    if (0 <? fs_level s)%Z then (s, [])
    else match index_of x (fs_items s) with
         | Some k => (with_items s (delete_at k (fs_items s)), [FBegin; FRem x k; FEnd])
         | None => (s, [])
         end.

  Definition remove_then_insert (s : fstate) (x : A) : fstate * list fev :=
    let '(s1, t1) := removed_master s x in
    let '(s2, t2) := inserted_master s1 x in (s2, t1 ++ t2).

  (** 428-466 *)
  Definition updated_master (s : fstate) (x : A) : fstate * list fev :=
    if (0 <? fs_level s)%Z then (s, [])
    else if matching s x then
      match fs_key s with
      | Some k =>
          let before := find_sorted (sort_op lt (fs_rev s)) (fun y => k (fs_content s y)) (fs_items s) x in
          match index_of x (fs_items s) with
          | Some i => if before <? i then remove_then_insert s x
                      else if i <? before then remove_then_insert s x
                      else (s, [])
          | None => inserted_master s x
          end
      | None => if inb x (fs_items s) then (s, []) else inserted_master s x
      end
    else removed_master s x.

  (** 469-490 *)
  Definition build_items (s : fstate) : list A :=
    filter (matching s)
      (match fs_key s with
       | Some k => py_sorted (fun a b => sort_op lt (fs_rev s) (k (fs_content s a)) (k (fs_content s b))) (fs_master s)
       | None => fs_master s
       end).

  (** 525-530 *)
  Fixpoint rem_loop (gone : A -> bool) (rest : list A) (idx removed : nat) (items : list A) : list A * list fev :=
    match rest with
    | [] => (items, [])
    | x :: rest' =>
        if gone x then
          let k := idx - removed in
          let '(it, tr) := rem_loop gone rest' (S idx) (S removed) (delete_at k items) in (it, FRem x k :: tr)
        else rem_loop gone rest' (S idx) removed items
    end.

  (** 532-533, [pos] is the search of __insert_item with the chosen sort key *)
  Fixpoint ins_loop (pos : list A -> A -> nat) (xs : list A) (items : list A) : list A * list fev :=
    match xs with
    | [] => (items, [])
    | x :: xs' =>
        let k := pos items x in
        let '(it, tr) := ins_loop pos xs' (insert_at k x items) in (it, [FBegin; FIns x k; FEnd] ++ tr)
    end.

  (** 536-539: pop the last item, notify with the items in forward order *)
  Fixpoint pop_loop (old : list A) (items : list A) : list fev :=
    match old with
    | [] => []
    | x :: old' => let items' := removelast items in FRem x (length items') :: pop_loop old' items'
    end.
  (** 540-544 *)
  Fixpoint append_loop (new : list A) (items : list A) : list A * list fev :=
    match new with
    | [] => (items, [])
    | x :: new' => let '(it, tr) := append_loop new' (items ++ [x]) in (it, FIns x (length items) :: tr)
    end.

  (** position of an item in the new list: [indexes[x]], 517-518; the default is not reachable *)
  Definition index_in (l : list A) (x : A) : nat := match index_of x l with Some i => i | None => length l end.

  (** 493-546 *)
  Definition update_items (ord : list A -> list A) (s : fstate) : fres :=
    if (0 <? fs_level s)%Z then (s, [], None)
    else if negb (nodupb (fs_master s)) then (s, [], Some AssertionError)
    else
      let old := fs_items s in
      let new := build_items s in
      let '(items, tr) :=
        if fs_sorted s then
          let '(it1, t1) := rem_loop (fun x => negb (inb x new)) old 0 0 old in
          let pos := match fs_key s with
                     | Some k => find_sorted (sort_op lt (fs_rev s)) (fun y => k (fs_content s y))
                     | None => find_sorted (sort_op Nat.ltb (fs_rev s)) (index_in new)
                     end in
          let '(it2, t2) := ins_loop pos (ord (filter (fun x => negb (inb x old)) new)) it1 in
          (it2, t1 ++ t2)
        else
          let t1 := pop_loop old old in
          let '(it2, t2) := append_loop new [] in
          (it2, t1 ++ t2) in
      (with_sorted (with_items s items) true, FBegin :: tr ++ [FEnd], None).

  (** 611-627 *)
  Definition item_inserted (s : fstate) (x : A) (i : Z) : fres :=
    if inb x (fs_master s) then (s, [], Some AssertionError)
    else
      let s1 := with_master s (py_insert i x (fs_master s)) (x :: fs_listen s) in
      let '(s2, tr) := inserted_master s1 x in
      (s2, tr ++ [FSelIns i], None).

  (** 630-640 *)
  Definition item_removed (s : fstate) (x : A) (i : Z) : fres :=
    match py_del (fs_master s) i with
    | Err e => (s, [], Some e)
    | Ok m =>
        if inb x (fs_listen s) then
          let s1 := with_master s m (remove A_dec x (fs_listen s)) in
          let '(s2, tr) := removed_master s1 x in
          (s2, tr ++ [FSelRem i], None)
        else (with_master s m (fs_listen s), [], Some KeyError)
    end.

  (** the two loops of the container setter, 572-573 and 599-600; an exception leaves the loop *)
  Fixpoint remove_loop (xs : list A) (s : fstate) : fres :=
    match xs with
    | [] => (s, [], None)
    | x :: xs' =>
        match item_removed s x (Z.of_nat (length (fs_master s)) - 1) with
        | (s1, t1, Some e) => (s1, t1, Some e)
        | (s1, t1, None) => let '(s2, t2, e) := remove_loop xs' s1 in (s2, t1 ++ t2, e)
        end
    end.
  Fixpoint insert_loop (xs : list A) (idx : nat) (s : fstate) : fres :=
    match xs with
    | [] => (s, [], None)
    | x :: xs' =>
        match item_inserted s x (Z.of_nat idx) with
        | (s1, t1, Some e) => (s1, t1, Some e)
        | (s1, t1, None) => let '(s2, t2, e) := insert_loop xs' (S idx) s1 in (s2, t1 ++ t2, e)
        end
    end.

  (** 574-600 *)
  Definition attach (s : fstate) (c : option (list A)) : fres :=
    match c with
    | None => (with_sorted (with_cont s None false) false, [FReset], None)
    | Some l =>
        let '(s2, t2, e) := insert_loop l 0 (with_sorted (with_cont s (Some l) true) false) in
        (s2, FReset :: t2, e)
    end.

  (** 556-600 *)
  Definition set_container (s : fstate) (c : option (list A)) : fres :=
    match fs_cont s with
    | None => attach s c
    | Some old =>
        if fs_conn s then
          match remove_loop (rev old) (with_cont s (Some old) false) with
          | (s1, t1, Some e) => (s1, t1, Some e)
          | (s1, t1, None) => let '(s2, t2, e) := attach s1 c in (s2, t1 ++ t2, e)
          end
        else (s, [], Some AttributeError)     (* listeners are None after a failed change *)
    end.

  Inductive fop :=
  | FInsert (i : Z) (x : A) | FRemove (i : Z)            (* on the container *)
  | FContent (x : A) (c : C)                             (* item object changes and fires item_changed_event *)
  | FSetFilter (f : C -> bool) | FSetKey (k : option (C -> K)) | FSetRev (b : bool)
  | FBeginChange | FEndChange (ord : list A -> list A)
  | FSetContainer (c : option (list A))
  | FContReset | FContBegin | FContEnd.                  (* events of a container that is itself such a list *)

  Definition update_content (w : A -> C) (x : A) (c : C) : A -> C := fun y => if A_dec y x then c else w y.

  Definition with_settings (s : fstate) (f : C -> bool) (k : option (C -> K)) (r : bool) : fstate :=
    Fs (fs_cont s) (fs_conn s) (fs_master s) (fs_listen s) (fs_items s) false f k r (fs_level s) (fs_content s).

  Definition reset_and_update (s : fstate) : fres :=
    let '(s1, t, e) := update_items (fun l => l) s in (s1, FReset :: t, e).

  Definition f_step (s : fstate) (o : fop) : fres :=
    match o with
    | FInsert i x =>
        match fs_cont s with
        | None => (s, [], None)
        | Some l => let s1 := with_cont s (Some (py_insert i x l)) (fs_conn s) in
                    if fs_conn s then item_inserted s1 x i else (s1, [], None)
        end
    | FRemove i =>
        match fs_cont s with
        | None => (s, [], None)
        | Some l =>
            match py_get l i, py_del l i with
            | Ok x, Ok l' => let s1 := with_cont s (Some l') (fs_conn s) in
                             if fs_conn s then item_removed s1 x i else (s1, [], None)
            | _, _ => (s, [], Some IndexError)
            end
        end
    | FContent x c =>                                                       (* 619-624 *)
        let s1 := with_content s (update_content (fs_content s) x c) in
        if inb x (fs_listen s) then
          if inb x (fs_master s) then let '(s2, t) := updated_master s1 x in (s2, t, None)
          else (s1, [], Some AssertionError)
        else (s1, [], None)
    | FSetFilter f => reset_and_update (with_settings s f (fs_key s) (fs_rev s))          (* 340-345 *)
    | FSetKey k => reset_and_update (with_settings s (fs_filter s) k (fs_rev s))          (* 311-317 *)
    | FSetRev b => reset_and_update (with_settings s (fs_filter s) (fs_key s) b)          (* 325-331 *)
    | FBeginChange => (with_level s (fs_level s + 1), [], None)                           (* 274-276 *)
    | FEndChange ord =>                                                                   (* 278-283 *)
        let s1 := with_level s (fs_level s - 1) in
        if (fs_level s1 =? 0)%Z then update_items ord s1 else (s1, [], None)
    | FSetContainer c => set_container s c
    | FContReset => (with_sorted s false, [FReset], None)                                 (* 594-596 *)
    | FContBegin => (s, [FBegin], None)                                                   (* 582-584 *)
    | FContEnd => (s, [FEnd], None)                                                       (* 586-588 *)
    end.

  Definition f_new (w : A -> C) : fstate :=
    Fs None false [] [] [] false (fun _ => true) None false 0 w.                          (* 243-268 *)

  Fixpoint f_run (s : fstate) (h : list fop) : fstate * list fev :=
    match h with
    | [] => (s, [])
    | o :: h' => let '(s1, t1, _) := f_step s o in let '(s2, t2) := f_run s1 h' in (s2, t1 ++ t2)
    end.
End Filtered.
Arguments fev : clear implicits.
Arguments fstate : clear implicits.
Arguments fop : clear implicits.
