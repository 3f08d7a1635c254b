(** Model of FilteredListModel, /repo/nion/utils/ListModel.py:232-641, sorted by keys that may raise or cannot be compared.

    A key is of a class (its Python type); keys of one class are ordered by [lt], those of different classes cannot be
    compared (TypeError), and keys of class 0 (such as None) cannot be compared at all.  (So tuples that can be compared with
    some tuples and not with others are not modelled.)  The list always has a sort key and
    stays attached to its container; filters do not raise (see FiltFail_Model.v) and there are no listeners that edit again.
    What the handlers of the container's and items' events raise is dropped by Event.fire (Event.py:103-114); what the
    setters raise goes to the caller.  The searches and loops in which nothing raises are those of Filtered_Model.v. *)
From Coq Require Import List ZArith Bool Arith.
From Verif Require Import PyBase Filtered_Model.
Import ListNotations.

Section SortFail.
  Context {A K : Type} (A_dec : forall a b : A, {a = b} + {a <> b}) (lt : K -> K -> bool) (cls : K -> nat).

  Definition comparable (a b : K) : bool := (cls a =? cls b) && negb (cls a =? 0).

  (** [s_key]: what the sort key function gives for each item now; [s_listen]: items with a listener (625) *)
  Record sstate := Ss { s_cont : list A; s_master : list A; s_listen : list A; s_items : list A; s_sorted : bool;
                        s_filter : A -> bool; s_rev : bool; s_key : A -> res K }.
  Definition sres : Type := sstate * list (fev A) * option exn.
  Definition put_items (s : sstate) (l : list A) : sstate :=
    Ss (s_cont s) (s_master s) (s_listen s) l (s_sorted s) (s_filter s) (s_rev s) (s_key s).

  (** sort_operator (399) on keys *)
  Definition compare (rev : bool) (a b : K) : res bool := if comparable a b then Ok (sort_op lt rev a b) else Err TypeError.
  (** 363-373, as [bsearch] with a comparison that may raise *)
  Fixpoint bisect (p : A -> res bool) (l : list A) (fuel low high : nat) : res nat :=
    match fuel with
    | O => Ok low
    | S fuel' =>
        if low <? high then
          let mid := (low + high) / 2 in
          match nth_error l mid with
          | Some y => match p y with
                      | Err e => Err e
                      | Ok true => bisect p l fuel' (S mid) high
                      | Ok false => bisect p l fuel' low mid
                      end
          | None => Ok low       (* unreachable: mid < high <= length l *)
          end
        else Ok low
    end.
  Definition place_for (s : sstate) (l : list A) (x : A) : res nat :=
    match s_key s x with
    | Err e => Err e
    | Ok kx => bisect (fun y => match s_key s y with Err e => Err e | Ok ky => compare (s_rev s) ky kx end) l (length l) 0 (length l)
    end.

  (** 385-406 *)
  Definition inserted_item (s : sstate) (x : A) : sres :=
    if s_filter s x then
      match place_for s (s_items s) x with
      | Err e => (s, [], Some e)
      | Ok k => (put_items s (insert_at k x (s_items s)), [FBegin; FIns x k; FEnd], None)
      end
    else (s, [], None).
  (** 408-425 *)
  Definition removed_item (s : sstate) (x : A) : sstate * list (fev A) :=
    match index_of A_dec x (s_items s) with
    | Some k => (put_items s (delete_at k (s_items s)), [FBegin; FRem x k; FEnd])
    | None => (s, [])
    end.
  (** 428-466 *)
  Definition updated_item (s : sstate) (x : A) : sres :=
    if s_filter s x then
      match place_for s (s_items s) x with
      | Err e => (s, [], Some e)
      | Ok before =>
          match index_of A_dec x (s_items s) with
          | Some i => if before =? i then (s, [], None)
                      else let '(s1, t1) := removed_item s x in
                           let '(s2, t2, e) := inserted_item s1 x in (s2, t1 ++ t2, e)
          | None => inserted_item s x
          end
      end
    else let '(s1, t1) := removed_item s x in (s1, t1, None).

  (** list.sort (481): the keys are made first; a sort compares enough pairs to connect all items, so it raises if two keys
      cannot be compared *)
  Fixpoint bad_key (s : sstate) (l : list A) : option exn :=
    match l with [] => None | x :: l' => match s_key s x with Err e => Some e | Ok _ => bad_key s l' end end.
  Definition like_key (s : sstate) (x y : A) : bool :=
    match s_key s x, s_key s y with Ok a, Ok b => comparable a b | _, _ => false end.
  Definition before_key (s : sstate) (x y : A) : bool :=
    match s_key s x, s_key s y with Ok a, Ok b => sort_op lt (s_rev s) a b | _, _ => false end.
  Definition sort_all (s : sstate) : res (list A) :=
    match bad_key s (s_master s) with
    | Some e => Err e
    | None =>
        match s_master s with
        | x :: _ :: _ => if forallb (like_key s x) (s_master s) then Ok (py_sorted (before_key s) (s_master s)) else Err TypeError
        | l => Ok l
        end
    end.
  (** 532-533; an exception would leave the loop *)
  Fixpoint insert_all (s : sstate) (xs : list A) (items : list A) : list A * list (fev A) * option exn :=
    match xs with
    | [] => (items, [], None)
    | x :: xs' =>
        match place_for s items x with
        | Err e => (items, [], Some e)
        | Ok k => let '(it, tr, e) := insert_all s xs' (insert_at k x items) in (it, [FBegin; FIns x k; FEnd] ++ tr, e)
        end
    end.
  (** 469-549; [ord] is the order in which the set of new items is walked (532) *)
  Definition update_all (ord : list A -> list A) (s : sstate) : sres :=
    if negb (nodupb A_dec (s_master s)) then (s, [], Some AssertionError)
    else match sort_all s with
    | Err e => (s, [], Some e)
    | Ok l =>
        let old := s_items s in
        let new := filter (s_filter s) l in
        if s_sorted s then
          let '(it1, t1) := rem_loop (fun x => negb (inb A_dec x new)) old 0 0 old in
          let '(it2, t2, e) := insert_all s (ord (filter (fun x => negb (inb A_dec x old)) new)) it1 in
          match e with
          | None => (Ss (s_cont s) (s_master s) (s_listen s) it2 true (s_filter s) (s_rev s) (s_key s), FBegin :: t1 ++ t2 ++ [FEnd], None)
          | Some x => (put_items s it2, FBegin :: t1 ++ t2, Some x)
          end
        else
          let '(it2, t2) := append_loop new [] in
          (Ss (s_cont s) (s_master s) (s_listen s) it2 true (s_filter s) (s_rev s) (s_key s), FBegin :: pop_loop old old ++ t2 ++ [FEnd], None)
    end.

  (** 611-627 and 630-641; the selections are told last *)
  Definition heard_insert (s : sstate) (x : A) (i : Z) : sres :=
    if inb A_dec x (s_master s) then (s, [], Some AssertionError)
    else
      let '(s1, t, e) := inserted_item (Ss (s_cont s) (py_insert i x (s_master s)) (x :: s_listen s) (s_items s) (s_sorted s) (s_filter s) (s_rev s) (s_key s)) x in
      match e with None => (s1, t ++ [FSelIns i], None) | Some e => (s1, t, Some e) end.
  Definition heard_remove (s : sstate) (x : A) (i : Z) : sres :=
    match py_del (s_master s) i with
    | Err e => (s, [], Some e)
    | Ok m =>
        if inb A_dec x (s_listen s) then
          let '(s1, t) := removed_item (Ss (s_cont s) m (remove A_dec x (s_listen s)) (s_items s) (s_sorted s) (s_filter s) (s_rev s) (s_key s)) x in
          (s1, t ++ [FSelRem i], None)
        else (Ss (s_cont s) m (s_listen s) (s_items s) (s_sorted s) (s_filter s) (s_rev s) (s_key s), [], Some KeyError)
    end.

  Inductive sop :=
  | SInsert (i : Z) (x : A) | SRemove (i : Z)            (* on the container *)
  | SChange (x : A) (k : res K) (m : bool)               (* the item changes and fires item_changed_event; its key is then [k], and
                                                            the filter accepts it if [m] *)
  | SFilter (f : A -> bool)                              (* .filter = , 340-345 *)
  | SKey (key : A -> res K) | SReverse (b : bool)        (* .sort_key = , .sort_reverse = , 311-331 *)
  | SMark (ord : list A -> list A).                      (* mark_changed, 302-303 *)

  Definition with_key (s : sstate) (x : A) (k : res K) (m : bool) : sstate :=
    Ss (s_cont s) (s_master s) (s_listen s) (s_items s) (s_sorted s) (fun y => if A_dec y x then m else s_filter s y) (s_rev s)
       (fun y => if A_dec y x then k else s_key s y).
  Definition settle (s : sstate) (f : A -> bool) (b : bool) (key : A -> res K) : sres :=
    let '(s1, t, e) := update_all (fun l => l) (Ss (s_cont s) (s_master s) (s_listen s) (s_items s) false f b key) in (s1, FReset :: t, e).
  (** what the caller sees: dropped exceptions are not among the results *)
  Definition dropped (r : sres) : sres := let '(s, t, _) := r in (s, t, None).
  Definition s_step (s : sstate) (o : sop) : sres :=
    match o with
    | SInsert i x => dropped (heard_insert (Ss (py_insert i x (s_cont s)) (s_master s) (s_listen s) (s_items s) (s_sorted s) (s_filter s) (s_rev s) (s_key s)) x i)
    | SRemove i =>
        match py_get (s_cont s) i, py_del (s_cont s) i with
        | Ok x, Ok l => dropped (heard_remove (Ss l (s_master s) (s_listen s) (s_items s) (s_sorted s) (s_filter s) (s_rev s) (s_key s)) x i)
        | _, _ => (s, [], Some IndexError)
        end
    | SChange x k m =>                                                                    (* 619-623 *)
        let s1 := with_key s x k m in
        if inb A_dec x (s_listen s) && inb A_dec x (s_master s) then dropped (updated_item s1 x) else (s1, [], None)
    | SFilter f => settle s f (s_rev s) (s_key s)
    | SKey key => settle s (s_filter s) (s_rev s) key
    | SReverse b => settle s (s_filter s) b (s_key s)
    | SMark ord => update_all ord s
    end.
  (** attached to an empty container *)
  Definition s_new (f : A -> bool) (b : bool) (key : A -> res K) : sstate := Ss [] [] [] [] false f b key.
  Fixpoint s_run (s : sstate) (h : list sop) : sstate * list (fev A) * list (option exn) :=
    match h with
    | [] => (s, [], [])
    | o :: h' => let '(s1, t1, e) := s_step s o in let '(s2, t2, es) := s_run s1 h' in (s2, t1 ++ t2, e :: es)
    end.
End SortFail.
Arguments sstate : clear implicits.
Arguments sop : clear implicits.
