(** Model of FlattenedListModel, /repo/nion/utils/ListModel.py:793-916.
    [M] are the master items, [X] the child items.  Each master object has its own list of children
    ([fl_kids]); the model keeps its own copy ([fl_children], an association map with default [], so that a removal
    of a child of an unknown master raises IndexError here and KeyError in the code).
    Not modelled: threads, listeners that change the model from within a notification. *)
From Coq Require Import List ZArith Bool Arith.
From Verif Require Import PyBase.
Import ListNotations.

Section Flattened.
  Context {M X : Type} (M_dec : forall a b : M, {a = b} + {a <> b}).

  Record flstate := Fl {
    fl_cont : option (list M);        (* items of the container *)
    fl_kids : M -> list X;            (* the children lists of the master objects *)
    fl_master : list M;               (* self.__master_items *)
    fl_children : M -> list X;        (* self.__children, default list() *)
    fl_items : list X;                (* self.__items *)
    fl_listen : list M                (* keys of the child listener dicts *)
  }.

  (** item_inserted / item_removed notifications and selection calls *)
  Inductive flev := LfIns (x : X) (i : Z) | LfRem (x : X) (i : Z) | LfSelIns (i : Z) | LfSelRem (i : Z).
  Definition flres : Type := flstate * list flev * option exn.

  Definition upd (f : M -> list X) (m : M) (l : list X) : M -> list X := fun m' => if M_dec m' m then l else f m'.

  (** 892-896 and 906-910: number of flattened items before those of [m] *)
  Fixpoint fl_offset (ch : M -> list X) (m : M) (ms : list M) : nat :=
    match ms with
    | [] => 0
    | m' :: ms' => if M_dec m' m then 0 else length (ch m') + fl_offset ch m ms'
    end.

  (** 890-902; the selections get the child index *)
  Definition child_inserted (s : flstate) (m : M) (x : X) (i : Z) : flstate * list flev :=
    let k := (Z.of_nat (fl_offset (fl_children s) m (fl_master s)) + i)%Z in
    (Fl (fl_cont s) (fl_kids s) (fl_master s) (upd (fl_children s) m (py_insert i x (fl_children s m)))
        (py_insert k x (fl_items s)) (fl_listen s),
     [LfIns x k; LfSelIns i]).

  (** 904-916 *)
  Definition child_removed (s : flstate) (m : M) (x : X) (i : Z) : flres :=
    let k := (Z.of_nat (fl_offset (fl_children s) m (fl_master s)) + i)%Z in
    match py_del (fl_children s m) i with
    | Err e => (s, [], Some e)
    | Ok l =>
        let s1 := Fl (fl_cont s) (fl_kids s) (fl_master s) (upd (fl_children s) m l) (fl_items s) (fl_listen s) in
        match py_del (fl_items s) k with
        | Err e => (s1, [], Some e)
        | Ok items => (Fl (fl_cont s) (fl_kids s) (fl_master s) (upd (fl_children s) m l) items (fl_listen s),
                       [LfRem x k; LfSelRem k], None)
        end
    end.

  Fixpoint ch_insert_loop (m : M) (xs : list X) (idx : nat) (s : flstate) : flstate * list flev :=
    match xs with
    | [] => (s, [])
    | x :: xs' =>
        let '(s1, t1) := child_inserted s m x (Z.of_nat idx) in
        let '(s2, t2) := ch_insert_loop m xs' (S idx) s1 in (s2, t1 ++ t2)
    end.
  (** [xs] is the reversed children list, [length xs' ] the index of its head *)
  Fixpoint ch_remove_loop (m : M) (xs : list X) (s : flstate) : flres :=
    match xs with
    | [] => (s, [], None)
    | x :: xs' =>
        match child_removed s m x (Z.of_nat (length xs')) with
        | (s1, t1, Some e) => (s1, t1, Some e)
        | (s1, t1, None) => let '(s2, t2, e) := ch_remove_loop m xs' s1 in (s2, t1 ++ t2, e)
        end
    end.

  Definition fl_in (m : M) (l : list M) : bool := if in_dec M_dec m l then true else false.

  (** 861-873 *)
  Definition master_inserted (s : flstate) (m : M) (i : Z) : flres :=
    if fl_in m (fl_master s) then (s, [], Some AssertionError)
    else
      let s1 := Fl (fl_cont s) (fl_kids s) (py_insert i m (fl_master s)) (fl_children s) (fl_items s) (m :: fl_listen s) in
      let '(s2, t2) := ch_insert_loop m (fl_kids s m) 0 s1 in (s2, t2, None).

  (** 876-888 *)
  Definition master_removed (s : flstate) (m : M) (i : Z) : flres :=
    match ch_remove_loop m (rev (fl_kids s m)) s with
    | (s1, t1, Some e) => (s1, t1, Some e)
    | (s1, t1, None) =>
        match py_del (fl_master s1) i with
        | Err e => (s1, t1, Some e)
        | Ok ms =>
            let s2 := Fl (fl_cont s1) (fl_kids s1) ms (fl_children s1) (fl_items s1) (remove M_dec m (fl_listen s1)) in
            if fl_in m (fl_listen s1) then (s2, t1, if fl_in m ms then Some AssertionError else None)
            else (s2, t1, Some KeyError)
        end
    end.

  Fixpoint fl_remove_loop (ms : list M) (s : flstate) : flres :=
    match ms with
    | [] => (s, [], None)
    | m :: ms' =>
        match master_removed s m (Z.of_nat (length (fl_master s)) - 1) with
        | (s1, t1, Some e) => (s1, t1, Some e)
        | (s1, t1, None) => let '(s2, t2, e) := fl_remove_loop ms' s1 in (s2, t1 ++ t2, e)
        end
    end.
  Fixpoint fl_insert_loop (ms : list M) (idx : nat) (s : flstate) : flres :=
    match ms with
    | [] => (s, [], None)
    | m :: ms' =>
        match master_inserted s m (Z.of_nat idx) with
        | (s1, t1, Some e) => (s1, t1, Some e)
        | (s1, t1, None) => let '(s2, t2, e) := fl_insert_loop ms' (S idx) s1 in (s2, t1 ++ t2, e)
        end
    end.

  Definition with_fl_cont (s : flstate) (c : option (list M)) : flstate :=
    Fl c (fl_kids s) (fl_master s) (fl_children s) (fl_items s) (fl_listen s).
  Definition with_kids (s : flstate) (f : M -> list X) : flstate :=
    Fl (fl_cont s) f (fl_master s) (fl_children s) (fl_items s) (fl_listen s).

  (** 833-850 *)
  Definition fl_set_container (s : flstate) (c : option (list M)) : flres :=
    match (match fl_cont s with None => (s, [], None) | Some old => fl_remove_loop (rev old) s end) with
    | (s1, t1, Some e) => (s1, t1, Some e)
    | (s1, t1, None) =>
        let s2 := with_fl_cont s1 c in
        match c with
        | None => (s2, t1, None)
        | Some l => let '(s3, t3, e) := fl_insert_loop l 0 s2 in (s3, t1 ++ t3, e)
        end
    end.

  Inductive flop :=
  | LfInsert (i : Z) (m : M) | LfRemove (i : Z)              (* on the container *)
  | LfKidInsert (m : M) (i : Z) (x : X) | LfKidRemove (m : M) (i : Z)   (* on a master object, in the container or not *)
  | LfSetContainer (c : option (list M)).

  Definition fl_step (s : flstate) (o : flop) : flres :=
    match o with
    | LfInsert i m =>
        match fl_cont s with
        | None => (s, [], None)
        | Some l => master_inserted (with_fl_cont s (Some (py_insert i m l))) m i
        end
    | LfRemove i =>
        match fl_cont s with
        | None => (s, [], None)
        | Some l =>
            match py_get l i, py_del l i with
            | Ok m, Ok l' => master_removed (with_fl_cont s (Some l')) m i
            | _, _ => (s, [], Some IndexError)
            end
        end
    | LfKidInsert m i x =>
        let s1 := with_kids s (upd (fl_kids s) m (py_insert i x (fl_kids s m))) in
        if fl_in m (fl_listen s) then let '(s2, t2) := child_inserted s1 m x i in (s2, t2, None) else (s1, [], None)
    | LfKidRemove m i =>
        match py_get (fl_kids s m) i, py_del (fl_kids s m) i with
        | Ok x, Ok l' =>
            let s1 := with_kids s (upd (fl_kids s) m l') in
            if fl_in m (fl_listen s) then child_removed s1 m x i else (s1, [], None)
        | _, _ => (s, [], Some IndexError)
        end
    | LfSetContainer c => fl_set_container s c
    end.

  (** 795-811; the master objects exist beforehand with children [kids] *)
  Definition fl_new (kids : M -> list X) : flstate := Fl None kids [] (fun _ => []) [] [].

  Fixpoint fl_run (s : flstate) (h : list flop) : flstate * list flev :=
    match h with
    | [] => (s, [])
    | o :: h' => let '(s1, t1, _) := fl_step s o in let '(s2, t2) := fl_run s1 h' in (s2, t1 ++ t2)
    end.
End Flattened.
Arguments flev : clear implicits.
Arguments flstate : clear implicits.
Arguments flop : clear implicits.
