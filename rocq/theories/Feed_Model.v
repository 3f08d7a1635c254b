(** Model of the lists that have a FilteredListModel as container: any number of MappedListModels
    (/repo/nion/utils/ListModel.py:643-790) and FlattenedListModels (793-916), in the order in which they were
    attached.  Every notification of the filtered list is passed to the handlers of the attached lists by
    Event.fire (Event.py:103-114): the first handler that raises stops the others, and the exception is swallowed.
    A [sink] carries its own notifications.  Not modelled: as in Filtered_Model, Mapped_Model and Flattened_Model;
    map functions are pure here. *)
From Coq Require Import List ZArith Bool Arith.
From Verif Require Import PyBase Filtered_Model Mapped_Model Flattened_Model.
Import ListNotations.

Section Feed.
  Context {A B C K X : Type}.
  Variable A_dec : forall a b : A, {a = b} + {a <> b}.
  Variable lt : K -> K -> bool.

  (** an attached or detached list and what it has notified so far *)
  Inductive sink :=
  | SMap (f : A -> B) (on : bool) (m : mstate A B) (t : list (mev A B))
  | SFlat (on : bool) (s : flstate A X) (t : list (flev X)).

  Definition returned (e : option exn) : bool := match e with None => true | Some _ => false end.

  (** one notification: mapped list 769-790 and 742-752, flattened list 861-888; the result tells whether the
      handler returned *)
  Definition hear (e : fev A) (k : sink) : sink * bool :=
    match k with
    | SMap f true m t =>
        let stepped '(m1, t1, e1) := (SMap f true m1 (t ++ t1), returned e1) in
        match e with
        | FIns x i => let '(m1, t1) := m_inserted (fun _ => f) m x (Z.of_nat i) in stepped (m1, t1, None)
        | FRem _ i => stepped (m_removed m (Z.of_nat i))
        | FBegin => stepped (m_step (fun _ => f) m MBeginChange)
        | FEnd => stepped (m_step (fun _ => f) m MEndChange)
        | _ => (k, true)
        end
    | SFlat true s t =>
        let stepped '(s1, t1, e1) := (SFlat true s1 (t ++ t1), returned e1) in
        match e with
        | FIns x i => stepped (master_inserted A_dec s x (Z.of_nat i))
        | FRem x i => stepped (master_removed A_dec s x (Z.of_nat i))
        | _ => (k, true)
        end
    | _ => (k, true)
    end.

  (** Event.fire, Event.py:103-114 *)
  Fixpoint fire (e : fev A) (ks : list sink) : list sink :=
    match ks with
    | [] => []
    | k :: ks' => let '(k1, ok) := hear e k in k1 :: (if ok then fire e ks' else ks')
    end.
  Definition fire_all (tr : list (fev A)) (ks : list sink) : list sink := fold_left (fun ks e => fire e ks) tr ks.

  Record feed := Fd { fd_up : fstate A C K; fd_kids : A -> list X; fd_sinks : list sink }.

  Inductive fdop :=
  | DUp (o : fop A C K)                                             (* the filtered list, its container or an item *)
  | DKidInsert (m : A) (i : Z) (x : X) | DKidRemove (m : A) (i : Z)   (* the children of an item *)
  | DMap (f : A -> B) | DFlat                                       (* a new list is made with the filtered list as container *)
  | DDetach (n : nat).                                              (* container = None for the n-th of them *)

  (** a child edit reaches the flattened lists that listen to the item, 866-867; simplified: an exception in one of
      several flattened lists does not stop the others *)
  Definition kid_edit (o : flop A X) (k : sink) : sink :=
    match k with
    | SMap _ _ _ _ => k
    | SFlat on s t => let '(s1, t1, _) := fl_step A_dec s o in SFlat on s1 (t ++ t1)
    end.

  (** container = None, 725-740 and 834-844; the items of the container are those of the filtered list *)
  Definition detach (l : list A) (k : sink) : sink :=
    match k with
    | SMap f true m t =>
        let '(m1, t1, _) := m_set_container (fun _ => f) (Ms (Some l) (ms_items m) (ms_calls m) (ms_level m)) None in SMap f false m1 (t ++ t1)
    | SFlat true s t => let '(s1, t1, _) := fl_set_container A_dec (with_fl_cont s (Some l)) None in SFlat false s1 (t ++ t1)
    | _ => k
    end.
  Fixpoint at_nth (f : sink -> sink) (n : nat) (ks : list sink) : list sink :=
    match ks, n with
    | [], _ => []
    | k :: ks', O => f k :: ks'
    | k :: ks', S n' => k :: at_nth f n' ks'
    end.

  (** 645-664 with 741-755, 795-811 with 845-850: construction with a container *)
  Definition new_map (f : A -> B) (l : list A) : sink :=
    let '(m1, t1, _) := m_set_container (fun _ => f) m_new (Some l) in SMap f true m1 t1.
  Definition new_flat (kids : A -> list X) (l : list A) : sink :=
    let '(s1, t1, _) := fl_set_container A_dec (fl_new kids) (Some l) in SFlat true s1 t1.

  Definition fd_step (d : feed) (o : fdop) : feed :=
    match o with
    | DUp o => let '(u, tr, _) := f_step A_dec lt (fd_up d) o in Fd u (fd_kids d) (fire_all tr (fd_sinks d))
    | DKidInsert m i x =>
        Fd (fd_up d) (upd A_dec (fd_kids d) m (py_insert i x (fd_kids d m))) (map (kid_edit (LfKidInsert m i x)) (fd_sinks d))
    | DKidRemove m i =>
        Fd (fd_up d) (match py_del (fd_kids d m) i with Ok l => upd A_dec (fd_kids d) m l | Err _ => fd_kids d end)
           (map (kid_edit (LfKidRemove m i)) (fd_sinks d))
    | DMap f => Fd (fd_up d) (fd_kids d) (fd_sinks d ++ [new_map f (fs_items (fd_up d))])
    | DFlat => Fd (fd_up d) (fd_kids d) (fd_sinks d ++ [new_flat (fd_kids d) (fs_items (fd_up d))])
    | DDetach n => Fd (fd_up d) (fd_kids d) (at_nth (detach (fs_items (fd_up d))) n (fd_sinks d))
    end.

  (** a new filtered list; the items exist beforehand with content [w] and children [kids] *)
  Definition fd_new (w : A -> C) (kids : A -> list X) : feed := Fd (f_new w) kids [].
  Definition fd_run (d : feed) (h : list fdop) : feed := fold_left fd_step h d.
End Feed.
Arguments sink : clear implicits.
Arguments feed : clear implicits.
Arguments fdop : clear implicits.
