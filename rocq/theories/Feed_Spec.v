(** Specification vocabulary for lists fed by a filtered list: what each of them shows, in terms of the items of the
    filtered list before and after each operation. *)
From Coq Require Import List ZArith Bool Arith Permutation.
From Verif Require Import PyBase Filtered_Model Filtered_Spec Mapped_Model Mapped_Spec Flattened_Model Flattened_Spec Feed_Model.
Import ListNotations.

Section FeedSpec.
  Context {A B C K X : Type} (A_dec : forall a b : A, {a = b} + {a <> b}) (lt : K -> K -> bool).
  Notation sink := (sink A B X).
  Notation feed := (feed A B C K X).
  Notation fdop := (fdop A B C K X).

  (** what is expected of a list: a mapped list shows the images of the items and then those of [stale] items *)
  Inductive expect := XMap (f : A -> B) (stale : list A) | XMapOff (left : list B) | XFlat | XFlatOff.

  Definition shows (d : feed) (x : expect) (k : sink) : Prop :=
    match x, k with
    | XMap f stale, SMap f' true m _ => f' = f /\ ms_items m = map f (fs_items (fd_up d) ++ stale)
    | XMapOff l, SMap _ false m _ => ms_items m = l
    | XFlat, SFlat true s _ => fl_items s = flat_map (fd_kids d) (fs_items (fd_up d))
    | XFlatOff, SFlat false s _ => fl_items s = []
    | _, _ => False
    end.

  (** the operations in which the filtered list removes all its items and appends the new ones *)
  Definition rebuilds (u : fstate A C K) (o : fop A C K) : bool :=
    match o with
    | FSetFilter _ | FSetKey _ | FSetRev _ => (fs_level u <=? 0)%Z
    | FEndChange _ => (fs_level u =? 1)%Z && negb (fs_sorted u)
    | _ => false
    end.

  (** the second half of a list, rounded down *)
  Definition second_half (l : list A) : list A := skipn (length l - length l / 2) l.

  (** a rebuild leaves [half] in the mapped lists attached after a flattened one *)
  Fixpoint spoil (after : bool) (half : list A) (xs : list expect) : list expect :=
    match xs with
    | [] => []
    | XMap f stale :: xs' => XMap f (if after then half ++ stale else stale) :: spoil after half xs'
    | XFlat :: xs' => XFlat :: spoil true half xs'
    | x :: xs' => x :: spoil after half xs'
    end.

  Definition x_detach (l : list A) (x : expect) : expect :=
    match x with
    | XMap f stale => XMapOff (firstn (length stale) (map f (l ++ stale)))
    | XFlat => XFlatOff
    | _ => x
    end.
  Fixpoint x_at (f : expect -> expect) (n : nat) (xs : list expect) : list expect :=
    match xs, n with
    | [], _ => []
    | x :: xs', O => f x :: xs'
    | x :: xs', S n' => x :: x_at f n' xs'
    end.

  Definition x_step (d : feed) (xs : list expect) (o : fdop) : list expect :=
    match o with
    | DUp o => if rebuilds (fd_up d) o then spoil false (second_half (fs_items (fd_up d))) xs else xs
    | DKidInsert _ _ _ | DKidRemove _ _ => xs
    | DMap f => xs ++ [XMap f []]
    | DFlat => xs ++ [XFlat]
    | DDetach n => x_at (x_detach (fs_items (fd_up d))) n xs
    end.
  Fixpoint x_run (d : feed) (xs : list expect) (h : list fdop) : list expect :=
    match h with [] => xs | o :: h' => x_run (fd_step A_dec lt d o) (x_step d xs o) h' end.

  (** conditions on a history *)
  Definition is_flat (k : sink) : Prop := match k with SFlat true _ _ => True | _ => False end.
  Definition one_flat (d : feed) (o : fdop) : Prop :=
    match o with DFlat => Forall (fun k => ~ is_flat k) (fd_sinks d) | _ => True end.
  Definition fd_ok (d : feed) (o : fdop) : Prop :=
    match o with
    | DUp o => no_duplicates (fd_up d) o /\ set_order (fd_up d) o /\
               match o with FContReset | FContBegin | FContEnd => False | _ => True end
    | DKidInsert m i _ => (0 <= i <= Z.of_nat (length (fd_kids d m)))%Z
    | DKidRemove m i => (0 <= i)%Z
    | _ => True
    end.
  (** the filtered list is not rebuilt while a flattened list is attached *)
  Definition calm (d : feed) (o : fdop) : Prop :=
    match o with DUp o => rebuilds (fd_up d) o = true -> Forall (fun k => ~ is_flat k) (fd_sinks d) | _ => True end.
  Fixpoint fd_along (P : feed -> fdop -> Prop) (d : feed) (h : list fdop) : Prop :=
    match h with [] => True | o :: h' => P d o /\ fd_along P (fd_step A_dec lt d o) h' end.

  (** an attached list shows what it should *)
  Definition right (d : feed) (k : sink) : Prop :=
    match k with
    | SMap f true m _ => ms_items m = map f (fs_items (fd_up d))
    | SMap _ false m _ => ms_items m = []
    | SFlat true s _ => fl_items s = flat_map (fd_kids d) (fs_items (fd_up d))
    | SFlat false s _ => fl_items s = []
    end.
  Definition flattened (k : sink) : Prop := match k with SFlat _ _ _ => True | _ => False end.

  (** observers: what a list has notified rebuilds its items *)
  Definition told (k : sink) : Prop :=
    match k with
    | SMap _ _ m t => m_observes [] t (ms_items m)
    | SFlat _ s t => fl_observes [] t (fl_items s)
    end.
  (** begin and end of changes alternate, and no change is left open *)
  Definition settled (k : sink) : Prop :=
    match k with SMap _ _ m t => alternating false t = Some false | SFlat _ _ _ => True end.

  (** indices of notifications inside the list they are about *)
  Fixpoint in_bounds (l : list A) (tr : list (fev A)) : Prop :=
    match tr with
    | [] => True
    | FIns x k :: tr' => k <= length l /\ in_bounds (insert_at k x l) tr'
    | FRem _ k :: tr' => k < length l /\ in_bounds (delete_at k l) tr'
    | _ :: tr' => in_bounds l tr'
    end.
End FeedSpec.
Arguments expect : clear implicits.
