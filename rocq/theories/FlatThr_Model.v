(** FlattenedListModel, /repo/nion/utils/ListModel.py:793-916, with the child lists edited by threads.

    [__child_item_inserted] and [__child_item_removed] (890-916) take no mutex: when the children of two
    master items are edited by two threads their steps are interleaved.  The list itself is the [flstate]
    of Flattened_Model.v.

    Simplified: the child list of one master item is edited by one thread at a time, which goes on only
    when its notification is over; a list method, a look-up and a deletion are one step each (as under
    the interpreter lock); the container is edited and set, and master items come and go, only while no
    call is under way (866, 880: these hold the mutex; 859: "assumes child items will not change during
    this call"). *)
From Coq Require Import List ZArith Bool Arith.
From Verif Require Import PyBase Flattened_Model.
Import ListNotations.

(** what a child list tells (Observable.py notify_insert_item, notify_remove_item) *)
Inductive kedit (X : Type) := KIns (i : nat) (x : X) | KRem (i : nat) (x : X).
Arguments KIns {X} i x.
Arguments KRem {X} i x.
Definition kindex {X} (e : kedit X) : nat := match e with KIns i _ | KRem i _ => i end.

(** where a call of 890-916 is *)
Inductive kpc (M X : Type) :=
| PWalk (e : kedit X) (acc : nat) (rest : list M)    (* 893-896, 907-910: master items still to be passed *)
| PKid (e : kedit X) (k : nat)                       (* before 898, 912 *)
| PFlat (e : kedit X) (k : nat)                      (* before 899, 913 *)
| PTell (e : kedit X) (k : nat).                     (* before 900, 914 *)
Arguments PWalk {M X} e acc rest.
Arguments PKid {M X} e k.
Arguments PFlat {M X} e k.
Arguments PTell {M X} e k.

Section FlatThr.
  Context {M X : Type} (M_dec : forall a b : M, {a = b} + {a <> b}).

  Record fth := Fth {
    t_fl : flstate M X;
    t_call : M -> option (kpc M X);      (* the call under way for each master item *)
    t_said : list (flev X);              (* what the flattened list has told *)
    t_raised : list exn                  (* exceptions of calls, dropped by Event.fire (Event.py 103-114) *)
  }.

  Definition set_call (f : M -> option (kpc M X)) (m : M) (p : option (kpc M X)) : M -> option (kpc M X) :=
    fun m' => if M_dec m' m then p else f m'.
  Definition at_pc (s : fth) (m : M) (p : option (kpc M X)) : fth := Fth (t_fl s) (set_call (t_call s) m p) (t_said s) (t_raised s).
  Definition with_children (s : flstate M X) (f : M -> list X) : flstate M X :=
    Fl (fl_cont s) (fl_kids s) (fl_master s) f (fl_items s) (fl_listen s).
  Definition with_items (s : flstate M X) (l : list X) : flstate M X :=
    Fl (fl_cont s) (fl_kids s) (fl_master s) (fl_children s) l (fl_listen s).

  (** one step of the call for [m], 890-916 *)
  Definition kgo (s : fth) (m : M) : fth :=
    let f := t_fl s in
    match t_call s m with
    | None => s
    | Some (PWalk e acc []) => at_pc s m (Some (PKid e (acc + kindex e)))
    | Some (PWalk e acc (m' :: rest)) =>
        if M_dec m' m then at_pc s m (Some (PKid e (acc + kindex e)))
        else at_pc s m (Some (PWalk e (acc + length (fl_children f m')) rest))
    | Some (PKid (KIns i x) k) =>
        at_pc (Fth (with_children f (upd M_dec (fl_children f) m (py_insert (Z.of_nat i) x (fl_children f m))))
                   (t_call s) (t_said s) (t_raised s)) m (Some (PFlat (KIns i x) k))
    | Some (PKid (KRem i x) k) =>
        match py_del (fl_children f m) (Z.of_nat i) with
        | Ok l => at_pc (Fth (with_children f (upd M_dec (fl_children f) m l)) (t_call s) (t_said s) (t_raised s)) m (Some (PFlat (KRem i x) k))
        | Err e => at_pc (Fth f (t_call s) (t_said s) (t_raised s ++ [e])) m None
        end
    | Some (PFlat (KIns i x) k) =>
        at_pc (Fth (with_items f (py_insert (Z.of_nat k) x (fl_items f))) (t_call s) (t_said s) (t_raised s)) m (Some (PTell (KIns i x) k))
    | Some (PFlat (KRem i x) k) =>
        match py_del (fl_items f) (Z.of_nat k) with
        | Ok l => at_pc (Fth (with_items f l) (t_call s) (t_said s) (t_raised s)) m (Some (PTell (KRem i x) k))
        | Err e => at_pc (Fth f (t_call s) (t_said s) (t_raised s ++ [e])) m None
        end
    | Some (PTell (KIns i x) k) =>     (* 900-902 *)
        at_pc (Fth f (t_call s) (t_said s ++ [LfIns x (Z.of_nat k); LfSelIns (Z.of_nat i)]) (t_raised s)) m None
    | Some (PTell (KRem i x) k) =>     (* 914-916 *)
        at_pc (Fth f (t_call s) (t_said s ++ [LfRem x (Z.of_nat k); LfSelRem (Z.of_nat k)]) (t_raised s)) m None
    end.

  (** the edit of the child list, and the beginning of its notification if the list listens to it (870-871) *)
  Definition kbegin (s : fth) (m : M) (e : kedit X) (l : list X) : fth :=
    let f := with_kids (t_fl s) (upd M_dec (fl_kids (t_fl s)) m l) in
    let s' := Fth f (t_call s) (t_said s) (t_raised s) in
    if fl_in M_dec m (fl_listen f) then at_pc s' m (Some (PWalk e 0 (fl_master f))) else s'.

  Definition no_call (f : M -> option (kpc M X)) (m : M) : bool := match f m with None => true | Some _ => false end.

  Inductive fact :=
  | AIns (m : M) (i : nat) (x : X)       (* insert_item(i, x) of the child list of [m] *)
  | ARem (m : M) (i : nat)               (* remove_item(i) *)
  | AGo (m : M)
  | ASeq (o : flop M X).                 (* an operation of Flattened_Model.v, while no call is under way *)

  Definition fstep (s : fth) (a : fact) : fth :=
    let kids := fl_kids (t_fl s) in
    match a with
    | AIns m i x => match t_call s m with None => kbegin s m (KIns i x) (insert_at i x (kids m)) | Some _ => s end
    | ARem m i =>
        match t_call s m, nth_error (kids m) i with
        | None, Some x => kbegin s m (KRem i x) (delete_at i (kids m))
        | _, _ => s
        end
    | AGo m => kgo s m
    | ASeq o =>
        if forallb (no_call (t_call s)) (fl_listen (t_fl s)) then
          let '(f, tr, _) := fl_step M_dec (t_fl s) o in Fth f (t_call s) (t_said s ++ tr) (t_raised s)
        else s
    end.
  Definition frun (l : list fact) (s : fth) : fth := fold_left fstep l s.

  (** 795-811; the master items exist beforehand *)
  Definition fth_new (kids : M -> list X) : fth := Fth (fl_new kids) (fun _ => None) [] [].
End FlatThr.
Arguments fth : clear implicits.
Arguments fact : clear implicits.
