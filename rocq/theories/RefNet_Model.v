(** Model of networks of reference counted objects used by threads: ReferenceCounted, /repo/nion/utils/ReferenceCounting.py:4-48,
    whose about_to_delete gives up references to other such objects, as the streams of /repo/nion/utils/Stream.py do in
    close (34-35, 84-91, 118-127, 154-162, 208-217, 290-299, 331-341).  Objects are numbered in the order made.
    Clients keep their references: they call add_ref only on an object not deleted, and remove_ref only for a reference they
    have; check is True.  An object gives its references up in the order it took them (ConcatStream: the other order); nothing
    claimed depends on that order.  Listeners called by close are not modelled. *)
From Coq Require Import List Bool Arith.
From Verif Require Import PyBase.
Import ListNotations.

(** [o_in]: the objects it has references to; [o_ext]: references of clients; [o_used]: add_ref was ever called *)
Record obj := Ob { o_in : list nat; o_count : nat; o_active : bool; o_ext : nat; o_used : bool }.
Definition ob_new : obj := Ob [] 0 true 0 false.                                     (* ReferenceCounting.py:6-10 *)
(** a thread: inside the about_to_delete of the objects of [t_stack], innermost first, each with the references it still
    has to give up; [t_want]: it has called remove_ref and not yet got the mutex *)
Record thr := Th { t_want : option nat; t_stack : list (nat * list nat) }.
(** [n_log]: the objects whose about_to_delete was called; [n_failed]: an assertion has failed *)
Record nst := Nt { n_objs : list obj; n_thrs : list thr; n_log : list nat; n_failed : bool }.
Definition n_new : nst := Nt [] [] [] false.

Fixpoint n_put {X} (i : nat) (x : X) (l : list X) {struct l} : list X :=
  match l, i with
  | [], _ => []
  | _ :: l', 0 => x :: l'
  | y :: l', S i' => y :: n_put i' x l'
  end.
Fixpoint remove1 (i : nat) (l : list nat) : list nat :=
  match l with [] => [] | j :: l' => if Nat.eqb i j then l' else j :: remove1 i l' end.
(** whether another thread than [t] is inside the about_to_delete of [o] and so has its mutex *)
Definition holds (o : nat) (h : thr) : bool := existsb (fun f => Nat.eqb (fst f) o) (t_stack h).
Fixpoint locked_from (k t o : nat) (l : list thr) : bool :=
  match l with [] => false | h :: l' => (negb (Nat.eqb k t) && holds o h) || locked_from (S k) t o l' end.
Definition locked (t o : nat) (l : list thr) : bool := locked_from 0 t o l.

Inductive nact := NThread                     (* there is another thread *)
                | NNew                        (* a thread makes an object *)
                | NAttach (t p i : nat)       (* in thread t object p calls add_ref on i, e.g. Stream.py:70, 106, 354 *)
                | NDetach (t p i : nat)       (* in thread t object p, not deleted, gives up a reference, Stream.py:347 *)
                | NAcquire (t o : nat)        (* a client calls add_ref *)
                | NRelease (t o : nat)        (* a client calls remove_ref *)
                | NStep (t : nat).            (* thread t goes on *)

(** ReferenceCounting.py:31-34 *)
Definition add_ref (b : obj) : obj := Ob (o_in b) (S (o_count b)) (o_active b) (o_ext b) true.

Definition n_step (s : nst) (a : nact) : nst :=
  let 'Nt objs thrs log failed := s in
  match a with
  | NThread => Nt objs (thrs ++ [Th None []]) log failed
  | NNew => Nt (objs ++ [ob_new]) thrs log failed
  | NAttach t p i =>
      match nth_error thrs t, nth_error objs p, nth_error objs i with
      | Some (Th None []), Some bp, Some bi =>
          if o_active bp && o_active bi && negb (Nat.eqb i p) && negb (locked t i thrs)
          then Nt (n_put p (Ob (o_in bp ++ [i]) (o_count bp) (o_active bp) (o_ext bp) (o_used bp)) (n_put i (add_ref bi) objs)) thrs log failed
          else s
      | _, _, _ => s
      end
  | NDetach t p i =>
      match nth_error thrs t, nth_error objs p with
      | Some (Th None []), Some bp =>
          if o_active bp && existsb (Nat.eqb i) (o_in bp)
          then Nt (n_put p (Ob (remove1 i (o_in bp)) (o_count bp) (o_active bp) (o_ext bp) (o_used bp)) objs) (n_put t (Th (Some i) []) thrs) log failed
          else s
      | _, _ => s
      end
  | NAcquire t o =>
      match nth_error thrs t, nth_error objs o with
      | Some (Th None []), Some b =>
          if o_active b && negb (locked t o thrs)
          then Nt (n_put o (let b' := add_ref b in Ob (o_in b') (o_count b') (o_active b') (S (o_ext b')) (o_used b')) objs) thrs log failed
          else s
      | _, _ => s
      end
  | NRelease t o =>
      match nth_error thrs t, nth_error objs o with
      | Some (Th None []), Some b =>
          match o_ext b with
          | S e => Nt (n_put o (Ob (o_in b) (o_count b) (o_active b) e (o_used b)) objs) (n_put t (Th (Some o) []) thrs) log failed
          | 0 => s
          end
      | _, _ => s
      end
  | NStep t =>
      match nth_error thrs t with
      | Some (Th (Some o) st) =>
          if locked t o thrs then s
          else match nth_error objs o with
               | Some b =>
                   match o_count b with
                   | 0 => Nt objs (n_put t (Th None st) thrs) log true                                 (* 39 *)
                   | S c =>                                                                             (* 40-43 *)
                       if o_active b && Nat.eqb c 0
                       then Nt (n_put o (Ob (o_in b) c false (o_ext b) (o_used b)) objs) (n_put t (Th None ((o, o_in b) :: st)) thrs) (log ++ [o]) failed
                       else Nt (n_put o (Ob (o_in b) c (o_active b) (o_ext b) (o_used b)) objs) (n_put t (Th None st) thrs) log failed
                   end
               | None => s
               end
      | Some (Th None ((o, i :: rest) :: st)) => Nt objs (n_put t (Th (Some i) ((o, rest) :: st)) thrs) log failed
      | Some (Th None ((o, []) :: st)) => Nt objs (n_put t (Th None st) thrs) log failed
      | _ => s
      end
  end.
Definition n_run (acts : list nact) : nst := fold_left n_step acts n_new.
