(** Specification vocabulary for networks of reference counted objects. *)
From Coq Require Import List Bool Arith.
From Verif Require Import PyBase RefNet_Model.
Import ListNotations.

Definition active (s : nst) (o : nat) : Prop := exists b, nth_error (n_objs s) o = Some b /\ o_active b = true.
Definition refers (s : nst) (p o : nat) : Prop := exists b, nth_error (n_objs s) p = Some b /\ In o (o_in b).
(** a client has a reference, or nobody has ever had one *)
Definition root (s : nst) (o : nat) : Prop := exists b, nth_error (n_objs s) o = Some b /\ (0 < o_ext b \/ o_used b = false).
Inductive reachable (s : nst) : nat -> Prop :=
| re_root o : root s o -> reachable s o
| re_step p o : reachable s p -> refers s p o -> reachable s o.
(** no object refers to itself through others *)
Definition acyclic (s : nst) : Prop := exists rank : nat -> nat, forall p o, refers s p o -> rank p < rank o.
Definition idle (h : thr) : Prop := t_want h = None /\ t_stack h = [].
(** no thread is inside remove_ref *)
Definition quiescent (s : nst) : Prop := forall h, In h (n_thrs s) -> idle h.
(** steps still to be made if nothing more is begun: one for each remove_ref to be made, with one call and one return for
    each object to be deleted *)
Definition todo_of (l : list nat) : nat := 1 + 2 * length l.
Definition thr_steps (h : thr) : nat :=
  (match t_want h with Some _ => 1 | None => 0 end) + list_sum (map (fun f => todo_of (snd f)) (t_stack h)).
Definition obj_steps (b : obj) : nat := if o_active b then todo_of (o_in b) else 0.
Definition steps_left (s : nst) : nat := list_sum (map thr_steps (n_thrs s)) + list_sum (map obj_steps (n_objs s)).
(** how often [o] occurs *)
Definition occ (o : nat) (l : list nat) : nat := count_occ Nat.eq_dec l o.
Definition one (o i : nat) : nat := if Nat.eq_dec i o then 1 else 0.
(** references to [o] of an object not deleted, and of a thread that has yet to give them up *)
Definition obj_refs (o : nat) (b : obj) : nat := if o_active b then occ o (o_in b) else 0.
Definition thr_refs (o : nat) (h : thr) : nat :=
  (match t_want h with Some i => one o i | None => 0 end) + list_sum (map (fun f => occ o (snd f)) (t_stack h)).
Definition busy (s : nst) (t : nat) : Prop := exists h, nth_error (n_thrs s) t = Some h /\ ~ idle h.
(** threads inside remove_ref go on, one step of a thread after the other *)
Inductive goes : nst -> list nat -> nst -> Prop :=
| go_nil s : goes s [] s
| go_cons s t ts s' : busy s t -> goes (n_step s (NStep t)) ts s' -> goes s (t :: ts) s'.
