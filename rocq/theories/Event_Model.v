(** Model of /repo/nion/utils/Event.py (lines 19-144).
    Listeners are numbered in the order of [listen] calls.  A listener object is alive while the client
    holds its token, while the event holds it for a living owner, or while a running fire holds it in its
    local list; its weak reference leaves the registration list as soon as it dies (CPython reference
    counting).  Handlers are arbitrary: given the world and the event they do any list of actions on the
    event, change the world and return a truth value or raise.  A handler that fires the same event again
    is represented by the actions done during the nested fire.  Not modelled: [trace], traceback printing
    (87-101), non-callable listener functions, owners that are falsy objects. *)
From Coq Require Import List Arith Lia Bool.
From Verif Require Import PyBase.
Import ListNotations.

Record est := Est {
  e_next : nat;                 (* next listener number *)
  e_reg : list nat;             (* __weak_listeners, in order *)
  e_closed : list nat;          (* listeners whose [call] was replaced by void *)
  e_held : list nat;            (* tokens held by clients *)
  e_owned : list (nat * nat);   (* __listeners: owner, listener *)
  e_pinned : list nat           (* listeners held by a running fire *)
}.
Definition est_new : est := Est 0 [] [] [] [] [].

Definition mem (i : nat) (l : list nat) : bool := if in_dec Nat.eq_dec i l then true else false.

Definition alive (s : est) (i : nat) : bool :=
  mem i (e_held s) || mem i (map snd (e_owned s)) || mem i (e_pinned s).

(** the weak reference callback remove_listener, Event.py:70-74 *)
Definition collect (s : est) : est :=
  Est (e_next s) (filter (alive s) (e_reg s)) (e_closed s) (e_held s) (e_owned s) (e_pinned s).

Inductive act := AListen (owner : option nat) | AClose (i : nat) | ADrop (i : nat) | AOwnerGone (o : nat).

Definition act_step (s : est) (a : act) : est :=
  match a with
  | AListen ow =>                                   (* Event.py:67-85 *)
      let i := e_next s in
      collect (Est (S i) (e_reg s ++ [i]) (e_closed s) (i :: e_held s)
                   (match ow with Some o => (o, i) :: e_owned s | None => e_owned s end) (e_pinned s))
  | AClose i =>                                     (* EventListener.close, Event.py:33-37 *)
      if i <? e_next s
      then Est (e_next s) (e_reg s) (i :: e_closed s) (e_held s) (e_owned s) (e_pinned s) else s
  | ADrop i =>                                      (* the client drops its token *)
      collect (Est (e_next s) (e_reg s) (e_closed s) (remove Nat.eq_dec i (e_held s)) (e_owned s) (e_pinned s))
  | AOwnerGone o =>                                 (* owner_gone, Event.py:79-82 *)
      let mine := filter (fun p => Nat.eqb (fst p) o) (e_owned s) in
      let rest := filter (fun p => negb (Nat.eqb (fst p) o)) (e_owned s) in
      collect (Est (e_next s) (e_reg s) (map snd mine ++ e_closed s) (e_held s) rest (e_pinned s))
  end.

Inductive tev :=
| TAct (a : act)        (* an action on the event *)
| TCall (i : nat)       (* the listener function of [i] is called *)
| TVoid (i : nat)       (* [i]'s turn, but it is closed: void is called *)
| TRet (i : nat) (b : bool).   (* the listener function of [i] returns, truth value [b] *)

Inductive hres := HRet (b : bool) | HRaise.
Inductive fres := RNone | RBool (b : bool).
Inductive fmode := Fire | FireAny | FireAll.

Section Fire.
  Context {W : Type}.
  Variable handler : nat -> W -> est -> W * list act * hres.

  (** early return of the loop for the truth value of one call; Event.py:103-113 fire, 116-129 fire_any,
      131-144 fire_all *)
  Definition early (m : fmode) (b : bool) : option fres :=
    match m, b with
    | FireAny, true => Some (RBool true)
    | FireAll, false => Some (RBool false)
    | _, _ => None
    end.
  Definition completed (m : fmode) : fres :=
    match m with Fire => RNone | FireAny => RBool false | FireAll => RBool true end.

  Record fout := Fo { f_state : est; f_world : W; f_trace : list tev; f_result : fres; f_raised : option nat }.

  Fixpoint fire_loop (m : fmode) (l : list nat) (s : est) (w : W) : fout :=
    match l with
    | [] => Fo s w [] (completed m) None
    | i :: l' =>
        if mem i (e_closed s) then
          match early m false with
          | Some r => Fo s w [TVoid i] r None
          | None => let o := fire_loop m l' s w in
                    Fo (f_state o) (f_world o) (TVoid i :: f_trace o) (f_result o) (f_raised o)
          end
        else
          let '(w1, acts, r) := handler i w s in
          let s1 := fold_left act_step acts s in
          let tr := TCall i :: map TAct acts in
          match r with
          | HRaise => Fo s1 w1 tr RNone (Some i)
          | HRet b =>
              match early m b with
              | Some r => Fo s1 w1 (tr ++ [TRet i b]) r None
              | None => let o := fire_loop m l' s1 w1 in
                        Fo (f_state o) (f_world o) (tr ++ TRet i b :: f_trace o) (f_result o) (f_raised o)
              end
          end
    end.

  (** Event.py:103-144: nothing happens without listeners; the local list pins the listeners and is
      released at the end. *)
  Definition fire (m : fmode) (s : est) (w : W) : fout :=
    match e_reg s with
    | [] => Fo s w [] RNone None
    | _ =>
        let o := fire_loop m (e_reg s)
                   (Est (e_next s) (e_reg s) (e_closed s) (e_held s) (e_owned s) (e_reg s)) w in
        let p := f_state o in
        Fo (collect (Est (e_next p) (e_reg p) (e_closed p) (e_held p) (e_owned p) []))
           (f_world o) (f_trace o) (f_result o) (f_raised o)
    end.

  (** client histories *)
  Inductive hop := HAct (a : act) | HFire (m : fmode).
  Fixpoint ev_run (s : est) (w : W) (h : list hop) : est * W * list tev :=
    match h with
    | [] => (s, w, [])
    | HAct a :: h' =>
        let '(s2, w2, tr) := ev_run (act_step s a) w h' in (s2, w2, TAct a :: tr)
    | HFire m :: h' =>
        let o := fire m s w in
        let '(s2, w2, tr) := ev_run (f_state o) (f_world o) h' in (s2, w2, f_trace o ++ tr)
    end.
End Fire.
