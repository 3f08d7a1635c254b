(** Subscribers of a PersistentObjectContext, /repo/nion/utils/Persistence.py:172-226, that use the context themselves.

    The context is that of PersistCtx_Model.v; here the calls of callbacks are single steps, and register, unregister and
    subscribe may come at any time from within a callback or a listener of registration_event.  One thread: what it has still
    to do is a stack.  Simplified: objects live as long as the context; both callbacks of a subscription are given, and they
    catch what their own uses of the context raise. *)
From Coq Require Import List Bool Arith.
From Verif Require Import PyBase.
Import ListNotations.

Section CtxNet.
  Context {U : Type} (U_dec : forall x y : U, {x = y} + {x <> y}) (uuid : nat -> U).

  (** what a subscriber is told: registered(r), unregistered(o) *)
  Inductive news := Here (r : nat) | Gone (o : option nat).
  (** what is still to be done: the loop of 187 or 201, over the list that was there at its start, from place [k]; what follows
      the loop, with registration_event being fired (190; 204-206) *)
  Inductive frame := FTell (u : U) (v : news) (g k : nat) | FFire (u : U) (v : news).
  (** [x_list u g]: the [g]-th list of subscriptions made for [u] (a new one is made by 222 after 206 deleted one; an empty one
      is none), [x_gen u]: the number of the one in the dictionary *)
  Record ctxnet := Cn { x_list : U -> nat -> list nat; x_gen : U -> nat; x_objs : U -> option nat; x_stack : list frame;
                        x_told : list (U * nat * news); x_raised : list exn }.
  Definition x_new : ctxnet := Cn (fun _ _ => []) (fun _ => 0) (fun _ => None) [] [] [].

  Definition set_at {X} (f : U -> X) (u : U) (x : X) : U -> X := fun v => if U_dec v u then x else f v.
  (** the loop goes on: it looks at the list as it is now *)
  Definition tell (u : U) (v : news) (g k : nat) (st : list frame) (s : ctxnet) : ctxnet :=
    match nth_error (x_list s u g) k with
    | Some id => Cn (x_list s) (x_gen s) (x_objs s) (FTell u v g (S k) :: st) (x_told s ++ [(u, id, v)]) (x_raised s)
    | None => Cn (x_list s) (x_gen s) (x_objs s) (FFire u v :: st) (x_told s) (x_raised s)
    end.

  Inductive xact := XRegister (r : nat) | XUnregister (r : nat) | XSubscribe (u : U) (id : nat)
                  | XGo.    (* the callback returns; the event's listeners have been called *)
  Definition xstep (s : ctxnet) (a : xact) : ctxnet :=
    match a with
    | XRegister r =>                                                                                  (* 178-190 *)
        tell (uuid r) (Here r) (x_gen s (uuid r)) 0 (x_stack s)
             (Cn (x_list s) (x_gen s) (set_at (x_objs s) (uuid r) (Some r)) (x_stack s) (x_told s) (x_raised s))
    | XUnregister r =>                                                                                (* 192-204 *)
        tell (uuid r) (Gone (x_objs s (uuid r))) (x_gen s (uuid r)) 0 (x_stack s) s
    | XSubscribe u id =>                                                                              (* 222-226 *)
        Cn (set_at (x_list s) u (fun g => if Nat.eq_dec g (x_gen s u) then x_list s u g ++ [id] else x_list s u g)) (x_gen s) (x_objs s)
           (x_stack s) (match x_objs s u with Some r => x_told s ++ [(u, id, Here r)] | None => x_told s end) (x_raised s)
    | XGo =>
        match x_stack s with
        | [] => s
        | FTell u v g k :: st => tell u v g k st s
        | FFire u (Here _) :: st => Cn (x_list s) (x_gen s) (x_objs s) st (x_told s) (x_raised s)
        | FFire u (Gone _) :: st =>                                                                   (* 205-206 *)
            match x_objs s u with
            | None => Cn (x_list s) (x_gen s) (x_objs s) st (x_told s) (x_raised s ++ [KeyError])
            | Some _ => Cn (x_list s) (set_at (x_gen s) u (S (x_gen s u))) (set_at (x_objs s) u None) st (x_told s) (x_raised s)
            end
        end
    end.
  Definition xrun (h : list xact) (s : ctxnet) : ctxnet := fold_left xstep h s.
End CtxNet.
Arguments ctxnet : clear implicits.
Arguments xact : clear implicits.
Arguments frame : clear implicits.
