(** Model of Event, /repo/nion/utils/Event.py:19-144, used by any number of threads.  Blocks with the mutex, reading
    and writing an attribute are atomic.  Every call of fire, fire_any and fire_all goes on by its own steps; that
    calls made by a handler are nested in the call running it only excludes some of the interleavings here.  There
    are no owners. *)
From Coq Require Import List Bool Arith.
From Verif Require Import PyBase.
Import ListNotations.

Inductive mode := MFire | MAny | MAll.
(** where a call is: before the list is copied (107-108), in the loop (109) with the copied list, which is kept until
    the call returns, and what is left of it; with the function of listener [i] read (111), or inside it; or over *)
Inductive xpc := FNew | FList (snap rest : list nat) | FRead (snap : list nat) (i : nat) (rest : list nat)
               | FIn (snap : list nat) (i : nat) (rest : list nat) | FOver.
(** what has happened; listeners are numbered in the order made, as are calls; [VExit] is the end of the loop *)
Inductive xev := VListen (i : nat) | VClosed (i : nat) | VDropped (i : nat) | VFire (f : nat) (m : mode) | VSnap (f : nat)
               | VRead (f i : nat) | VInvoke (f i : nat) | VRet (f i : nat) (r : option bool) | VExit (f : nat).
(** [x_reg]: __weak_listeners; [x_dropped]: those whose client has given up its reference *)
Record xst := Xs { x_reg : list nat; x_made : nat; x_closed : list nat; x_dropped : list nat;
                   x_fires : list (mode * xpc); x_log : list xev }.
Definition x_new : xst := Xs [] 0 [] [] [] [].                                                      (* 53-57 *)

Inductive xact := XListen                          (* some thread calls listen *)
                | XClose (i : nat)                 (* some thread closes a listener *)
                | XDrop (i : nat)                  (* some thread drops the last reference of a client to it *)
                | XFire (m : mode)                 (* some thread calls fire, fire_any or fire_all *)
                | XGo (f : nat)                    (* call [f] makes a step *)
                | XEnd (f : nat) (r : option bool). (* the function called ends; None if it raises *)

Definition x_mem (i : nat) (l : list nat) : bool := existsb (Nat.eqb i) l.
Definition snap_of (p : xpc) : list nat :=
  match p with FNew | FOver => [] | FList s _ | FRead s _ _ | FIn s _ _ => s end.
(** listeners nobody refers to any more are gone at once, and their callbacks take them from the list, 70-75 *)
Definition x_clean (reg dropped : list nat) (fires : list (mode * xpc)) : list nat :=
  filter (fun i => negb (x_mem i dropped) || existsb (fun f => x_mem i (snap_of (snd f))) fires) reg.
Fixpoint x_put {X} (i : nat) (x : X) (l : list X) {struct l} : list X :=
  match l, i with
  | [], _ => []
  | _ :: l', 0 => x :: l'
  | y :: l', S i' => y :: x_put i' x l'
  end.
(** 126-127, 140-141 *)
Definition x_stops (m : mode) (b : bool) : bool := match m with MFire => false | MAny => b | MAll => negb b end.

Definition x_step (s : xst) (a : xact) : xst :=
  let 'Xs reg made closed dropped fires log := s in
  let over f m e := let fires' := x_put f (m, FOver) fires in Xs (x_clean reg dropped fires') made closed dropped fires' (log ++ [e]) in
  match a with
  | XListen => Xs (reg ++ [made]) (S made) closed dropped fires (log ++ [VListen made])             (* 67-78 *)
  | XClose i => if i <? made then Xs reg made (i :: closed) dropped fires (log ++ [VClosed i]) else s  (* 34-38 *)
  | XDrop i => if i <? made then Xs (x_clean reg (i :: dropped) fires) made closed (i :: dropped) fires (log ++ [VDropped i]) else s
  | XFire m =>
      match reg with
      | [] => Xs reg made closed dropped (fires ++ [(m, FOver)]) (log ++ [VFire (length fires) m; VExit (length fires)])  (* 105 *)
      | _ => Xs reg made closed dropped (fires ++ [(m, FNew)]) (log ++ [VFire (length fires) m])
      end
  | XGo f =>
      match nth_error fires f with
      | Some (m, FNew) => Xs reg made closed dropped (x_put f (m, FList reg reg) fires) (log ++ [VSnap f])        (* 107-108 *)
      | Some (m, FList _ []) => over f m (VExit f)
      | Some (m, FList snap (i :: rest)) =>                                                       (* 109-111 *)
          if x_mem i closed then Xs reg made closed dropped (x_put f (m, FList snap rest) fires) log
          else Xs reg made closed dropped (x_put f (m, FRead snap i rest) fires) (log ++ [VRead f i])
      | Some (m, FRead snap i rest) => Xs reg made closed dropped (x_put f (m, FIn snap i rest) fires) (log ++ [VInvoke f i])
      | _ => s
      end
  | XEnd f r =>
      match nth_error fires f with
      | Some (m, FIn snap i rest) =>
          match r with
          | None => over f m (VRet f i r)                                                          (* 112-113 *)
          | Some b => if x_stops m b then over f m (VRet f i r)
                      else Xs reg made closed dropped (x_put f (m, FList snap rest) fires) (log ++ [VRet f i r])
          end
      | _ => s
      end
  end.
Definition x_run (acts : list xact) : xst := fold_left x_step acts x_new.
