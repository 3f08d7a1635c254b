(** Model of networks of streams, /repo/nion/utils/Stream.py: ValueStream (42-59), MapStream (62-95) and
    CombineLatestStream (98-139) built on one another.  A network is the list of its streams in the order they
    were made; a stream's inputs were made before it.  Functions may raise; what a listener raises is swallowed by
    the Event.fire that called it and the remaining listeners of that event are not called, Event.py:103-114.
    Not modelled: closing streams (NetLife_Model has it), listeners of the clients. *)
From Coq Require Import List Arith Bool.
From Verif Require Import PyBase.
Import ListNotations.

Section Net.
  Context {V : Type}.
  Variable neq : V -> V -> bool.        (* Python's != *)
  Variable none : V.                    (* None *)

  Inductive ndef := DVal | DMap (i : nat) (f : V -> res V) | DComb (l : list nat) (f : list V -> res V).

  (** [n_val] is __value (46, 72, 108), [n_ins] is __values of a CombineLatestStream (107) *)
  Record node := Node { n_def : ndef; n_val : V; n_ins : list V }.
  Definition net : Type := list node.

  (** replace element [j] of a list (Python's [l[j] = x], in range) *)
  Fixpoint put {X} (j : nat) (x : X) (l : list X) : list X :=
    match l, j with
    | [], _ => []
    | _ :: l', 0 => x :: l'
    | y :: l', S j' => y :: put j' x l'
    end.

  (** the argument positions at which [i] stands in [l], which starts at position [p] *)
  Fixpoint positions (i p : nat) (l : list nat) : list nat :=
    match l with
    | [] => []
    | x :: l' => if x =? i then p :: positions i (S p) l' else positions i (S p) l'
    end.
  (** the listeners a stream has on stream [i]: 81 (one), 111-112 (one for each input) *)
  Definition slots (i : nat) (d : ndef) : list nat :=
    match d with
    | DVal => []
    | DMap p _ => if p =? i then [0] else []
    | DComb l _ => positions i 0 l
    end.
  (** all listeners of the value_stream event of stream [i] in the order they were added: stream, argument position;
      [j] is the number of the first stream of [s] *)
  Fixpoint subs_from (i j : nat) (s : net) : list (nat * nat) :=
    match s with
    | [] => []
    | nd :: s' => map (pair j) (slots i (n_def nd)) ++ subs_from i (S j) s'
    end.
  Definition subs (s : net) (i : nat) : list (nat * nat) := subs_from i 0 s.

  (** Event.py:107-112: the loop over the listeners, ended by an exception *)
  Fixpoint calls (handle : net -> nat -> nat -> net * list (nat * V) * option exn)
      (l : list (nat * nat)) (s : net) : net * list (nat * V) :=
    match l with
    | [] => (s, [])
    | (j, slot) :: l' =>
        match handle s j slot with
        | (s1, t1, Some _) => (s1, t1)
        | (s1, t1, None) => let (s2, t2) := calls handle l' s1 in (s2, t1 ++ t2)
        end
    end.

  (** what a listener does with value [v]: 75-79 (map), 129-135 (combine); [fire] is the firing of its own event *)
  Definition handle_with (fire : net -> nat -> V -> net * list (nat * V)) (v : V) (s : net) (j slot : nat)
    : net * list (nat * V) * option exn :=
    match nth_error s j with
    | None => (s, [], None)
    | Some nd =>
        match n_def nd with
        | DVal => (s, [], None)
        | DMap _ f =>
            match f v with
            | Err e => (s, [], Some e)
            | Ok w =>
                if neq w (n_val nd)
                then let (s1, t1) := fire (put j (Node (n_def nd) w (n_ins nd)) s) j w in (s1, t1, None)
                else (s, [], None)
            end
        | DComb _ f =>
            let ins := put slot v (n_ins nd) in
            match f ins with
            | Err e => (put j (Node (n_def nd) (n_val nd) ins) s, [], Some e)
            | Ok w => let (s1, t1) := fire (put j (Node (n_def nd) w ins) s) j w in (s1, t1, None)
            end
        end
    end.

  (** value_stream.fire(v) of stream [i], with everything that happens in its listeners: the new state and all
      firings (stream, value) in the order they start.  Listeners of a stream were made after it, so firings are
      nested at most [length s - i] deep, which is the fuel given. *)
  Fixpoint fire (fuel : nat) (s : net) (i : nat) (v : V) : net * list (nat * V) :=
    match fuel with
    | 0 => (s, [])
    | S fuel' =>
        let (s1, t1) := calls (handle_with (fire fuel') v) (subs s i) s in (s1, (i, v) :: t1)
    end.

  Inductive nop :=
  | MakeVal (v : V)                                   (* ValueStream(v) *)
  | MakeMap (i : nat) (f : V -> res V)                (* MapStream(stream i, f) *)
  | MakeComb (l : list nat) (f : list V -> res V)     (* CombineLatestStream of the streams l, f *)
  | SetVal (i : nat) (v : V).                         (* stream i, a ValueStream: .value = v *)

  (** the values of streams [l]; None if one does not exist *)
  Fixpoint values_of (s : net) (l : list nat) : option (list V) :=
    match l with
    | [] => Some []
    | i :: l' =>
        match nth_error s i, values_of s l' with
        | Some nd, Some vs => Some (n_val nd :: vs)
        | _, _ => None
        end
    end.

  (** Operations naming streams that do not exist, or assigning a value to a stream that is not a ValueStream, cannot be
      written; here they do nothing.  A constructor whose function raises leaves no stream: the listener is dropped
      with the unfinished object, here at once; NetLife_Model has it listen until it is collected. *)
  Definition n_step (s : net) (o : nop) : net * list (nat * V) :=
    match o with
    | MakeVal v => (s ++ [Node DVal v []], [])                                     (* 44-49 *)
    | MakeMap i f =>                                                               (* 65-82 *)
        match nth_error s i with
        | None => (s, [])
        | Some nd =>
            match f (n_val nd) with
            | Err _ => (s, [])
            | Ok w =>
                if neq w none then (s ++ [Node (DMap i f) w []], [(length s, w)])
                else (s ++ [Node (DMap i f) none []], [])
            end
        end
    | MakeComb l f =>                                                              (* 101-114 *)
        match values_of s l with
        | None => (s, [])
        | Some vs =>
            match f vs with
            | Err _ => (s, [])
            | Ok w => (s ++ [Node (DComb l f) w vs], [(length s, w)])
            end
        end
    | SetVal i v =>                                                                (* 55-59 *)
        match nth_error s i with
        | Some (Node DVal old ins) =>
            if neq old v then fire (length s - i) (put i (Node DVal v ins) s) i v else (s, [])
        | _ => (s, [])
        end
    end.

  Fixpoint n_run (s : net) (h : list nop) : net * list (nat * V) :=
    match h with
    | [] => (s, [])
    | o :: h' => let (s1, t1) := n_step s o in let (s2, t2) := n_run s1 h' in (s2, t1 ++ t2)
    end.
End Net.
Arguments ndef : clear implicits.
Arguments node : clear implicits.
Arguments net : clear implicits.
Arguments nop : clear implicits.
