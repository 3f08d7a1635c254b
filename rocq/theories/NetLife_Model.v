(** Model of networks of streams whose streams are also given up: /repo/nion/utils/Stream.py, ValueStream (42-59), MapStream
    (62-95) and CombineLatestStream (98-139), with the reference counts of /repo/nion/utils/ReferenceCounting.py:4-48.  Values
    and firings are those of Net_Model; here streams are closed when their last reference is given up (AbstractStream.about_to_delete,
    Stream.py:34-35), and a constructor whose function raises leaves an unfinished stream that keeps its references for ever and
    listens until the garbage collector finds it (the listener and the stream refer to one another).
    Clients keep their references: they call add_ref, make streams of others and remove_ref only for streams not deleted, and
    remove_ref only for references they have taken; check is True; close is only called by about_to_delete.  Not modelled:
    listeners of the clients. *)
From Coq Require Import List Arith Bool.
From Verif Require Import PyBase Net_Model.
Import ListNotations.

(** [l_count] is __ref_count (ReferenceCounting.py:8), [l_active] is __active (10); [l_ext]: references of clients;
    [l_used]: add_ref was ever called; [l_lost]: the constructor has raised; [l_gone]: how many listeners on the inputs, from the
    first, are closed; [l_rel]: how many references to the inputs, from the first, are given up *)
Record life := Life { l_count : nat; l_active : bool; l_ext : nat; l_used : bool; l_lost : bool; l_gone : nat; l_rel : nat }.
Definition life_new (lost : bool) : life := Life 0 true 0 false lost 0 0.

Section NetLife.
  Context {V : Type}.
  Variable neq : V -> V -> bool.        (* Python's != *)
  Variable none : V.                    (* None *)

  (** the streams and, in the same order, their reference counts *)
  Record lst := Ls { q_net : net V; q_life : list life }.
  (** what happens, in order: stream [k] is closed; the value_stream event of stream [k] is fired *)
  Inductive lev := EClose (k : nat) | EFire (k : nat) (v : V).
  Definition fires (t : list (nat * V)) : list lev := map (fun e => EFire (fst e) (snd e)) t.

  (** whether stream [fst p] still listens to its input number [snd p] *)
  Definition listens (ls : list life) (p : nat * nat) : bool :=
    match nth_error ls (fst p) with Some lf => l_gone lf <=? snd p | None => false end.
  (** Event.py:103-114, as Net_Model.fire, for the listeners not closed *)
  Fixpoint fire_l (ls : list life) (fuel : nat) (s : net V) (i : nat) (v : V) : net V * list (nat * V) :=
    match fuel with
    | 0 => (s, [])
    | S fuel' =>
        let (s1, t1) := calls (handle_with neq (fire_l ls fuel') v) (filter (listens ls) (subs s i)) s in (s1, (i, v) :: t1)
    end.

  Definition set_life (k : nat) (g : life -> life) (st : lst) : lst :=
    match nth_error (q_life st) k with
    | Some lf => Ls (q_net st) (put k (g lf) (q_life st))
    | None => st
    end.
  Definition set_node (k : nat) (g : node V -> node V) (st : lst) : lst :=
    match nth_error (q_net st) k with
    | Some nd => Ls (put k (g nd) (q_net st)) (q_life st)
    | None => st
    end.
  Definition inputs_of (d : ndef V) : list nat :=
    match d with DVal => [] | DMap i _ => [i] | DComb l _ => l end.

  (** ReferenceCounting.py:31-34 *)
  Definition add_ref (lf : life) : life :=
    Life (S (l_count lf)) (l_active lf) (l_ext lf) true (l_lost lf) (l_gone lf) (l_rel lf).
  Definition unlisten (q : nat) (lf : life) : life :=
    Life (l_count lf) (l_active lf) (l_ext lf) (l_used lf) (l_lost lf) q (l_rel lf).
  Definition give_up (q : nat) (lf : life) : life :=
    Life (l_count lf) (l_active lf) (l_ext lf) (l_used lf) (l_lost lf) (l_gone lf) q.

  (** Stream.py:86-88 (MapStream, one input) and 120-123 (CombineLatestStream): close the listener on each input, forget its
      value, give the reference up; [drop] is remove_ref, [q] the position of the first input of [l].  An assertion that fails
      ends it (the last component). *)
  Fixpoint leave (drop : lst -> nat -> lst * list lev * bool) (k q : nat) (l : list nat) (st : lst) : lst * list lev * bool :=
    match l with
    | [] => (st, [], true)
    | p :: l' =>
        let st1 := set_life k (unlisten (S q)) st in
        let st2 := set_node k (fun nd => Node (n_def nd) (n_val nd) (put q none (n_ins nd))) st1 in
        match drop (set_life k (give_up (S q)) st2) p with
        | (st3, t3, true) => let '(st4, t4, b) := leave drop k (S q) l' st3 in (st4, t3 ++ t4, b)
        | (st3, t3, false) => (st3, t3, false)
        end
    end.
  (** close of stream [k]: AbstractStream 31-32 (a ValueStream does nothing), MapStream 84-91, CombineLatestStream 118-127 *)
  Definition close_with (drop : lst -> nat -> lst * list lev * bool) (k : nat) (st : lst) : lst * list lev * bool :=
    match nth_error (q_net st) k with
    | None => (st, [], true)
    | Some nd =>
        match n_def nd with
        | DVal => (st, [EClose k], true)
        | d =>
            let (s1, t1) := fire_l (q_life st) (length (q_net st) - k) (q_net st) k (n_val nd) in
            match leave drop k 0 (inputs_of d) (Ls s1 (q_life st)) with
            | (st2, t2, true) => (set_node k (fun nd => Node (n_def nd) none []) st2, EClose k :: fires t1 ++ t2, true)
            | (st2, t2, false) => (st2, EClose k :: fires t1 ++ t2, false)
            end
        end
    end.
  (** remove_ref of stream [k], ReferenceCounting.py:37-43: false if the assertion fails.  Inputs were made before the stream, so
      calls are nested at most [k] deep, which is the fuel given. *)
  Fixpoint drop (fuel : nat) (st : lst) (k : nat) : lst * list lev * bool :=
    match fuel with
    | 0 => (st, [], true)
    | S fuel' =>
        match nth_error (q_life st) k with
        | None => (st, [], true)
        | Some lf =>
            match l_count lf with
            | 0 => (st, [], false)
            | S c =>
                if l_active lf && (c =? 0)
                then close_with (drop fuel') k (set_life k (fun lf => Life c false (l_ext lf) (l_used lf) (l_lost lf) (l_gone lf) (l_rel lf)) st)
                else (set_life k (fun lf => Life c (l_active lf) (l_ext lf) (l_used lf) (l_lost lf) (l_gone lf) (l_rel lf)) st, [], true)
            end
        end
    end.

  Inductive lop :=
  | LDo (o : nop V)        (* make a stream or assign the value of a ValueStream, as in Net_Model *)
  | LAdd (k : nat)         (* a client calls add_ref *)
  | LDrop (k : nat)        (* a client gives up a reference it has *)
  | LCollect (k : nat).    (* the garbage collector finds an unfinished stream *)

  Definition usable (st : lst) (k : nat) : bool :=
    match nth_error (q_life st) k with Some lf => l_active lf && negb (l_lost lf) | None => false end.
  (** what clients do: see above *)
  Definition allowed (st : lst) (o : lop) : bool :=
    match o with
    | LDo (MakeVal _) => true
    | LDo (MakeMap i _) => usable st i
    | LDo (MakeComb l _) => forallb (usable st) l
    | LDo (SetVal i _) => match nth_error (q_net st) i with Some (Node DVal _ _) => true | _ => false end
    | LAdd k => usable st k
    | LDrop k => match nth_error (q_life st) k with Some lf => 0 <? l_ext lf | None => false end
    | LCollect k => match nth_error (q_life st) k with Some lf => l_lost lf | None => false end
    end.

  (** a new stream, with a reference to each of its inputs: 70, 104 *)
  Definition grow (nd : node V) (lost : bool) (st : lst) : lst :=
    let st1 := fold_left (fun st i => set_life i add_ref st) (inputs_of (n_def nd)) st in
    Ls (q_net st1 ++ [nd]) (q_life st1 ++ [life_new lost]).

  Definition l_step (st : lst) (o : lop) : lst * list lev * bool :=
    if allowed st o then
      match o with
      | LDo (MakeVal v) => (grow (Node DVal v []) false st, [], true)                          (* 44-49 *)
      | LDo (MakeMap i f) =>                                                                   (* 65-82 *)
          match nth_error (q_net st) i with
          | None => (st, [], true)
          | Some nd =>
              match f (n_val nd) with
              | Err _ => (grow (Node (DMap i f) none []) true st, [], true)
              | Ok w =>
                  if neq w none then (grow (Node (DMap i f) w []) false st, [EFire (length (q_net st)) w], true)
                  else (grow (Node (DMap i f) none []) false st, [], true)
              end
          end
      | LDo (MakeComb l f) =>                                                                  (* 101-114 *)
          match values_of (q_net st) l with
          | None => (st, [], true)
          | Some vs =>
              match f vs with
              | Err _ => (grow (Node (DComb l f) none vs) true st, [], true)
              | Ok w => (grow (Node (DComb l f) w vs) false st, [EFire (length (q_net st)) w], true)
              end
          end
      | LDo (SetVal i v) =>                                                                    (* 55-59 *)
          match nth_error (q_net st) i with
          | Some (Node DVal old ins) =>
              if neq old v
              then let (s1, t1) := fire_l (q_life st) (length (q_net st) - i) (put i (Node DVal v ins) (q_net st)) i v in
                   (Ls s1 (q_life st), fires t1, true)
              else (st, [], true)
          | _ => (st, [], true)
          end
      | LAdd k => (set_life k (fun lf => let lf' := add_ref lf in
                     Life (l_count lf') (l_active lf') (S (l_ext lf')) (l_used lf') (l_lost lf') (l_gone lf') (l_rel lf')) st, [], true)
      | LDrop k => drop (S k) (set_life k (fun lf =>
                     Life (l_count lf) (l_active lf) (pred (l_ext lf)) (l_used lf) (l_lost lf) (l_gone lf) (l_rel lf)) st) k
      | LCollect k =>
          match nth_error (q_net st) k with
          | Some nd => (set_life k (unlisten (length (inputs_of (n_def nd)))) st, [], true)
          | None => (st, [], true)
          end
      end
    else (st, [], true).

  Definition l_new : lst := Ls [] [].
  (** a history of a client; false if an assertion failed *)
  Fixpoint l_run (st : lst) (h : list lop) : lst * list lev * bool :=
    match h with
    | [] => (st, [], true)
    | o :: h' =>
        let '(st1, t1, b1) := l_step st o in
        let '(st2, t2, b2) := l_run st1 h' in (st2, t1 ++ t2, b1 && b2)
    end.
End NetLife.
Arguments lst : clear implicits.
Arguments lev : clear implicits.
Arguments lop : clear implicits.
