(** Listeners of the registry, /repo/nion/utils/Registry.py 34-122, that use the registry themselves, and
    threads.  The registry is that of Registry_Model.v; here every notification is a call per listener
    that is still to be made, and any use of the registry may come between any two calls.

    Each thread has a stack of what it has still to do: a use of the registry from within a call puts
    its calls on top.  Simplified: a use of the registry is one step up to its notification (Registry.py
    has no locks; what threads can do to each other in the middle of register is left out); a listener is
    one that listens to both events (listen_component_registered_event and
    listen_component_unregistered_event, 109-117), under a number of its own, and catches what its own
    uses of the registry raise (else Event.fire would leave out the calls after it, Event.py 113-114). *)
From stdpp Require Import gmap sets list.
From Verif Require Import PyBase Registry_Model.

Section RegNet.
  Context {C T : Type} `{Countable C} `{Countable T}.

  (** what is still to be done: a call of a listener (Event.py 103-114); the rest of the loop of 121-122,
      with the components not yet visited and the size of the set when the loop began *)
  Inductive frame :=
  | FCall (l : nat) (n : @rnote C T _ _)
  | FLoop (t : T) (todo : list C) (size0 : nat).

  (** an exception of a use of the registry; the RuntimeError of a set iterator (121) *)
  Inductive nexn := Raised (e : exn) | RuntimeError.

  Record net := Net {
    n_reg : @registry C T _ _ _ _;
    n_ears : list nat;                          (* listeners, in the order of listening *)
    n_stacks : list (list frame);               (* one for each thread *)
    n_heard : list (nat * @rnote C T _ _);      (* calls made, in order *)
    n_raised : list nexn                        (* exceptions of uses of the registry, in order *)
  }.

  (** Event.py 103-114: the listeners there are when the event is fired *)
  Definition calls (ears : list nat) (n : @rnote C T _ _) : list frame := (fun l => FCall l n) <$> ears.

  Inductive nact :=
  | ADo (k : nat) (o : rop C T)                 (* register, unregister by thread [k], also from within a call *)
  | AExisting (k : nat) (t : T)                 (* fire_existing_component_registered_events, 120-122 *)
  | AGo (k : nat)                               (* thread [k] goes on *)
  | AListen (l : nat)
  | AClose (l : nat).

  (** the notifications of a use of the registry *)
  Definition new_notes (r r' : @registry C T _ _ _ _) : list (@rnote C T _ _) := drop (length (r_notes r)) (r_notes r').

  (** [order]: the iteration order of a set *)
  Variable order : gset C -> list C.

  Definition with_stack (k : nat) (fs : list frame) (s : net) : net :=
    Net (n_reg s) (n_ears s) (<[k := fs]> (n_stacks s)) (n_heard s) (n_raised s).

  (** One step of a thread.  A call of a closed listener is left out (Event.py 103-114).  121: the iterator
      of a set raises RuntimeError, also at its end, if the size of the set is not what it was.
      Simplified: if a set has changed but not its size, the loop goes on with what it had. *)
  Definition go (k : nat) (s : net) : net :=
    match n_stacks s !! k with
    | Some (FCall l n :: fs) =>
        let s' := with_stack k fs s in
        if decide (l ∈ n_ears s) then Net (n_reg s') (n_ears s') (n_stacks s') (n_heard s' ++ [(l, n)]) (n_raised s') else s'
    | Some (FLoop t todo n0 :: fs) =>
        if decide (size (components_by_type (n_reg s) t) = n0) then
          match todo with
          | [] => with_stack k fs s
          | c :: todo' =>
              let n := NRegistered c {[t]} in
              let s' := with_stack k (calls (n_ears s) n ++ FLoop t todo' n0 :: fs) s in
              Net (Reg (r_types (n_reg s)) (r_by_type (n_reg s)) (r_notes (n_reg s) ++ [n]))
                  (n_ears s') (n_stacks s') (n_heard s') (n_raised s')
          end
        else let s' := with_stack k fs s in
          Net (n_reg s') (n_ears s') (n_stacks s') (n_heard s') (n_raised s' ++ [RuntimeError])
    | _ => s
    end.

  Definition nstep (s : net) (a : nact) : net :=
    match a with
    | ADo k o =>
        match n_stacks s !! k with
        | None => s
        | Some fs =>
            let '(r', e) := reg_step (n_reg s) o in
            let s' := with_stack k (concat (calls (n_ears s) <$> new_notes (n_reg s) r') ++ fs) s in
            Net r' (n_ears s') (n_stacks s') (n_heard s') (n_raised s' ++ match e with Some x => [Raised x] | None => [] end)
        end
    | AExisting k t =>
        (* 51: an empty list of its own if the type was never registered *)
        match n_stacks s !! k, r_by_type (n_reg s) !! t with
        | Some fs, Some _ =>
            let X := components_by_type (n_reg s) t in
            with_stack k (FLoop t (order X) (size X) :: fs) s
        | _, _ => s
        end
    | AGo k => go k s
    | AListen l => Net (n_reg s) (n_ears s ++ [l]) (n_stacks s) (n_heard s) (n_raised s)
    | AClose l => Net (n_reg s) (filter (fun x => x ≠ l) (n_ears s)) (n_stacks s) (n_heard s) (n_raised s)
    end.

  Definition nrun (l : list nact) (s : net) : net := fold_left nstep l s.

  (** 34-40, with so many threads *)
  Definition net_new (threads : nat) : net := Net reg_new [] (replicate threads []) [] [].
End RegNet.
Arguments frame C T {_ _}.
Arguments net C T {_ _ _ _}.
Arguments nact C T : clear implicits.
