(** Model of the synchronous streams of /repo/nion/utils/Stream.py: ValueStream, MapStream, CombineLatestStream,
    ConcatStream and PropertyChangedEventStream.  A stream is a state machine over the events it hears; its outputs are
    the values fired by its value_stream event and the exceptions raised to the caller.  Listeners of a stream are
    recorders: they do not set its inputs again while it fires.  The functions given to streams are total. *)
From Coq Require Import List Arith Bool.
From Verif Require Import PyBase.
Import ListNotations.

Inductive out (V : Type) := Fire (v : V) | Exc (e : exn).
Arguments Fire {V} v.
Arguments Exc {V} e.

(** a machine run over its events: final state, all outputs in order *)
Fixpoint run_out {S I O : Type} (step : S -> I -> S * list O) (s : S) (l : list I) : S * list O :=
  match l with
  | [] => (s, [])
  | i :: l' => let (s1, o1) := step s i in let (s2, o2) := run_out step s1 l' in (s2, o1 ++ o2)
  end.

(** ** ValueStream, Stream.py 42-59.  The state is the value, an event is an assignment; [neq] is Python's [!=]. *)
Definition vs_step {V} (neq : V -> V -> bool) (v x : V) : V * list (out V) :=
  if neq v x then (x, [Fire x]) else (v, []).

(** ** MapStream, Stream.py 62-95.  [None] is Python's None. *)
Record mstream (B : Type) := MStream { ms_value : option B; ms_open : bool; ms_refs : nat }.
Arguments MStream {B} _ _ _.
Arguments ms_value {B} _.
Arguments ms_open {B} _.
Arguments ms_refs {B} _.
Inductive mevent (A : Type) := MSource (a : A) | MClose.
Arguments MSource {A} a.
Arguments MClose {A}.
Section MapStream.
  Context {A B : Type} (neq : option B -> option B -> bool) (fn : A -> option B).
  (** Stream.py 75-79 *)
  Definition ms_update (s : mstream B) (a : A) : mstream B * list (out (option B)) :=
    let new := fn a in
    if neq new (ms_value s) then (MStream new (ms_open s) (ms_refs s), [Fire new]) else (s, []).
  (** Stream.py 65-82 *)
  Definition ms_make (a : A) : mstream B * list (out (option B)) := ms_update (MStream None true 1) a.
  (** Stream.py 81 (source event), 84-91 (close; closing again fires, then calls None.close) *)
  Definition ms_step (s : mstream B) (e : mevent A) : mstream B * list (out (option B)) :=
    match e with
    | MSource a => if ms_open s then ms_update s a else (s, [])
    | MClose =>
        if ms_open s then (MStream None false (ms_refs s - 1), [Fire (ms_value s)])
        else (s, [Fire (ms_value s); Exc AttributeError])
    end.
End MapStream.

(** ** CombineLatestStream, Stream.py 98-139 *)
Record cstream (V W : Type) := CStream { cs_values : list V; cs_value : option W; cs_open : bool }.
Arguments CStream {V W} _ _ _.
Arguments cs_values {V W} _.
Arguments cs_value {V W} _.
Arguments cs_open {V W} _.
Inductive cevent (V : Type) := CInput (i : nat) (v : V) | CClose.
Arguments CInput {V} i v.
Arguments CClose {V}.
Section Combine.
  Context {V W : Type} (fn : list V -> W).
  (** Python list item assignment at a valid index, Stream.py 130 *)
  Fixpoint set_nth (i : nat) (v : V) (l : list V) : list V :=
    match l, i with [], _ => [] | _ :: l', 0 => v :: l' | x :: l', S i' => x :: set_nth i' v l' end.
  (** Stream.py 133-135 *)
  Definition cs_changed (values : list V) : cstream V W * list (out (option W)) :=
    (CStream values (Some (fn values)) true, [Fire (Some (fn values))]).
  (** Stream.py 101-116 *)
  Definition cs_make (values : list V) : cstream V W * list (out (option W)) := cs_changed values.
  (** Stream.py 129-131, 118-127 (closing again fires, then enumerates None) *)
  Definition cs_step (s : cstream V W) (e : cevent V) : cstream V W * list (out (option W)) :=
    match e with
    | CInput i v => if cs_open s then cs_changed (set_nth i v (cs_values s)) else (s, [])
    | CClose =>
        if cs_open s then (CStream [] None false, [Fire (cs_value s)])
        else (s, [Fire (cs_value s); Exc TypeError])
    end.
End Combine.

(** ** ConcatStream, Stream.py 313-359.  Inner streams are numbered; [k_inner] is their current values and [k_refs]
    the references the concat stream holds on each.  An outer event carries the item and the inner stream that
    concat_fn returns for it (any stream, new or used before).  Inner streams are kept alive by someone else; one closed
    by the release of its last reference and then returned again is not modelled. *)
Record kstream (V : Type) := KStream {
  k_value : option V; k_cur : option nat; k_open : bool; k_inner : nat -> option V; k_refs : nat -> nat }.
Arguments KStream {V} _ _ _ _ _.
Arguments k_value {V} _.
Arguments k_cur {V} _.
Arguments k_open {V} _.
Arguments k_inner {V} _.
Arguments k_refs {V} _.
Inductive kevent (A V : Type) := KOuter (item : A) (made : nat) | KInner (id : nat) (v : option V) | KClose.
Arguments KOuter {A V} item made.
Arguments KInner {A V} id v.
Arguments KClose {A V}.
Section Concat.
  Context {A V : Type} (truthy : A -> bool).
  Definition upd {X} (f : nat -> X) (k : nat) (x : X) : nat -> X := fun j => if Nat.eqb j k then x else f j.
  (** Stream.py 344-348 *)
  Definition k_release (s : kstream V) : kstream V :=
    match k_cur s with
    | Some id => KStream (k_value s) None (k_open s) (k_inner s) (upd (k_refs s) id (k_refs s id - 1))
    | None => s
    end.
  (** Stream.py 343-359; [sel] is the inner stream made, if the item is true *)
  Definition k_changed (sel : option nat) (s : kstream V) : kstream V * list (out (option V)) :=
    let s1 := k_release s in
    match sel with
    | Some id =>
        let v := k_inner s1 id in
        (KStream v (Some id) (k_open s1) (k_inner s1) (upd (k_refs s1) id (k_refs s1 id + 1)), [Fire v])
    | None => (KStream None (k_cur s1) (k_open s1) (k_inner s1) (k_refs s1), [Fire None])
    end.
  (** Stream.py 316-328, before the first item *)
  Definition k_blank (inner : nat -> option V) : kstream V := KStream None None true inner (fun _ => 0).
  (** Stream.py 328 (outer event), 350-352 (inner event), 331-337 (close; again: fires None, then calls None.close) *)
  Definition k_step (s : kstream V) (e : kevent A V) : kstream V * list (out (option V)) :=
    match e with
    | KOuter item made => if k_open s then k_changed (if truthy item then Some made else None) s else (s, [])
    | KInner id v =>
        let inner := upd (k_inner s) id v in
        match k_cur s with
        | Some c => if Nat.eqb c id then (KStream v (k_cur s) (k_open s) inner (k_refs s), [Fire v])
                    else (KStream (k_value s) (k_cur s) (k_open s) inner (k_refs s), [])
        | None => (KStream (k_value s) (k_cur s) (k_open s) inner (k_refs s), [])
        end
    | KClose =>
        let (s1, o) := k_changed None s in
        if k_open s then (KStream (k_value s1) (k_cur s1) false (k_inner s1) (k_refs s1), o)
        else (s1, o ++ [Exc AttributeError])
    end.
End Concat.

(** ** PropertyChangedEventStream, Stream.py 260-310.  Objects are numbered; [q_prop] is the current value of the
    property of each.  A source event carries the object or None; [truthy] is the truth value of the object. *)
Record qstream (V : Type) := QStream { q_value : option V; q_listen : option nat; q_open : bool; q_prop : nat -> option V }.
Arguments QStream {V} _ _ _ _.
Arguments q_value {V} _.
Arguments q_listen {V} _.
Arguments q_open {V} _.
Arguments q_prop {V} _.
Inductive qevent (V : Type) := QSource (o : option nat) | QProp (id : nat) (v : option V) | QOther (id : nat) | QClose.
Arguments QSource {V} o.
Arguments QProp {V} id v.
Arguments QOther {V} id.
Arguments QClose {V}.
Section PropStream.
  Context {V : Type} (cmp : option V -> option V -> bool) (truthy : nat -> bool).
  (** Stream.py 305-310, for the stream's own property name; [id] is the current source object *)
  Definition q_changed (id : nat) (s : qstream V) : qstream V * list (out (option V)) :=
    let new := q_prop s id in
    if negb (cmp new (q_value s)) then (QStream new (q_listen s) (q_open s) (q_prop s), [Fire new]) else (s, []).
  (** Stream.py 280-287 *)
  Definition q_source (o : option nat) (s : qstream V) : qstream V * list (out (option V)) :=
    match o with
    | Some id => if truthy id then q_changed id (QStream (q_value s) (Some id) (q_open s) (q_prop s))
                 else (QStream (q_value s) None (q_open s) (q_prop s), [])
    | None => (QStream (q_value s) None (q_open s) (q_prop s), [])
    end.
  (** Stream.py 265-278, before the first source object *)
  Definition q_blank (prop : nat -> option V) : qstream V := QStream None None true prop.
  (** Stream.py 288 (source), 286 (the object's property_changed_event), 291-299 (close; again: None.close) *)
  Definition q_step (s : qstream V) (e : qevent V) : qstream V * list (out (option V)) :=
    match e with
    | QSource o => if q_open s then q_source o s else (s, [])
    | QProp id v =>
        let s1 := QStream (q_value s) (q_listen s) (q_open s) (fun j => if Nat.eqb j id then v else q_prop s j) in
        match q_listen s with
        | Some c => if Nat.eqb c id then q_changed id s1 else (s1, [])
        | None => (s1, [])
        end
    | QOther _ => (s, [])
    | QClose => if q_open s then (QStream (q_value s) None false (q_prop s), []) else (s, [Exc AttributeError])
    end.
End PropStream.
