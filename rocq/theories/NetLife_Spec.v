(** Specification for networks of streams that are given up: which streams are still wanted, what happens when one is closed, and
    the network in which nothing is ever given up. *)
From Coq Require Import List Arith Bool.
From Verif Require Import PyBase Net_Model Net_Spec NetLife_Model.
Import ListNotations.

Section NetLifeSpec.
  Context {V : Type}.

  Definition life_of (st : lst V) (k : nat) : option life := nth_error (q_life st) k.
  (** not deleted *)
  Definition alive (st : lst V) (k : nat) : Prop := exists lf, life_of st k = Some lf /\ l_active lf = true.
  Definition closed (st : lst V) (k : nat) : Prop := exists lf, life_of st k = Some lf /\ l_active lf = false.
  Definition value_of (st : lst V) (k : nat) : option V := value (q_net st) k.

  (** wanted: a client has a reference; or nobody ever took one; or it was never finished; or a wanted stream is made of it *)
  Inductive wanted (st : lst V) : nat -> Prop :=
  | wanted_client k lf : life_of st k = Some lf -> 0 < l_ext lf -> wanted st k
  | wanted_fresh k lf : life_of st k = Some lf -> l_used lf = false -> wanted st k
  | wanted_input j k : wanted st j -> In k (inputs (q_net st) j) -> wanted st k.

  (** how often [k] is an input of streams not deleted *)
  Fixpoint uses_from (k : nat) (s : net V) (ls : list life) : nat :=
    match s, ls with
    | nd :: s', lf :: ls' =>
        (if l_active lf then count_occ Nat.eq_dec (inputs_of (n_def nd)) k else 0) + uses_from k s' ls'
    | _, _ => 0
    end.
  Definition uses (st : lst V) (k : nat) : nat := uses_from k (q_net st) (q_life st).

  Definition derived (st : lst V) (k : nat) : Prop :=
    exists nd, nth_error (q_net st) k = Some nd /\ n_def nd <> DVal.

  (** what is seen when stream [k] is closed: one last firing of the value it has, unless it is a ValueStream *)
  Definition closing (st : lst V) (k : nat) : list (lev V) :=
    EClose k :: match nth_error (q_net st) k with
                | Some (Node DVal _ _) | None => []
                | Some nd => [EFire k (n_val nd)]
                end.

  (** the values fired at stream [k] *)
  Fixpoint heard (k : nat) (t : list (lev V)) : list V :=
    match t with
    | [] => []
    | EFire j v :: t' => if j =? k then v :: heard k t' else heard k t'
    | EClose _ :: t' => heard k t'
    end.
  Definition closings (k : nat) (t : list (lev V)) : nat :=
    length (filter (fun e => match e with EClose j => j =? k | EFire _ _ => false end) t).

  (** the same history in a network in which nothing is given up *)
  Fixpoint keeping (h : list (lop V)) : list (nop V) :=
    match h with
    | [] => []
    | LDo o :: h' => o :: keeping h'
    | _ :: h' => keeping h'
    end.
  (** the client only does what it may *)
  Fixpoint lawful (neq : V -> V -> bool) (none : V) (st : lst V) (h : list (lop V)) : Prop :=
    match h with
    | [] => True
    | o :: h' => allowed st o = true /\ lawful neq none (fst (fst (l_step neq none st o))) h'
    end.
  (** its functions never raise *)
  Definition quiet_op (o : lop V) : Prop :=
    match o with
    | LDo (MakeMap i f) => forall v, exists w, f v = Ok w
    | LDo (MakeComb l f) => forall vs, exists w, f vs = Ok w
    | _ => True
    end.
End NetLifeSpec.
