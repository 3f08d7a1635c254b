(** Specification vocabulary for change blocks: what the observers of a list have been told, what was done to the
    lists, and which list hangs on which. *)
From Coq Require Import ZArith Bool List Arith Lia.
From Verif Require Import Blocks_Model.
Import ListNotations.
Open Scope Z_scope.

Definition sign (m : mark) : Z := match m with Begin => 1 | End => -1 end.

(** begins told less ends told, to an observer of list [j]; the latest event comes first *)
Fixpoint told (j : nat) (out : list (nat * mark)) : Z :=
  match out with
  | [] => 0
  | (i, m) :: out' => (if Nat.eqb i j then sign m else 0) + told j out'
  end.

(** the events of list [j], latest first *)
Definition events (j : nat) (out : list (nat * mark)) : list mark :=
  map snd (filter (fun p => Nat.eqb (fst p) j) out).

(** latest first: begin and end alternate and the first one is a begin *)
Fixpoint alternating (l : list mark) : Prop :=
  match l with
  | [] => True
  | Begin :: l' => match l' with Begin :: _ => False | _ => True end /\ alternating l'
  | End :: l' => match l' with Begin :: _ => True | _ => False end /\ alternating l'
  end.

(** blocks of list [j] begun less those ended by its clients or itself *)
Fixpoint own (j : nat) (h : list act) : Z :=
  match h with
  | [] => 0
  | Turn i m :: h' => (if Nat.eqb i j then sign m else 0) + own j h'
  | _ :: h' => own j h'
  end.

Definition container (s : blk) (j : nat) : option nat :=
  option_map r_src (find (fun r => Nat.eqb (r_who r) j) (b_regs s)).
(** what the container of a list has told so far *)
Definition told_by (c : option nat) (out : list (nat * mark)) : Z :=
  match c with Some k => told k out | None => 0 end.

(** what list [j] has yet to hear from its container: calls of its open listeners that are pending *)
Fixpoint waiting (j : nat) (regs : list reg) (l : list task) : Z :=
  match l with
  | [] => 0
  | Notify r m :: l' => (if Nat.eqb (r_who r) j && existsb (reg_eqb r) regs then sign m else 0) + waiting j regs l'
  | Inc _ :: l' => waiting j regs l'
  end.

Section Hist.
  Variable mapped : nat -> bool.
  Notation b_step := (b_step mapped).
  Notation b_run := (b_run mapped).

  (** what a list is to announce at this load: a mapped list announces at most one block, a filtered list all *)
  Definition announced (j : nat) (load : Z) : Z :=
    if mapped j then (if 0 <? load then 1 else 0) else load.

  (** what list [j] has lost or gained at its changes of container: the blocks open at the container it left less those
      open at the one it went to *)
  Fixpoint debt (j : nat) (s : blk) (h : list act) : Z :=
    match h with
    | [] => 0
    | a :: h' =>
        match a with
        | Move i c => if Nat.eqb i j then told_by (container s j) (b_out s) - told_by c (b_out s) else 0
        | _ => 0
        end + debt j (b_step s a) h'
    end.

  (** as [debt], but of the container left only what was heard counts *)
  Fixpoint heard_debt (j : nat) (s : blk) (h : list act) : Z :=
    match h with
    | [] => 0
    | a :: h' =>
        match a with
        | Move i c => if Nat.eqb i j then told_by (container s j) (b_out s) - waiting j (b_regs s) (b_stack s) - told_by c (b_out s) else 0
        | _ => 0
        end + heard_debt j (b_step s a) h'
    end.

  (** [P] holds at every step *)
  Fixpoint at_each (P : blk -> act -> Prop) (s : blk) (h : list act) : Prop :=
    match h with [] => True | a :: h' => P s a /\ at_each P (b_step s a) h' end.

  Definition quiet (s : blk) : Prop := b_stack s = [].
  (** no handler changes a container *)
  Definition moves_quiet (s : blk) (a : act) : Prop := match a with Move _ _ => quiet s | _ => True end.
  (** no handler changes a container or begins or ends a block *)
  Definition acts_quiet (s : blk) (a : act) : Prop := match a with GoOn => True | _ => quiet s end.
  (** no list hangs on itself *)
  Definition acyclic (s : blk) : Prop := exists rank : nat -> nat, forall j k, container s j = Some k -> (rank k < rank j)%nat.
  Definition moves_acyclic (s : blk) (a : act) : Prop := match a with Move _ _ => acyclic (b_step s a) | _ => True end.
  (** containers are left and taken up with no block open *)
  Definition moves_closed (s : blk) (a : act) : Prop :=
    match a with Move j c => told_by (container s j) (b_out s) = 0 /\ told_by c (b_out s) = 0 | _ => True end.

  (** list [j] keeps its container *)
  Definition stays (j : nat) (a : act) : Prop := match a with Move i _ => i <> j | _ => True end.

  (** list [i] is list [j] or hangs on it, directly or through others *)
  Inductive upstream (s : blk) (j : nat) : nat -> Prop :=
  | up_self : upstream s j j
  | up_next i k : container s i = Some k -> upstream s j k -> upstream s j i.
End Hist.
