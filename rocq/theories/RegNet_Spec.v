(** What a listener of the registry can know. *)
From stdpp Require Import gmap sets list.
From Verif Require Import PyBase Registry_Model Registry_Spec RegNet_Model.

Section Spec.
  Context {C T : Type} `{Countable C} `{Countable T}.
  Notation note := (@rnote C T _ _).

  (** the notification is about component [c] and type [t] *)
  Definition about (c : C) (t : T) (n : note) : Prop :=
    match n with NRegistered c' ts | NUnregistered c' ts => c' = c /\ t ∈ ts end.
  Global Instance about_dec c t n : Decision (about c t n).
  Proof. destruct n; simpl; apply _. Defined.
  Definition is_reg (n : note) : bool := match n with NRegistered _ _ => true | NUnregistered _ _ => false end.

  (** what was told last of [c] and [t] *)
  Fixpoint latest (c : C) (t : T) (l : list note) : option bool :=
    match l with
    | [] => None
    | n :: l' => match latest c t l' with
                 | Some b => Some b
                 | None => if decide (about c t n) then Some (is_reg n) else None
                 end
    end.
  (** how many more times it was told registered than unregistered *)
  Fixpoint tally (c : C) (t : T) (l : list note) : Z :=
    match l with
    | [] => 0
    | n :: l' => (if decide (about c t n) then if is_reg n then 1 else -1 else 0) + tally c t l'
    end.

  (** what listener [l] has been told, in order *)
  Definition told (l : nat) (s : net C T) : list note := snd <$> filter (fun p => p.1 = l) (n_heard s).
  (** what is still to be told to it *)
  Definition waits (l : nat) (s : net C T) : list note :=
    omap (fun f => match f with FCall l' n => if decide (l' = l) then Some n else None | FLoop _ _ _ => None end)
         (concat (n_stacks s)).

  (** a listener that is not there yet *)
  Definition fresh (l : nat) (s : net C T) : Prop := l ∉ n_ears s /\ told l s = [] /\ waits l s = [].

  (** nothing is under way *)
  Definition quiet (s : net C T) : Prop := Forall (fun fs => fs = []) (n_stacks s).

  (** something is under way that is about [c] and [t] *)
  Definition pending (l : nat) (c : C) (t : T) (f : frame C T) : Prop :=
    match f with
    | FCall l' n => l' = l /\ about c t n
    | FLoop t' todo _ => t' = t /\ c ∈ todo
    end.
  Definition settled (l : nat) (c : C) (t : T) (s : net C T) : Prop := Forall (fun f => ~ pending l c t f) (concat (n_stacks s)).

  (** the use of the registry is about [c] and [t] *)
  Definition touches (c : C) (t : T) (o : rop C T) : Prop :=
    match o with ORegister c' ts | OUnregister c' (Some ts) => c' = c /\ t ∈ ts | OUnregister c' None => c' = c end.
  (** types are named *)
  Definition named (o : rop C T) : Prop := match o with OUnregister _ None => False | _ => True end.

  (** a step that leaves listener [l] alone *)
  Definition spares (l : nat) (a : nact C T) : Prop :=
    match a with AListen l' | AClose l' => l' <> l | _ => True end.
  (** sets as arguments *)
  Definition proper (a : nact C T) : Prop := match a with ADo _ o => set_args o | _ => True end.

  (** [c] and [t] are changed only when nothing about them is under way *)
  Definition calm (l : nat) (c : C) (t : T) (s : net C T) (a : nact C T) : Prop :=
    match a with
    | ADo _ o => touches c t o -> settled l c t s /\ named o
    | _ => True
    end.

  (** the registry is used only when nothing is under way *)
  Definition in_turn (s : net C T) (a : nact C T) : Prop :=
    match a with ADo _ _ | AExisting _ _ => quiet s | _ => True end.

  Definition loopless (a : nact C T) : Prop := match a with AExisting _ _ => False | _ => True end.
  Definition named_act (c : C) (a : nact C T) : Prop := match a with ADo _ (OUnregister c' None) => c' <> c | _ => True end.

  Section Always.
    Variable order : gset C -> list C.
    Fixpoint throughout (P : net C T -> nact C T -> Prop) (s : net C T) (l : list (nact C T)) : Prop :=
      match l with [] => True | a :: l' => P s a /\ throughout P (nstep order s a) l' end.
    (** a state that can come about *)
    Definition reached (s : net C T) : Prop := exists n l, Forall proper l /\ s = nrun order l (net_new n).
  End Always.
End Spec.
