(** What subscribers of a context can know. *)
From Coq Require Import List Bool Arith.
From Verif Require Import PyBase CtxNet_Model.
Import ListNotations.

Section Spec.
  Context {U : Type} (U_dec : forall x y : U, {x = y} + {x <> y}) (uuid : nat -> U).
  Notation ctxnet := (ctxnet U).
  Notation xact := (xact U).

  (** the subscribers of [u] now *)
  Definition subscribers (u : U) (s : ctxnet) : list nat := x_list s u (x_gen s u).
  (** the object subscriber [id] was last told is there, as far as it was told of [u] *)
  Definition about (u : U) (id : nat) (c : U * nat * news) : bool :=
    (if U_dec (fst (fst c)) u then true else false) && (snd (fst c) =? id).
  Fixpoint belief_from (b : option nat) (u : U) (id : nat) (l : list (U * nat * news)) : option nat :=
    match l with
    | [] => b
    | c :: l' => belief_from (if about u id c then match snd c with Here r => Some r | Gone _ => None end else b) u id l'
    end.
  Definition belief := belief_from None.
  (** the news of [u] among the news *)
  Definition concerning (u : U) (l : list (U * nat * news)) : list (U * nat * news) :=
    filter (fun c => if U_dec (fst (fst c)) u then true else false) l.
  (** how often it was told just this *)
  Definition news_dec (x y : U * nat * news) : {x = y} + {x <> y}.
  Proof. repeat decide equality. Defined.
  Definition times (u : U) (id : nat) (v : news) (l : list (U * nat * news)) : nat := count_occ news_dec l (u, id, v).

  (** a use of the context for [u] is under way *)
  Definition frame_of (f : frame U) : U := match f with FTell u _ _ _ => u | FFire u _ => u end.
  Definition idle (u : U) (s : ctxnet) : Prop := forall f, In f (x_stack s) -> frame_of f <> u.
  (** the event for the unregistration of [u] is being fired *)
  Definition leaving (u : U) (s : ctxnet) : Prop := exists o, In (FFire u (Gone o)) (x_stack s).

  (** [u] is registered and unregistered only when no such use for it is under way, and nobody subscribes to it while the event
      for its unregistration is fired *)
  Definition calm (u : U) (s : ctxnet) (a : xact) : Prop :=
    match a with
    | XRegister r | XUnregister r => uuid r = u -> idle u s
    | XSubscribe u' _ => u' = u -> ~ leaving u s
    | XGo => True
    end.
  (** [u] is not registered, unregistered or subscribed to *)
  Definition leaves (u : U) (a : xact) : Prop :=
    match a with XRegister r | XUnregister r => uuid r <> u | XSubscribe u' _ => u' <> u | XGo => True end.

  Fixpoint throughout (P : ctxnet -> xact -> Prop) (s : ctxnet) (h : list xact) : Prop :=
    match h with [] => True | a :: h' => P s a /\ throughout P (xstep U_dec uuid s a) h' end.
  (** a use of the context that began on a stack of [n] is under way until the last step *)
  Definition busy (n : nat) (s : ctxnet) (_ : xact) : Prop := n < length (x_stack s).
  Definition runs_until (n : nat) (s : ctxnet) (h : list xact) : Prop :=
    throughout (busy n) s h /\ length (x_stack (xrun U_dec uuid h s)) = n.
  (** states that can come about *)
  Definition reached (s : ctxnet) : Prop := exists h, s = xrun U_dec uuid h x_new.
End Spec.
