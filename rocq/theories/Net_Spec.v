(** Specification for networks of streams: the value a stream should have is its function of the values its inputs should
    have, down to the ValueStreams; the number of ways a change can reach a stream is the number of paths. *)
From Coq Require Import List Arith Bool.
From Verif Require Import PyBase Net_Model.
Import ListNotations.

Section NetSpec.
  Context {V : Type}.

  Inductive means (s : net V) : nat -> V -> Prop :=
  | means_val k v ins : nth_error s k = Some (Node DVal v ins) -> means s k v
  | means_map k i f v0 ins v w :
      nth_error s k = Some (Node (DMap i f) v0 ins) -> means s i v -> f v = Ok w -> means s k w
  | means_comb k l f v0 ins vs w :
      nth_error s k = Some (Node (DComb l f) v0 ins) -> means_all s l vs -> f vs = Ok w -> means s k w
  with means_all (s : net V) : list nat -> list V -> Prop :=
  | means_nil : means_all s [] []
  | means_cons i l v vs : means s i v -> means_all s l vs -> means_all s (i :: l) (v :: vs).

  Definition value (s : net V) (k : nat) : option V :=
    match nth_error s k with Some nd => Some (n_val nd) | None => None end.

  (** the functions of the streams up to [k] never raise *)
  Definition never_raises (d : ndef V) : Prop :=
    match d with
    | DVal => True
    | DMap _ f => forall v, exists w, f v = Ok w
    | DComb _ f => forall vs, exists w, f vs = Ok w
    end.
  Definition safe_to (s : net V) (k : nat) : Prop :=
    forall j nd, j <= k -> nth_error s j = Some nd -> never_raises (n_def nd).

  Definition inputs (s : net V) (k : nat) : list nat :=
    match nth_error s k with
    | Some (Node (DMap i _) _ _) => [i]
    | Some (Node (DComb l _) _ _) => l
    | _ => []
    end.

  (** the number of paths from [i] to [k] in a network whose inputs come earlier; a stream that is an input twice counts
      twice *)
  Fixpoint paths_upto (n : nat) (s : net V) (i k : nat) : nat :=
    match n with
    | 0 => 0
    | S n' => (if i =? k then 1 else 0) + list_sum (map (paths_upto n' s i) (inputs s k))
    end.
  Definition paths (s : net V) (i k : nat) : nat := paths_upto (S k) s i k.

  (** the values fired at stream [k] *)
  Definition fired (k : nat) (t : list (nat * V)) : list V := map snd (filter (fun e => fst e =? k) t).

  Definition all_combined (s : net V) : Prop :=
    forall j nd, nth_error s j = Some nd -> match n_def nd with DMap _ _ => False | _ => True end.
End NetSpec.
