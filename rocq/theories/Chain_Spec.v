(** Specification vocabulary for chained filtered lists: what the client has set, computed from the history
    alone, and the conditions on histories in terms of it. *)
From Coq Require Import List ZArith Bool Arith Permutation.
From Verif Require Import PyBase Filtered_Model Filtered_Spec Chain_Model.
Import ListNotations.

Section ChainSpec.
  Context {A C K : Type} (A_dec : forall a b : A, {a = b} + {a <> b}).
  Notation cop := (cop A C K).

  (** the settings of one list *)
  Record settings := Se { se_filter : C -> bool; se_key : option (C -> K); se_rev : bool; se_blocks : Z }.
  Record view := Vw { v_source : option (list A); v_content : A -> C; v_up : settings; v_down : settings; v_attached : bool }.

  Definition on_settings (st : stage) (f : settings -> settings) (v : view) : view :=
    match st with
    | Up => Vw (v_source v) (v_content v) (f (v_up v)) (v_down v) (v_attached v)
    | Down => Vw (v_source v) (v_content v) (v_up v) (f (v_down v)) (v_attached v)
    end.
  Definition set_source (v : view) (l : option (list A)) : view := Vw l (v_content v) (v_up v) (v_down v) (v_attached v).

  Definition v_step (v : view) (o : cop) : view :=
    match o with
    | CInsert i x => set_source v (option_map (py_insert i x) (v_source v))
    | CRemove i => set_source v (option_map (fun l => match py_del l i with Ok l' => l' | Err _ => l end) (v_source v))
    | CSource l => set_source v l
    | CContent x c => Vw (v_source v) (fun y => if A_dec y x then c else v_content v y) (v_up v) (v_down v) (v_attached v)
    | CFilter st f => on_settings st (fun e => Se f (se_key e) (se_rev e) (se_blocks e)) v
    | CKey st k => on_settings st (fun e => Se (se_filter e) k (se_rev e) (se_blocks e)) v
    | CRev st b => on_settings st (fun e => Se (se_filter e) (se_key e) b (se_blocks e)) v
    | CBegin st => on_settings st (fun e => Se (se_filter e) (se_key e) (se_rev e) (se_blocks e + 1)) v
    | CEnd st _ => on_settings st (fun e => Se (se_filter e) (se_key e) (se_rev e) (se_blocks e - 1)) v
    | CAttach => Vw (v_source v) (v_content v) (v_up v) (v_down v) true
    | CDetach => Vw (v_source v) (v_content v) (v_up v) (v_down v) false
    end.
  Definition v_run (v : view) (h : list cop) : view := fold_left v_step h v.

  Definition default_settings : settings := Se (fun _ => true) None false 0.
  Definition v_new (w : A -> C) : view := Vw None w default_settings default_settings false.

  Definition source (v : view) : list A := match v_source v with Some l => l | None => [] end.
  Definition passes (e : settings) (v : view) (x : A) : bool := se_filter e (v_content v x).
  Definition no_block (e : settings) : Prop := (se_blocks e <= 0)%Z.

  (** the source never holds an item twice; the order of a set iteration is a permutation *)
  Definition op_ok (v : view) (o : cop) : Prop :=
    match o with
    | CInsert _ x => ~ In x (source v)
    | CSource (Some l) => NoDup l
    | CEnd _ ord => forall l, Permutation (ord l) l
    | _ => True
    end.
  Fixpoint all_along (P : view -> cop -> Prop) (v : view) (h : list cop) : Prop :=
    match h with [] => True | o :: h' => P v o /\ all_along P (v_step v o) h' end.

  (** no change block is used on the list *)
  Definition blockless (st : stage) (o : cop) : Prop :=
    match o, st with
    | CBegin Up, Up | CEnd Up _, Up | CBegin Down, Down | CEnd Down _, Down => False
    | _, _ => True
    end.

  (** content changes do not alter the downstream sort key of the item *)
  Definition keeps_down_key (v : view) (o : cop) : Prop :=
    match o with
    | CContent x c => forall k, se_key (v_down v) = Some k -> k c = k (v_content v x)
    | _ => True
    end.
End ChainSpec.
Arguments view : clear implicits.
Arguments settings : clear implicits.
