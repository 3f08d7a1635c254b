(** Property C92: a filtered list whose container is a filtered list. *)
From Coq Require Import List ZArith Bool Arith Permutation Sorted Lia.
From Verif Require Import PyBase Filtered_Model Filtered_Spec Filtered_Proofs Filtered_Proofs2 Filtered_Proofs3 Chain_Model Chain_Spec Chain_Proofs Chain_Proofs2 Chain_Proofs3.
Import ListNotations.

Local Notation up c := (fs_items (c_up c)).
Local Notation down c := (fs_items (c_down c)).

Section Props.
  Context {A C K : Type} (A_dec : forall a b : A, {a = b} + {a <> b}) (lt : K -> K -> bool).
  Notation cop := (cop A C K).

  Lemma chain_perm (v : view A C K) c : linked v c -> no_block (v_down v) -> v_attached v = true ->
    Permutation (down c) (filter (passes (v_down v) v) (up c)).
  Proof.
    intros L Hd Ha. destruct (inv_conn _ (up c) (lk_down _ _ L)) as [_ Hm]; [rewrite (lk_cont _ _ L), Ha; reflexivity|].
    destruct (lk_adown _ _ L) as (B1 & _ & _ & B4 & B5). destruct (lk_down _ _ L) as [[_ Hp] _].
    rewrite Hp by (rewrite B4; exact Hd). rewrite Hm. erewrite filter_ext; [reflexivity|]. intros x. unfold matching, passes. rewrite B1, B5. reflexivity.
  Qed.
  Lemma chain_up_perm (v : view A C K) c : linked v c -> no_block (v_up v) ->
    Permutation (up c) (filter (passes (v_up v) v) (source v)).
  Proof.
    intros L Hu. destruct (lk_aup _ _ L) as (B1 & _ & _ & B4 & B5). destruct (lk_up _ _ L) as [[_ Hp] Hl].
    rewrite Hp by (rewrite B4; exact Hu). rewrite <- (contents_source _ _ L), <- (inv_master _ (lk_up _ _ L)).
    erewrite filter_ext; [reflexivity|]. intros x. unfold matching, passes. rewrite B1, B5. reflexivity.
  Qed.

  (** the downstream list holds exactly the source items that pass both filters, whatever was done to the source,
      to the items and to either list *)
  Theorem chain_members (w : A -> C) (h : list cop) :
    let v := v_run A_dec (v_new w) h in
    let c := fst (c_run A_dec lt (c_new w) h) in
    all_along A_dec op_ok (v_new w) h -> no_block (v_up v) -> no_block (v_down v) -> v_attached v = true ->
    Permutation (down c) (filter (fun x => passes (v_up v) v x && passes (v_down v) v x) (source v)).
  Proof.
    intros v c Hok Hu Hd Ha. destruct (c_new_linked A_dec lt w) as (L0 & _).
    destruct (c_run_linked A_dec lt h _ _ L0 Hok) as (L & _). fold v c in L.
    rewrite (chain_perm v c L Hd Ha), (filter_perm _ _ _ (chain_up_perm v c L Hu)), filter_filter. reflexivity.
  Qed.

  (** order: without sort keys that of the source, with an upstream key that of the upstream list *)
  Theorem chain_order (w : A -> C) (h : list cop) :
    let v := v_run A_dec (v_new w) h in
    let c := fst (c_run A_dec lt (c_new w) h) in
    all_along A_dec op_ok (v_new w) h -> Forall (blockless Down) h -> v_attached v = true -> se_key (v_down v) = None ->
    no_block (v_down v) ->
    down c = filter (passes (v_down v) v) (up c) /\
    (Forall (blockless Up) h -> no_block (v_up v) -> se_key (v_up v) = None ->
     down c = filter (fun x => passes (v_up v) v x && passes (v_down v) v x) (source v)).
  Proof.
    intros v c Hok Hbl Ha Hk Hd. destruct (c_new_linked A_dec lt w) as (L0 & U0 & D0 & _).
    destruct (c_run_linked A_dec lt h _ _ L0 Hok) as (L & U & D & _). fold v c in L, U, D. specialize (D Hbl D0).
    destruct (inv_conn _ (up c) (lk_down _ _ L)) as [_ Hm]; [rewrite (lk_cont _ _ L), Ha; reflexivity|].
    assert (E : down c = filter (passes (v_down v) v) (up c)).
    { destruct (lk_adown _ _ L) as (B1 & B2 & _ & B4 & B5). rewrite (D ltac:(rewrite B4; exact Hd) ltac:(congruence)), Hm.
      apply filter_ext. intros x. unfold matching, passes. rewrite B1, B5. reflexivity. }
    split; [exact E|]. intros Hbu Hu Hku. specialize (U Hbu U0). rewrite E.
    destruct (lk_aup _ _ L) as (B1 & B2 & _ & B4 & B5). rewrite (U ltac:(rewrite B4; exact Hu) ltac:(congruence)).
    rewrite (inv_master _ (lk_up _ _ L)), (contents_source _ _ L), filter_filter. apply filter_ext. intros x.
    unfold matching, passes. rewrite B1, B5. reflexivity.
  Qed.

  (** a downstream sort key decides the order *)
  Theorem chain_sorted (w : A -> C) (h : list cop) k :
    let v := v_run A_dec (v_new w) h in
    let c := fst (c_run A_dec lt (c_new w) h) in
    all_along A_dec op_ok (v_new w) h -> strict_weak_order lt -> all_along A_dec keeps_down_key (v_new w) h ->
    no_block (v_down v) -> se_key (v_down v) = Some k ->
    ordered_by lt (se_rev (v_down v)) (fun x => k (v_content v x)) (down c).
  Proof.
    intros v c Hok Hw Hkk Hd Hk. destruct (c_new_linked A_dec lt w) as (L0 & _ & _ & S0).
    destruct (c_run_linked A_dec lt h _ _ L0 Hok) as (L & _ & _ & S). fold v c in L, S. specialize (S Hw Hkk S0).
    destruct (lk_adown _ _ L) as (B1 & B2 & B3 & B4 & B5). apply ordered_by_srt. rewrite <- B3, <- B5.
    apply S; [congruence|]. left. rewrite B4. exact Hd.
  Qed.

  (** the notifications of the downstream list always describe it *)
  Theorem chain_observer_reconstructs (c : chain A C K) (h : list cop) :
    f_follows (down c) (snd (c_run A_dec lt c h)) (down (fst (c_run A_dec lt c h))).
  Proof.
    revert c. induction h as [|o h IH]; intros c; cbn [c_run]; [reflexivity|].
    destruct (c_step A_dec lt c o) as [c1 t1] eqn:E. specialize (IH c1). destruct (c_run A_dec lt c1 h) as [c2 t2]. cbn [fst snd] in *.
    eapply f_follows_app; [eapply c_step_follows; exact E|exact IH].
  Qed.

  (** the change blocks: whatever is done to either list, every item notification of the downstream list is made
      inside a block it has opened, and in the end all its blocks are closed *)
  Theorem chain_blocks (c : chain A C K) (h : list cop) : nesting 0 (snd (c_run A_dec lt c h)) = Some 0.
  Proof.
    revert c. induction h as [|o h IH]; intros c; cbn [c_run]; [reflexivity|].
    pose proof (c_step_blocks A_dec lt c o) as H. destruct (c_step A_dec lt c o) as [c1 t1]. specialize (IH c1).
    destruct (c_run A_dec lt c1 h) as [c2 t2]. cbn [fst snd] in *. rewrite (nesting_app _ _ _ 0 H). exact IH.
  Qed.

  (** an upstream rebuild names the wrong items in its removals (C16); the downstream list passes the change on
      with the right ones *)
  Theorem chain_names_repaired (c : chain A C K) (o : cop) :
    match o with CFilter Down _ | CKey Down _ | CRev Down _ | CEnd Down _ => False | _ => True end ->
    f_names (down c) (snd (c_step A_dec lt c o)) (down (fst (c_step A_dec lt c o))).
  Proof.
    intros Hop.
    assert (U : forall fo, f_names (down c) (snd (on_up A_dec lt c fo)) (down (fst (on_up A_dec lt c fo)))).
    { intros fo. unfold on_up. destruct (f_step A_dec lt (c_up c) fo) as [[u tu] eu]. destruct (deliver A_dec lt (c_down c) tu) as [d1 t1] eqn:E1.
      eapply deliver_names. exact E1. }
    assert (D : forall fo, ~ full_rebuild (c_down c) fo -> f_names (down c) (snd (on_down A_dec lt c fo)) (down (fst (on_down A_dec lt c fo)))).
    { intros fo Hf. unfold on_down. destruct (f_step A_dec lt (c_down c) fo) as [[d td] ed] eqn:E.
      apply f_step_trace in E as (_ & E & _). apply E. exact Hf. }
    destruct o as [i x|i|l|x y|st f|st k|st b|st|st ord| |]; cbn [c_step]; try apply U; try (apply D; intros []);
      try (destruct st; [apply U|first [solve [destruct Hop]|solve [apply D; intros []]]]).
    destruct (on_content A_dec lt c x y) as [c' t] eqn:E. eapply content_names. exact E.
  Qed.
End Props.
Print Assumptions chain_members.
Print Assumptions chain_order.
Print Assumptions chain_sorted.
Print Assumptions chain_observer_reconstructs.
Print Assumptions chain_names_repaired.
Print Assumptions chain_blocks.

(** ** examples: items are numbers, content is a number, initially the item itself *)
Definition chain_h : list (cop nat nat nat) :=
  [CSource (Some [5; 2; 9; 4]); CAttach; CFilter Down Nat.even; CFilter Up (fun c => Nat.ltb c 9); CInsert 1 8; CContent 5 6; CRemove 2].
Example chain_members_ex :
  down (fst (c_run Nat.eq_dec Nat.ltb (c_new (fun x => x)) chain_h)) = [5; 8; 4] /\
  all_along Nat.eq_dec op_ok (v_new (fun x => x)) chain_h.
Proof.
  split; [vm_compute; reflexivity|]. cbn. repeat split; try (repeat constructor; cbn; intuition discriminate).
Qed.
Example chain_order_ex :
  let v := v_run Nat.eq_dec (v_new (fun x => x)) chain_h in
  source v = [5; 8; 9; 4] /\ map (passes (v_up v) v) (source v) = [true; true; false; true] /\
  Forall (blockless Up) chain_h /\ Forall (blockless Down) chain_h /\ v_attached v = true.
Proof. cbn. repeat split; repeat constructor. Qed.
Example chain_sorted_ex :
  let h := chain_h ++ [CKey Down (Some (fun c => c)); CInsert 0 0] in
  down (fst (c_run Nat.eq_dec Nat.ltb (c_new (fun x => x)) h)) = [0; 4; 5; 8].
Proof. vm_compute. reflexivity. Qed.
Example chain_observer_ex :
  snd (c_run Nat.eq_dec Nat.ltb (fst (c_run Nat.eq_dec Nat.ltb (c_new (fun x => x)) chain_h)) [CFilter Up (fun _ => true)]) =
  [FReset; FBegin; FBegin; FRem 5 0; FEnd; FSelRem 2; FBegin; FRem 8 0; FEnd; FSelRem 1; FBegin; FRem 4 0; FEnd; FSelRem 0;
   FBegin; FIns 5 0; FEnd; FSelIns 0; FBegin; FIns 8 1; FEnd; FSelIns 1; FSelIns 2; FBegin; FIns 4 2; FEnd; FSelIns 3; FEnd].
Proof. vm_compute. reflexivity. Qed.
Example chain_blocks_ex :
  let t := snd (c_run Nat.eq_dec Nat.ltb (c_new (fun x => x)) (chain_h ++ [CFilter Up (fun _ => true)])) in
  length (filter (fun e => match e with FBegin => true | _ => false end) t) = 22 /\ nesting 0 (firstn 40 t) = Some 2 /\ nesting 0 t = Some 0.
Proof. vm_compute. auto. Qed.
Example chain_names_ex :
  let c := fst (c_run Nat.eq_dec Nat.ltb (c_new (fun x => x)) chain_h) in
  removals (snd (fst (f_step Nat.eq_dec Nat.ltb (c_up c) (FSetFilter (fun _ => true))))) = [(5, 2); (8, 1); (4, 0)] /\
  removals (snd (c_step Nat.eq_dec Nat.ltb c (CFilter Up (fun _ => true)))) = [(5, 0); (8, 0); (4, 0)] /\ down c = [5; 8; 4].
Proof. vm_compute. auto. Qed.

(** An item moved by the upstream sort key while a downstream change block is open is removed from and inserted in the
    downstream master list; after the block the downstream list keeps the old order. *)
Theorem chain_block_order_refuted :
  exists (w : nat -> nat) (h : list (cop nat nat nat)),
    all_along Nat.eq_dec op_ok (v_new w) h /\ v_attached (v_run Nat.eq_dec (v_new w) h) = true /\
    se_key (v_down (v_run Nat.eq_dec (v_new w) h)) = None /\ se_blocks (v_down (v_run Nat.eq_dec (v_new w) h)) = 0%Z /\
    let c := fst (c_run Nat.eq_dec Nat.ltb (c_new w) h) in
    up c = [2; 3; 1] /\ down c = [1; 2; 3].
Proof.
  exists (fun x => x), [CSource (Some [1; 2; 3]); CKey Up (Some (fun c => c)); CAttach; CFilter Down (fun _ => true);
    CBegin Down; CContent 1 7; CEnd Down (fun l => l)].
  split; [|vm_compute; auto 6]. cbn. repeat split; try (repeat constructor; cbn; intuition discriminate).
  all: intros l; reflexivity.
Qed.
Print Assumptions chain_block_order_refuted.
