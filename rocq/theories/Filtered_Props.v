(** Properties C10-C16: filtered and sorted lists. *)
From Coq Require Import List ZArith Bool Arith Permutation Sorted Lia.
From Verif Require Import PyBase Filtered_Model Filtered_Spec Filtered_Proofs Filtered_Proofs2 Filtered_Proofs3.
Import ListNotations.

Section Props.
  Context {A C K : Type} (A_dec : forall a b : A, {a = b} + {a <> b}) (lt : K -> K -> bool).

  (** ** C10 *)
  Theorem filtered_observer_reconstructs (s : fstate A C K) h :
    f_follows (fs_items s) (snd (f_run A_dec lt s h)) (fs_items (fst (f_run A_dec lt s h))).
  Proof. exact (f_run_follows A_dec lt h s). Qed.

  (** ** C11 *)
  Theorem filtered_unsorted_is_filter (w : A -> C) h :
    let s := fst (f_run A_dec lt (f_new w) h) in
    along A_dec lt no_duplicates (f_new w) h -> along A_dec lt set_order (f_new w) h ->
    along A_dec lt no_reverse_without_key (f_new w) h -> no_reinsertion A_dec lt [] (f_new w) h ->
    ~ block_open s -> fs_key s = None ->
    fs_items s = filter (accepts s) (contents s).
  Proof.
    intros s Hd Ho Hr Hre Hb Hk. destruct (new_inv (A := A) (C := C) A_dec lt w) as (H & Hu & _ & Hblk).
    destruct (run_inv A_dec lt h _ H Hd Ho) as [Hi _]. fold s in Hi. rewrite <- (inv_master _ Hi).
    apply (run_uns A_dec lt h [] _ H Hd Ho Hr Hre Hu (Hblk [])); [|exact Hk]. unfold block_open in Hb. fold s. lia.
  Qed.

  (** ** C12 *)
  Theorem filtered_sorted_permutation (w : A -> C) h :
    let s := fst (f_run A_dec lt (f_new w) h) in
    along A_dec lt no_duplicates (f_new w) h -> along A_dec lt set_order (f_new w) h -> ~ block_open s ->
    Permutation (fs_items s) (filter (accepts s) (contents s)) /\
    (strict_weak_order lt -> along A_dec lt keeps_keys (f_new w) h -> forall k, fs_key s = Some k ->
     ordered_by lt (fs_rev s) (fun x => k (fs_content s x)) (fs_items s)).
  Proof.
    intros s Hd Ho Hb. destruct (new_inv (A := A) (C := C) A_dec lt w) as (H & _ & Hs & _).
    destruct (run_inv A_dec lt h _ H Hd Ho) as [Hi HS]. fold s in Hi, HS. unfold block_open in Hb. split.
    - rewrite <- (inv_master _ Hi). destruct Hi as [[_ Hp] _]. apply Hp. lia.
    - intros Hw Hkk k Hk. apply ordered_by_srt. apply (HS Hw Hkk Hs k Hk). left. lia.
  Qed.

  (** the container and the settings are what the client set (no silent divergence of the master list) *)
  Theorem filtered_master_is_container (w : A -> C) h :
    let s := fst (f_run A_dec lt (f_new w) h) in
    along A_dec lt no_duplicates (f_new w) h -> along A_dec lt set_order (f_new w) h ->
    fs_master s = contents s /\ NoDup (fs_items s) /\ (forall x, In x (fs_listen s) <-> In x (contents s)).
  Proof.
    intros s Hd Ho. destruct (new_inv (A := A) (C := C) A_dec lt w) as (H & _).
    destruct (run_inv A_dec lt h _ H Hd Ho) as [Hi _]. fold s in Hi. pose proof (inv_master _ Hi) as Hm.
    split; [exact Hm|]. rewrite <- Hm. destruct Hi as [[(_ & H1 & H2) _] _]. auto.
  Qed.

  (** ** C13 *)
  Theorem filtered_key_change (w : A -> C) h x c k :
    let s := fst (f_run A_dec lt (f_new w) h) in
    along A_dec lt no_duplicates (f_new w) h -> along A_dec lt set_order (f_new w) h ->
    along A_dec lt keeps_keys (f_new w) h -> strict_weak_order lt ->
    ~ block_open s -> fs_key s = Some k -> In x (fs_items s) -> fs_filter s c = true ->
    let '(s', tr, _) := f_step A_dec lt s (FContent x c) in
    let pos := find_sorted (sort_op lt (fs_rev s)) (fun y => k (update_content A_dec (fs_content s) x c y)) (fs_items s) x in
    Permutation (fs_items s') (filter (accepts s') (contents s')) /\
    (nth_error (fs_items s) pos = Some x -> fs_items s' = fs_items s /\ tr = []) /\
    (nth_error (fs_items s) pos <> Some x -> ordered_by lt (fs_rev s) (fun y => k (fs_content s' y)) (fs_items s')).
  Proof.
    intros s Hd Ho Hkk Hw Hb Hk Hx Hc. destruct (new_inv (A := A) (C := C) A_dec lt w) as (H & _ & Hs & _).
    destruct (run_inv A_dec lt h _ H Hd Ho) as [Hi HS]. fold s in Hi, HS. specialize (HS Hw Hkk Hs).
    unfold block_open in Hb. assert (Hlev : (fs_level s <= 0)%Z) by lia.
    destruct (f_step A_dec lt s (FContent x c)) as [[s' tr] e] eqn:E. intros pos.
    destruct (key_change_lemma A_dec lt _ _ _ _ _ _ _ E Hi HS Hw Hlev Hk Hx Hc) as [K1 K2]. fold pos in K1, K2.
    destruct (content_step_inv A_dec lt _ _ _ _ _ _ E Hi) as (_ & Hi' & _ & F & _).
    assert (Hpos : index_of A_dec x (fs_items s) = Some pos <-> nth_error (fs_items s) pos = Some x).
    { destruct Hi as [[(_ & _ & Hnd) _] _]. split.
      - intros Hidx. apply index_of_some in Hidx as (l1 & l2 & -> & <- & _). rewrite nth_error_app2, Nat.sub_diag by lia. reflexivity.
      - intros Hn. apply nth_error_split in Hn as (l1 & l2 & E1 & <-). rewrite E1 in Hnd |- *. apply index_of_app.
        apply nodup_app_parts in Hnd. tauto. }
    split.
    - rewrite <- (inv_master _ Hi'). destruct Hi' as [[_ Hp] _]. apply Hp. destruct F as (_ & _ & _ & _ & _ & _ & Fl & _). cbn in Fl. lia.
    - rewrite <- Hpos. split; [exact K1|]. intros Hne. apply ordered_by_srt. apply K2. exact Hne.
  Qed.

  (** ** C14 *)
  Theorem filtered_block_end (w : A -> C) h ord :
    let s := fst (f_run A_dec lt (f_new w) h) in
    along A_dec lt no_duplicates (f_new w) h -> along A_dec lt set_order (f_new w) h ->
    (forall l, Permutation (ord l) l) -> fs_level s = 1%Z ->
    let s' := fst (fst (f_step A_dec lt s (FEndChange ord))) in
    Permutation (fs_items s') (filter (accepts s) (contents s)) /\
    (forall k, fs_key s = Some k -> strict_weak_order lt ->
       ordered_by lt (fs_rev s) (fun y => k (fs_content s y)) (filter (fun x => inb A_dec x (contents s) && accepts s x) (fs_items s)) ->
       ordered_by lt (fs_rev s) (fun y => k (fs_content s y)) (fs_items s')) /\
    (fs_key s = None -> fs_rev s = false ->
       filter (fun x => inb A_dec x (contents s) && accepts s x) (fs_items s) =
       filter (fun x => inb A_dec x (fs_items s) && accepts s x) (contents s) ->
       fs_items s' = filter (accepts s) (contents s)).
  Proof.
    intros s Hd Ho Hord Hlev s'. destruct (new_inv (A := A) (C := C) A_dec lt w) as (H & _).
    destruct (run_inv A_dec lt h _ H Hd Ho) as [Hi _]. fold s in Hi.
    destruct (f_step A_dec lt s (FEndChange ord)) as [[s1 tr] e] eqn:E.
    destruct (end_block_lemma A_dec lt _ _ _ _ _ E Hi Hord Hlev) as (H1 & H2 & H3 & _). subst s'. rewrite ?E. auto.
  Qed.

  (** ** C15 *)
  Theorem filtered_changes_bracketed (s : fstate A C K) h d d' :
    container_nesting d h = Some d' -> nesting d (snd (f_run A_dec lt s h)) = Some d'.
  Proof. exact (f_run_nesting A_dec lt h d d' s). Qed.

  (** ** C16 *)
  Theorem filtered_removals_named (s : fstate A C K) o :
    ~ full_rebuild s o ->
    let '(s', tr, _) := f_step A_dec lt s o in f_names (fs_items s) tr (fs_items s').
  Proof.
    intros H. destruct (f_step A_dec lt s o) as [[s' tr] e] eqn:E. eapply f_step_trace; eassumption.
  Qed.

  Theorem filtered_rebuild_removals (w : A -> C) h o j x :
    let s := fst (f_run A_dec lt (f_new w) h) in
    along A_dec lt no_duplicates (f_new w) h -> along A_dec lt set_order (f_new w) h -> ~ block_open s ->
    match o with FSetFilter _ | FSetKey _ | FSetRev _ => True | _ => False end ->
    let n := length (fs_items s) in
    let tr := snd (fst (f_step A_dec lt s o)) in
    nth_error (fs_items s) j = Some x ->
    length (removals tr) = n /\ nth_error (removals tr) j = Some (x, n - 1 - j) /\
    (nth_error (fs_items s) (n - 1 - j) = Some x <-> 2 * j + 1 = n).
  Proof.
    intros s Hd Ho Hb Hop n tr Hj. destruct (new_inv (A := A) (C := C) A_dec lt w) as (H & _).
    destruct (run_inv A_dec lt h _ H Hd Ho) as [Hi _]. fold s in Hi. unfold block_open in Hb.
    assert (R : removals tr = combine (fs_items s) (rev (seq 0 n))).
    { subst tr. destruct (f_step A_dec lt s o) as [[s' tr] e] eqn:E. cbn [fst snd].
      destruct o; try contradiction; cbn [f_step] in E; eapply rebuild_lemma; try eassumption; lia. }
    rewrite R. split; [rewrite combine_length, rev_length, seq_length; unfold n; lia|].
    split; [unfold n; rewrite combine_rev_seq, Hj; reflexivity|]. apply middle_only; [apply Hi|exact Hj].
  Qed.
End Props.
Print Assumptions filtered_observer_reconstructs.
Print Assumptions filtered_unsorted_is_filter.
Print Assumptions filtered_sorted_permutation.
Print Assumptions filtered_master_is_container.
Print Assumptions filtered_key_change.
Print Assumptions filtered_block_end.
Print Assumptions filtered_changes_bracketed.
Print Assumptions filtered_removals_named.
Print Assumptions filtered_rebuild_removals.

(** ** Witnesses: items, contents and keys are numbers; the content of item x is initially x. *)
Definition fx_run := f_run (A := nat) (C := nat) (K := nat) Nat.eq_dec Nat.ltb (f_new (fun x => x)).
Definition fx_ident (k : nat) := k.

Example filtered_c10_case :
  let h := [FSetContainer (Some [4; 7; 1; 8]); FSetFilter Nat.even; FInsert (-1) 6; FSetKey (Some fx_ident);
            FBeginChange; FRemove 0; FInsert 9 2; FInsert 0 10; FEndChange (@rev nat); FContent 8 3] in
  snd (fx_run h) =
    [FReset; FBegin; FIns 4 0; FEnd; FSelIns 0; FBegin; FIns 7 1; FEnd; FSelIns 1; FBegin; FIns 1 2; FEnd; FSelIns 2;
     FBegin; FIns 8 3; FEnd; FSelIns 3;
     FReset; FBegin; FRem 4 3; FRem 7 2; FRem 1 1; FRem 8 0; FIns 4 0; FIns 8 1; FEnd;
     FBegin; FIns 6 1; FEnd; FSelIns (-1);
     FReset; FBegin; FRem 4 2; FRem 6 1; FRem 8 0; FIns 4 0; FIns 6 1; FIns 8 2; FEnd;
     FSelRem 0; FSelIns 9; FSelIns 0;
     FBegin; FRem 4 0; FBegin; FIns 10 2; FEnd; FBegin; FIns 2 0; FEnd; FEnd;
     FBegin; FRem 8 2; FEnd] /\
  fs_items (fst (fx_run h)) = [2; 6; 10].
Proof. vm_compute. auto. Qed.

Example filtered_c11_case :
  let h := [FSetContainer (Some [4; 7; 1; 8]); FSetFilter Nat.even; FBeginChange; FInsert 1 6; FRemove (-1); FInsert 0 12;
            FContent 7 2; FEndChange (@rev nat)] in
  fs_items (fst (fx_run h)) = [12; 4; 6; 7] /\ contents (fst (fx_run h)) = [12; 4; 6; 7; 1] /\
  no_reinsertion Nat.eq_dec Nat.ltb [] (f_new (fun x => x)) h /\
  along Nat.eq_dec Nat.ltb no_duplicates (f_new (fun x => x)) h.
Proof.
  split; [reflexivity|]. split; [reflexivity|]. split; vm_compute; repeat split; try tauto; try discriminate.
  - intros _ _ H. decompose [or] H; try discriminate; assumption.
  - repeat constructor; simpl; intuition discriminate.
  - intuition discriminate.
  - intuition discriminate.
Qed.

Example filtered_c12_case :
  let h := [FSetContainer (Some [4; 7; 1; 8]); FSetKey (Some fx_ident); FSetRev true; FInsert 0 5; FBeginChange; FInsert 0 9; FRemove 2;
            FEndChange (fun l => l)] in
  fs_items (fst (fx_run h)) = [9; 8; 7; 5; 1] /\ fs_rev (fst (fx_run h)) = true.
Proof. vm_compute. auto. Qed.

(** changing the middle key from 5 to 9 leaves the list unsorted and notifies nothing *)
Theorem filtered_key_change_refuted :
  exists h, let s := fst (fx_run h) in
    fs_items s = [1; 5; 7] /\ fs_key s = Some fx_ident /\ fs_filter s 9 = true /\
    let '(s', tr, _) := f_step Nat.eq_dec Nat.ltb s (FContent 5 9) in
    tr = [] /\ map (fs_content s') (fs_items s') = [1; 9; 7] /\
    ~ ordered_by Nat.ltb false (fun y => fx_ident (fs_content s' y)) (fs_items s').
Proof.
  exists [FSetContainer (Some [5; 1; 7]); FSetKey (Some fx_ident)]. split; [reflexivity|]. split; [reflexivity|].
  vm_compute. do 3 (split; [reflexivity|]).
  intros H. specialize (H [1] 5 [] 7 [] eq_refl). discriminate.
Qed.
Print Assumptions filtered_key_change_refuted.

(** an item removed and put back elsewhere within one block keeps its old place *)
Theorem filtered_reinsertion_refuted :
  exists h, let s := fst (fx_run h) in
    ~ block_open s /\ fs_key s = None /\ fs_rev s = false /\
    contents s = [2; 3; 1] /\ fs_items s = [1; 2; 3] /\ forall x, accepts s x = true.
Proof.
  exists [FSetContainer (Some [1; 2; 3]); FSetFilter (fun _ => true); FBeginChange; FRemove 0; FInsert 2 1; FEndChange (fun l => l)].
  split; [unfold block_open; vm_compute; intros H; discriminate H|]. repeat split; reflexivity.
Qed.
Print Assumptions filtered_reinsertion_refuted.

(** sort_reverse without a sort key: an item inserted in a block is misplaced *)
Theorem filtered_reverse_no_key_refuted :
  exists h, let s := fst (fx_run h) in
    ~ block_open s /\ fs_key s = None /\ contents s = [1; 2; 3; 4] /\ fs_items s = [3; 1; 2; 4] /\ forall x, accepts s x = true.
Proof.
  exists [FSetContainer (Some [1; 2; 4]); FSetRev true; FBeginChange; FInsert 2 3; FEndChange (fun l => l)].
  split; [unfold block_open; vm_compute; intros H; discriminate H|]. repeat split; reflexivity.
Qed.
Print Assumptions filtered_reverse_no_key_refuted.

(** a key changed inside a block is not taken into account when the block ends *)
Theorem filtered_block_key_change_refuted :
  exists h, let s := fst (fx_run h) in
    ~ block_open s /\ fs_key s = Some fx_ident /\ map (fs_content s) (fs_items s) = [10; 2; 3].
Proof.
  exists [FSetContainer (Some [1; 2; 3]); FSetKey (Some fx_ident); FBeginChange; FContent 1 10; FEndChange (fun l => l)].
  split; [unfold block_open; vm_compute; intros H; discriminate H|]. repeat split; reflexivity.
Qed.
Print Assumptions filtered_block_key_change_refuted.

(** a full rebuild notifies the removal of item 10 at index 2, where item 12 is *)
Theorem filtered_rebuild_removal_refuted :
  exists h, let s := fst (fx_run h) in
    let '(s', tr, _) := f_step Nat.eq_dec Nat.ltb s (FSetFilter (fun _ => true)) in
    fs_items s = [10; 11; 12] /\ tr = [FReset; FBegin; FRem 10 2; FRem 11 1; FRem 12 0; FIns 10 0; FIns 11 1; FIns 12 2; FEnd] /\
    ~ f_names (fs_items s) tr (fs_items s').
Proof.
  exists [FSetContainer (Some [10; 11; 12])]. vm_compute. split; [reflexivity|]. split; [reflexivity|]. intros [H _]. discriminate.
Qed.
Print Assumptions filtered_rebuild_removal_refuted.

Example filtered_c15_case :
  let h := [FSetContainer (Some [1; 2]); FContBegin; FInsert 0 5; FContEnd] in
  container_nesting 0 h = Some 0 /\ nesting 0 (snd (fx_run h)) = Some 0 /\
  nesting 0 [FIns 5 0] = None /\ nesting 0 [FBegin; FIns 5 0; FEnd; FEnd] = None.
Proof. vm_compute. auto. Qed.
