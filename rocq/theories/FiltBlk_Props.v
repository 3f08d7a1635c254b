(** Properties of a filtered and sorted list with change blocks that any number of threads use. *)
From Coq Require Import List ZArith Bool Arith Permutation Lia.
From Verif Require Import PyBase Filtered_Model Filtered_Spec Filtered_Proofs Filtered_Proofs2
  FiltBlk_Model FiltBlk_Spec FiltBlk_Proofs FiltBlk_Proofs2 FiltBlk_Proofs3.
Import ListNotations.

Section Props.
  Context {A C K : Type} (A_dec : forall a b : A, {a = b} + {a <> b}) (lt : K -> K -> bool).
  Notation bst := (bst A C K).
  Notation bact := (bact A C K).
  Notation bpc := (bpc A C K).
  Notation b_run := (b_run A_dec lt).
  Notation apart := (throughout A_dec lt counts_apart).

  (** If no change of the change level interrupts another, the level is the number of blocks that are open. *)
  Theorem filtblk_level (w : A -> C) (acts : list bact) : apart (b_new w) acts ->
    let s := b_run w acts in level s = blocks s.
  Proof. intros HT s. apply level_blocks. apply run_cinv; [apply cinv_new|exact HT]. Qed.

  (** Then the list has no item twice, and an item that is missing or should not be there is one that some call under
      way will still look at, unless a block is open. *)
  Theorem filtblk_pointwise (w : A -> C) (acts : list bact) : Forall visits acts -> apart (b_new w) acts ->
    let s := b_run w acts in
    NoDup (items s) /\
    forall x, right s x \/ (0 < blocks s)%Z \/ exists p, In p (b_calls s) /\ (updating p \/ handling p x).
  Proof.
    intros Ha HT s. pose proof (run_inv A_dec lt w acts Ha HT) as V. fold s in V. destruct (v_h s V) as [H1 H2].
    split; [exact H2|]. intros x. destruct (v_fix s V x) as [(p & Hp & Hf)|[Hr _]]; [right|left; exact Hr].
    destruct (in_block p) eqn:Eb.
    - left. unfold blocks. assert (Q : In p (filter in_block (b_calls s))) by (apply filter_In; auto).
      destruct (filter in_block (b_calls s)); [destruct Q|cbn; lia].
    - right. exists p. split; [exact Hp|]. destruct p; cbn in *; try discriminate; try tauto. destruct again; tauto.
  Qed.

  (** A thread that reads the items when no block is open gets the mutex, so what it can miss is only what a call is
      waiting to do; and it gets only items of the master list. *)
  Theorem filtblk_reader (w : A -> C) (acts : list bact) : Forall visits acts -> apart (b_new w) acts ->
    let s := b_run w acts in
    b_owner s = None -> blocks s = 0%Z ->
    incl (items s) (master s) /\ forall x, right s x \/ exists p, In p (b_calls s) /\ awaiting p x.
  Proof.
    intros Ha HT s Ho Hb. pose proof (run_inv A_dec lt w acts Ha HT) as V. fold s in V.
    assert (Kf : forall p, In p (b_calls s) -> b_holds p = false).
    { intros p Hp. destruct (b_holds p) eqn:E; [|reflexivity]. apply In_nth_error in Hp as [t Hp].
      rewrite (v_hold s (v_l s V) t p Hp E) in Ho. discriminate. }
    assert (Nb : forall p, In p (b_calls s) -> in_block p = false).
    { intros p Hp. destruct (in_block p) eqn:E; [|reflexivity]. unfold blocks in Hb.
      assert (Q : In p (filter in_block (b_calls s))) by (apply filter_In; auto).
      destruct (filter in_block (b_calls s)); [destruct Q|cbn in Hb; lia]. }
    split.
    - destruct (v_clean s V) as [Q|[Q|(q & Q1 & Q2)]]; [exact Q|rewrite (level_blocks s (v_c s V)) in Q; lia|].
      apply ending_holds in Q2. rewrite (Kf q Q1) in Q2. discriminate.
    - intros x. destruct (v_fix s V x) as [(p & Hp & Hf)|[Hr _]]; [right|left; exact Hr]. exists p. split; [exact Hp|].
      specialize (Kf p Hp). specialize (Nb p Hp). destruct p; cbn in *; try discriminate; tauto.
  Qed.

  (** When all calls and all blocks have ended the list has just the items it should have, in some order. *)
  Theorem filtblk_settled (w : A -> C) (acts : list bact) : Forall visits acts -> apart (b_new w) acts ->
    let s := b_run w acts in over s -> level s = 0%Z /\ Permutation (items s) (filter (wanted s) (master s)).
  Proof.
    intros Ha HT s Ho. pose proof (run_inv A_dec lt w acts Ha HT) as V. fold s in V. destruct (v_h s V) as [H1 H2].
    split.
    - rewrite (level_blocks s (v_c s V)). unfold blocks. destruct (filter in_block (b_calls s)) as [|p l] eqn:E; [reflexivity|].
      assert (Q : In p (filter in_block (b_calls s))) by (rewrite E; left; reflexivity). apply filter_In in Q as [Q1 Q2].
      rewrite (Ho p Q1) in Q2. discriminate.
    - apply NoDup_Permutation; [exact H2|apply NoDup_filter; exact H1|]. intros x. rewrite filter_In.
      destruct (v_fix s V x) as [(p & Hp & Hf)|[Hr _]]; [|exact Hr]. rewrite (Ho p Hp) in Hf. destruct Hf.
  Qed.

  (** While a block stays open, from a moment on when no call holds the mutex, the items do not change and nothing but
      resets is announced, whatever the threads do. *)
  Theorem filtblk_quiet (w : A -> C) (acts more : list bact) (t : nat) : apart (b_new w) (acts ++ more) ->
    let s := b_run w acts in
    b_owner s = None -> nth_error (b_calls s) t = Some BOpen -> Forall (leaves t) more ->
    let s' := b_run w (acts ++ more) in
    items s' = items s /\ exists n, b_log s' = b_log s ++ repeat FReset n.
  Proof.
    intros HT s Ho Hp Hl s'. destruct (throughout_app A_dec lt _ _ _ _ HT) as [T1 T2].
    assert (E : s' = fold_left (b_step A_dec lt) more s) by (unfold s', s, FiltBlk_Model.b_run; apply fold_left_app).
    rewrite E. apply run_calm.
    - apply free_calms; [|exact Ho]. apply run_linv, linv_new.
    - eapply stays_level; [|exact Hp|exact Hl|exact T2]. apply run_cinv; [apply cinv_new|exact T1].
  Qed.

  (** A listener that applies the notifications, which come one at a time, has the items of the list at all times, and
      the begin and end notifications match whenever the mutex is free. *)
  Theorem filtblk_follow (w : A -> C) (acts : list bact) : Forall visits acts -> apart (b_new w) acts ->
    let s := b_run w acts in
    f_follows [] (b_log s) (items s) /\ (b_owner s = None -> nesting 0 (b_log s) = Some 0).
  Proof.
    intros Ha HT s. pose proof (run_inv A_dec lt w acts Ha HT) as V. fold s in V. split; [exact (v_log s V)|].
    intros Ho. rewrite (v_nest s V). f_equal. destruct (filter atflag (b_calls s)) as [|p l] eqn:E; [reflexivity|]. exfalso.
    assert (Q : In p (filter atflag (b_calls s))) by (rewrite E; left; reflexivity). apply filter_In in Q as [Q1 Q2].
    destruct p; try discriminate. apply In_nth_error in Q1 as [t Q1]. rewrite (v_hold s (v_l s V) t _ Q1 eq_refl) in Ho. discriminate.
  Qed.

  (** From every state of every execution the calls and blocks under way can go on until all have ended. *)
  Theorem filtblk_finish (w : A -> C) (acts : list bact) :
    exists more, Forall visits more /\ Forall goes more /\ over (b_run w (acts ++ more)).
  Proof.
    assert (V : linv (b_run w acts)) by (apply run_linv, linv_new). set (s := b_run w acts) in *.
    assert (D : exists a1, Forall visits a1 /\ Forall goes a1 /\ b_owner (fold_left (b_step A_dec lt) a1 s) = None).
    { destruct (b_owner s) as [t|] eqn:Ho; [|exists []; auto]. destruct (v_own s V t Ho) as (p & Hp & _).
      destruct (solo A_dec lt _ s t p V Hp (or_intror Ho) (le_n _)) as (a1 & A1 & A2 & _ & A4). exists a1. auto. }
    destruct D as (a1 & A1 & A2 & A3).
    destruct (finish_all A_dec lt _ _ (run_linv A_dec lt a1 s V) A3 (le_n _)) as (a2 & B1 & B2 & B3).
    exists (a1 ++ a2). rewrite !Forall_app. repeat split; auto. unfold FiltBlk_Model.b_run in *. rewrite !fold_left_app. exact B3.
  Qed.

  (** If changes of the level have interrupted each other so that it is above the number of open blocks, the list is
      never updated again, even if they do not interrupt each other any more. *)
  Theorem filtblk_frozen (w : A -> C) (acts more : list bact) :
    let s := b_run w acts in
    b_owner s = None -> (forall p, In p (b_calls s) -> counting p = false) -> (blocks s < level s)%Z -> apart s more ->
    let s' := b_run w (acts ++ more) in
    items s' = items s /\ (blocks s' < level s')%Z /\ exists n, b_log s' = b_log s ++ repeat FReset n.
  Proof.
    intros s Ho Hc Hd HT s'.
    assert (E : s' = fold_left (b_step A_dec lt) more s) by (unfold s', s, FiltBlk_Model.b_run; apply fold_left_app).
    assert (V : cinv (level s - blocks s) s).
    { constructor; [lia|]. intros p Hp. specialize (Hc p Hp). destruct p; cbn in *; auto; discriminate. }
    rewrite E. destruct (run_calm A_dec lt more s) as [R1 R2].
    - apply free_calms; [|exact Ho]. apply run_linv, linv_new.
    - eapply drift_level; [|exact V|exact HT]. lia.
    - split; [exact R1|]. split; [|exact R2]. rewrite (c_level _ _ (run_cinv A_dec lt _ more s V HT)). lia.
  Qed.
End Props.
Print Assumptions filtblk_level.
Print Assumptions filtblk_pointwise.
Print Assumptions filtblk_reader.
Print Assumptions filtblk_settled.
Print Assumptions filtblk_quiet.
Print Assumptions filtblk_follow.
Print Assumptions filtblk_finish.
Print Assumptions filtblk_frozen.

(** -- examples -- *)
Local Notation run := (b_run (C := nat) (K := nat) Nat.eq_dec Nat.ltb (fun x : nat => x)).
Local Notation go t := (BGo (A := nat) (C := nat) (K := nat) t (fun l => l)).
Local Notation call p := (BCall (A := nat) (C := nat) (K := nat) p).
Local Notation acts := (list (bact nat nat nat)).
Definition gos (t n : nat) : acts := repeat (go t) n.
Definition above (k : nat) : nat -> bool := fun c => k <? c.

Definition apartb (s : bst nat nat nat) : bool := length (filter counting (b_calls s)) <=? 1.
Lemma apartb_spec s : apartb s = true -> counts_apart s.
Proof.
  unfold apartb, counts_apart. intros H%Nat.leb_le. revert H. generalize (b_calls s). intros l.
  induction l as [|a l IH]; intros H [|t] [|u] p q Hp Hq Cp Cq; cbn in *; try discriminate; try reflexivity.
  - injection Hp as ->. rewrite Cp in H. cbn in H. apply nth_error_In in Hq.
    assert (Q : In q (filter counting l)) by (apply filter_In; auto). destruct (filter counting l); [destruct Q|cbn in H; lia].
  - injection Hq as ->. rewrite Cq in H. cbn in H. apply nth_error_In in Hp.
    assert (Q : In p (filter counting l)) by (apply filter_In; auto). destruct (filter counting l); [destruct Q|cbn in H; lia].
  - f_equal. apply (IH) with (p := p) (q := q); auto. destruct (counting a); cbn in H; lia.
Qed.
Fixpoint apart_from (s : bst nat nat nat) (l : acts) : bool :=
  apartb s && match l with [] => true | a :: l' => apart_from (b_step Nat.eq_dec Nat.ltb s a) l' end.
Lemma apart_from_spec l : forall s, apart_from s l = true -> throughout Nat.eq_dec Nat.ltb counts_apart s l.
Proof.
  induction l as [|a l IH]; intros s H; cbn [apart_from throughout] in *; apply andb_true_iff in H as [H1 H2];
    (split; [apply apartb_spec, H1|]); [exact I|apply IH, H2].
Qed.
Definition all_states (P : bst nat nat nat -> bool) (l : acts) : bool :=
  forallb (fun k => P (run (firstn k l))) (seq 0 (S (length l))).
Definition alldone (s : bst nat nat nat) : bool := forallb (fun p => negb (going p)) (b_calls s).

(** three items; a block is opened; a filter and a sort key are set and an item goes while it is open *)
Definition abc : acts :=
  call (BIns 1 0%Z) :: gos 0 4 ++ call (BIns 2 1%Z) :: gos 1 4 ++ call (BIns 3 2%Z) :: gos 2 4.
Definition inside : acts :=
  abc ++ call BBegin :: gos 3 2 ++ call (BSetFilter (above 1)) :: gos 4 4 ++ call (BSetKey (Some (fun c => 9 - c))) :: gos 5 3
      ++ call (BDel 1%Z) :: gos 6 2.
(** the end of the block meets another block, and is the last to end *)
Definition whole : acts := inside ++ call BBegin :: gos 7 2 ++ gos 3 5 ++ gos 7 12.
Example filtblk_apart_ex : throughout Nat.eq_dec Nat.ltb counts_apart (b_new (fun x => x)) whole /\ Forall visits whole.
Proof.
  split; [apply apart_from_spec; vm_compute; reflexivity|]. repeat constructor; cbn; intros; reflexivity.
Qed.
Example filtblk_level_ex :
  level (run inside) = 1%Z /\ blocks (run inside) = 1%Z /\
  level (run (inside ++ call BBegin :: gos 7 2)) = 2%Z.
Proof. vm_compute. auto. Qed.
Example filtblk_pointwise_ex :
  let s := run inside in
  items s = [1; 2; 3] /\ master s = [1; 3] /\ wanted s 1 = false /\
  b_calls s = [BDone; BDone; BDone; BOpen; BDone; BDone; BDone].
Proof. vm_compute. repeat split. Qed.
Example filtblk_reader_ex :
  let s := run (abc ++ [call (BSetFilter (above 1)); go 3]) in
  b_owner s = None /\ blocks s = 0%Z /\ items s = [1; 2; 3] /\ wanted s 1 = false /\ b_calls s = [BDone; BDone; BDone; BSetFlag].
Proof. vm_compute. repeat split. Qed.
Example filtblk_settled_ex :
  alldone (run whole) = true /\ items (run (whole ++ call (BIns 2 0%Z) :: gos 8 4)) = [3; 2] /\
  items (run whole) = [3] /\ items (run (inside ++ call BBegin :: gos 7 2 ++ gos 3 5)) = [1; 2; 3].
Proof. vm_compute. auto. Qed.
Example filtblk_quiet_ex :
  let s := run (abc ++ call BBegin :: gos 3 2) in
  b_owner s = None /\ nth_error (b_calls s) 3 = Some BOpen /\
  b_log (run inside) = b_log s ++ [FReset; FReset] /\ master (run inside) = [1; 3].
Proof. vm_compute. repeat split. Qed.
Example filtblk_follow_ex :
  b_log (run whole) =
  [FBegin; FIns 1 0; FEnd; FBegin; FIns 2 1; FEnd; FBegin; FIns 3 2; FEnd; FReset; FReset;
   FBegin; FRem 1 2; FRem 2 1; FRem 3 0; FIns 3 0; FEnd].
Proof. vm_compute. reflexivity. Qed.
Example filtblk_finish_ex : alldone (run inside) = false /\ alldone (run (inside ++ gos 3 12)) = true.
Proof. vm_compute. auto. Qed.

(** One thread begins a block while another ends one: it reads the level before the other writes it, and writes its
    own afterwards.  When both blocks have ended the level is 1: the list never shows another item. *)
Definition lost : acts :=
  call BBegin :: gos 0 3 ++ [go 0] ++ call BBegin :: [go 1] ++ gos 0 8 ++ gos 1 6.
Example filtblk_frozen_ex :
  let s := run lost in alldone s = true /\ b_owner s = None /\ level s = 1%Z /\ blocks s = 0%Z /\ all_states apartb lost = false.
Proof. vm_compute. auto. Qed.
Lemma lost_visits : Forall visits (lost ++ call (BIns 1 0%Z) :: gos 2 4).
Proof. repeat constructor; cbn; intros; reflexivity. Qed.
Theorem filtblk_frozen_refuted :
  exists l : acts, Forall visits l /\
    let s := run l in
    alldone s = true /\ master s = [1] /\ wanted s 1 = true /\ items s = [] /\
    forall more, throughout Nat.eq_dec Nat.ltb counts_apart s more -> items (run (l ++ more)) = [].
Proof.
  exists (lost ++ call (BIns 1 0%Z) :: gos 2 4). split; [exact lost_visits|]. intros s.
  split; [vm_compute; reflexivity|]. split; [vm_compute; reflexivity|]. split; [vm_compute; reflexivity|]. split; [vm_compute; reflexivity|].
  intros more HT. destruct (filtblk_frozen Nat.eq_dec Nat.ltb (fun x => x) (lost ++ call (BIns 1 0%Z) :: gos 2 4) more) as [R _].
  - vm_compute. reflexivity.
  - intros p Hp. vm_compute in Hp. repeat destruct Hp as [<-|Hp]; try reflexivity. destruct Hp.
  - vm_compute. reflexivity.
  - exact HT.
  - rewrite R. vm_compute. reflexivity.
Qed.
Print Assumptions filtblk_frozen_refuted.

(** Two threads begin a block at once and the level is 1 for both: when the first has ended, what happens in the block
    of the second is announced at once, and its end updates nothing. *)
Definition early : acts :=
  call BBegin :: call BBegin :: [go 0; go 1; go 0; go 1] ++ gos 0 12 ++ call (BIns 1 0%Z) :: gos 2 4.
Theorem filtblk_early_refuted :
  exists l : acts, Forall visits l /\
    let s := run l in
    nth_error (b_calls s) 1 = Some BOpen /\ blocks s = 1%Z /\ level s = 0%Z /\ items s = [1] /\
    b_log s = [FBegin; FEnd; FBegin; FIns 1 0; FEnd] /\ level (run (l ++ gos 1 6)) = (-1)%Z.
Proof. exists early. split; [repeat constructor; cbn; intros; reflexivity|]. vm_compute. repeat split. Qed.
Print Assumptions filtblk_early_refuted.

(** With the level at -1, three blocks are begun while an item is being moved to its place: the level is positive when
    it should be taken out, and a late writing puts it back to 0 when it is put in: it is listed twice. *)
Definition twice : acts :=
  call BBegin :: call BBegin :: [go 0; go 1; go 0; go 1] ++ gos 0 12 ++ gos 1 6
  ++ call (BIns 1 0%Z) :: gos 2 4 ++ call (BIns 2 1%Z) :: gos 3 4 ++ call (BSetKey (Some (fun c => c))) :: gos 4 9
  ++ call (BEdit 1 5) :: gos 5 3
  ++ call BBegin :: [go 6] ++ call BBegin :: gos 7 2 ++ call BBegin :: gos 8 2
  ++ [go 5; go 6] ++ gos 5 4.
Theorem filtblk_twice_refuted :
  exists l : acts, Forall visits l /\ let s := run l in master s = [1; 2] /\ items s = [1; 2; 1].
Proof. exists twice. split; [repeat constructor; cbn; intros; reflexivity|]. vm_compute. auto. Qed.
Print Assumptions filtblk_twice_refuted.
