(** Properties of change blocks of lists derived from each other. *)
From Coq Require Import ZArith Bool List Arith Lia.
From Verif Require Import Blocks_Model Blocks_Spec Blocks_Proofs Blocks_Proofs2 Blocks_Proofs3.
Import ListNotations.
Open Scope Z_scope.

Section Props.
  Variable mapped : nat -> bool.
  Notation b_step := (b_step mapped).
  Notation b_run := (b_run mapped).

  (** ** C115 *)
  (** whatever handlers do, short of changing containers: once nothing is in progress, the level of a mapped list and
      what a filtered list has told are the blocks of its own, those of its container, and its debt *)
  Theorem blocks_count h j : at_each mapped moves_quiet b_new h ->
    let s := b_run b_new h in
    quiet s ->
    (if mapped j then b_level s j else told j (b_out s)) =
    own j h + debt mapped j b_new h + told_by (container s j) (b_out s).
  Proof. intros Ha s Hq. exact (count_run mapped h j Ha Hq). Qed.

  (** and if they do change containers, what was not yet heard of a container that was left does not count *)
  Theorem blocks_count_any h j :
    let s := b_run b_new h in
    quiet s ->
    (if mapped j then b_level s j else told j (b_out s)) =
    own j h + heard_debt mapped j b_new h + told_by (container s j) (b_out s).
  Proof. intros s Hq. exact (count_run_any mapped h j Hq). Qed.

  (** what observers of a list have been told, once nothing is in progress *)
  Theorem blocks_told h j :
    at_each mapped acts_quiet b_new h -> at_each mapped (moves_acyclic mapped) b_new h ->
    let s := b_run b_new h in
    quiet s -> told j (b_out s) = announced mapped j (own j h + debt mapped j b_new h + told_by (container s j) (b_out s)).
  Proof. intros Hq Hm s Hs. exact (told_run mapped h j Hq Hm Hs). Qed.

  (** at every moment *)
  Theorem blocks_alternate h j :
    at_each mapped acts_quiet b_new h -> at_each mapped (moves_acyclic mapped) b_new h -> mapped j = true ->
    alternating (events j (b_out (b_run b_new h))).
  Proof.
    intros Hq Hm Hj. destruct (fine_run mapped h b_new _ (fine_new mapped) Hq Hm) as (rank & _ & _ & _ & Ht).
    exact (proj1 (Ht j Hj)).
  Qed.

  (** no call goes on for ever, whatever handlers have done before *)
  Theorem blocks_end h : acyclic (b_run b_new h) -> exists n, quiet (b_run b_new (h ++ repeat GoOn n)).
  Proof.
    intros Ha. destruct (ends mapped (b_run b_new h)) as [n Hn]; [apply run_wf, new_wf|exact Ha|].
    exists n. revert Hn. unfold Blocks_Model.b_run. now rewrite fold_left_app.
  Qed.

  Lemma acyclic_run h : at_each mapped acts_quiet b_new h -> at_each mapped (moves_acyclic mapped) b_new h ->
    acyclic (b_run b_new h).
  Proof.
    intros Hq Hm. destruct (fine_run mapped h b_new _ (fine_new mapped) Hq Hm) as (rank & Hw & Hr & _).
    exists rank. intros j k Hc. apply container_some in Hc as (r & Hin & <- & <-). now apply Hr.
  Qed.

  (** a list is in a block exactly if a block is open at it or at a list it hangs on *)
  Theorem blocks_open h j :
    at_each mapped acts_quiet b_new h -> at_each mapped (moves_acyclic mapped) b_new h -> at_each mapped moves_closed b_new h ->
    (forall i, 0 <= own i h) ->
    let s := b_run b_new h in
    quiet s -> 0 <= told j (b_out s) /\ (0 < told j (b_out s) <-> exists i, upstream s i j /\ 0 < own i h).
  Proof.
    intros Hq Hm Hc Ho s Hs. destruct (acyclic_run h Hq Hm) as [rank Hr]. fold s in Hr.
    assert (Hall : forall n j, (rank j < n)%nat ->
      0 <= told j (b_out s) /\ (0 < told j (b_out s) <-> exists i, upstream s i j /\ 0 < own i h)).
    { induction n as [|n IH]; intros i Hn; [lia|].
      pose proof (told_run mapped h i Hq Hm Hs) as E. cbv zeta in E. fold s in E. rewrite (no_debt mapped h _ i Hc) in E.
      set (load := own i h + 0 + told_by (container s i) (b_out s)) in E.
      assert (Hl : 0 <= load /\ (0 < load <-> exists k, upstream s k i /\ 0 < own k h)).
      { specialize (Ho i). unfold load. destruct (container s i) as [k|] eqn:Ek.
        - cbn [told_by]. specialize (Hr i k Ek) as Hlt. destruct (IH k) as [H0 H1]; [lia|]. split; [lia|]. split.
          + intros Hp. destruct (Z.eq_dec (own i h) 0) as [Ez|Ez]; [|exists i; split; [apply up_self|lia]].
            destruct (proj1 H1) as (u & Hu & Hup); [lia|]. exists u. split; [|exact Hup]. now apply (up_next s u i k).
          + intros (u & Hu & Hup). inversion Hu as [|? k' Hk' Hu']; subst; [lia|].
            assert (k' = k) by congruence. subst k'. assert (0 < told k (b_out s)); [|lia]. apply H1. now exists u.
        - cbn [told_by]. split; [lia|]. split.
          + intros Hp. exists i. split; [apply up_self|lia].
          + intros (u & Hu & Hup). inversion Hu as [|? k' Hk' Hu']; subst; [lia|congruence]. }
      rewrite E. unfold announced. destruct Hl as [Hl0 Hl1]. destruct (mapped i); [|split; [exact Hl0|exact Hl1]].
      destruct (Z.ltb_spec 0 load) as [L|L]; (split; [lia|]); rewrite <- Hl1; lia. }
    apply (Hall (S (rank j))). lia.
  Qed.

  Lemma debt_app h1 : forall s h2 j, debt mapped j s (h1 ++ h2) = debt mapped j s h1 + debt mapped j (b_run s h1) h2.
  Proof.
    induction h1 as [|a h1 IH]; intros s h2 j; cbn [app debt]; [change (b_run s []) with s; lia|].
    rewrite IH. change (b_run s (a :: h1)) with (b_run (b_step s a) h1). lia.
  Qed.
  Lemma own_app h1 h2 j : own j (h1 ++ h2) = own j h1 + own j h2.
  Proof. induction h1 as [|[i m|i c|] h1 IH]; cbn [app own]; lia. Qed.
  Lemma run_app h1 h2 s : b_run s (h1 ++ h2) = b_run (b_run s h1) h2.
  Proof. unfold Blocks_Model.b_run. now rewrite fold_left_app. Qed.
  Lemma debt_stays h : forall s j, Forall (stays j) h -> debt mapped j s h = 0 /\ container (b_run s h) j = container s j.
  Proof.
    induction h as [|a h IH]; intros s j H; [split; reflexivity|]. inversion H as [|? ? Ha Hh]; subst.
    change (b_run s (a :: h)) with (b_run (b_step s a) h). cbn [debt]. destruct (IH (b_step s a) j Hh) as [-> ->].
    destruct a as [i m|i c|]; cbn [Blocks_Model.b_step stays] in *.
    - split; [lia|]. apply container_regs. now rewrite (proj1 (turn_regs mapped s i m)).
    - apply Nat.eqb_neq in Ha. rewrite Ha. split; [lia|]. rewrite container_move. now rewrite Ha.
    - split; [lia|]. apply container_regs. apply go_on_regs.
  Qed.

  (** a list that leaves its container in the middle of a block stays in it for good: whatever comes later, short of a
      new container or ends without begins, its observers are not told the end *)
  Theorem blocks_left_open h1 h2 j k :
    let h := h1 ++ Move j None :: h2 in
    at_each mapped acts_quiet b_new h -> at_each mapped (moves_acyclic mapped) b_new h -> at_each mapped moves_closed b_new h1 ->
    container (b_run b_new h1) j = Some k -> 0 < told k (b_out (b_run b_new h1)) -> Forall (stays j) h2 -> 0 <= own j h ->
    quiet (b_run b_new h) -> 0 < told j (b_out (b_run b_new h)).
  Proof.
    intros h Hq Hm Hc Hk Hp Hst Ho Hs.
    pose proof (told_run mapped h j Hq Hm Hs) as E. cbv zeta in E. rewrite E. clear E.
    assert (Ed : debt mapped j b_new h = told k (b_out (b_run b_new h1))).
    { unfold h. rewrite debt_app, (no_debt mapped h1 _ j Hc). cbn [debt]. rewrite Nat.eqb_refl, Hk. cbn [told_by].
      rewrite (proj1 (debt_stays h2 _ j Hst)). lia. }
    assert (Ek : container (b_run b_new h) j = None).
    { unfold h. rewrite run_app. change (b_run ?s (?a :: h2)) with (b_run (b_step s a) h2).
      rewrite (proj2 (debt_stays h2 _ j Hst)). cbn [Blocks_Model.b_step]. rewrite container_move. now rewrite Nat.eqb_refl. }
    rewrite Ek. cbn [told_by]. unfold announced. destruct (mapped j); [destruct (Z.ltb_spec 0 (own j h + debt mapped j b_new h + 0))|]; lia.
  Qed.

  (** a mapped list that is given a container in the middle of a block announces no block of its own or of the
      container unless there are more of them at a time than there were then at the container *)
  Theorem blocks_unannounced h1 h2 j k :
    let h := h1 ++ Move j (Some k) :: h2 in
    at_each mapped acts_quiet b_new h -> at_each mapped (moves_acyclic mapped) b_new h -> at_each mapped moves_closed b_new h1 ->
    mapped j = true -> told_by (container (b_run b_new h1) j) (b_out (b_run b_new h1)) = 0 -> Forall (stays j) h2 ->
    quiet (b_run b_new h) ->
    own j h + told k (b_out (b_run b_new h)) <= told k (b_out (b_run b_new h1)) ->
    told j (b_out (b_run b_new h)) = 0.
  Proof.
    intros h Hq Hm Hc Hj Hk Hst Hs Hle.
    pose proof (told_run mapped h j Hq Hm Hs) as E. cbv zeta in E. rewrite E. clear E.
    assert (Ed : debt mapped j b_new h = - told k (b_out (b_run b_new h1))).
    { unfold h. rewrite debt_app, (no_debt mapped h1 _ j Hc). cbn [debt]. rewrite Nat.eqb_refl, Hk. cbn [told_by].
      rewrite (proj1 (debt_stays h2 _ j Hst)). lia. }
    assert (Ek : container (b_run b_new h) j = Some k).
    { unfold h. rewrite run_app. change (b_run ?s (?a :: h2)) with (b_run (b_step s a) h2).
      rewrite (proj2 (debt_stays h2 _ j Hst)). cbn [Blocks_Model.b_step]. rewrite container_move. now rewrite Nat.eqb_refl. }
    rewrite Ek. cbn [told_by]. unfold announced. rewrite Hj.
    destruct (Z.ltb_spec 0 (own j h + debt mapped j b_new h + told k (b_out (b_run b_new h)))); lia.
  Qed.
End Props.
Print Assumptions blocks_count.
Print Assumptions blocks_count_any.
Print Assumptions blocks_told.
Print Assumptions blocks_alternate.
Print Assumptions blocks_end.
Print Assumptions blocks_open.
Print Assumptions blocks_left_open.
Print Assumptions blocks_unannounced.

(** ** examples: list 0 mapped, list 1 filtered on it, list 2 mapped on that *)
Definition bx_mapped (j : nat) : bool := negb (Nat.eqb j 1).
Definition bx_row : list act := [Move 1 (Some 0%nat); Move 2 (Some 1%nat)].
Definition bx_go (n : nat) : list act := repeat GoOn n.
Definition bx_run (h : list act) : blk := b_run bx_mapped b_new h.

(** a block of list 0 reaches list 2; a block of list 2 in it is not announced again *)
Example blocks_told_ex :
  let h1 := bx_row ++ [Turn 0 Begin] ++ bx_go 4 ++ [Turn 2 Begin] in
  let s := bx_run (h1 ++ [Turn 0 End] ++ bx_go 3 ++ [Turn 2 End]) in
  (told 0 (b_out (bx_run h1)), told 1 (b_out (bx_run h1)), told 2 (b_out (bx_run h1)), b_level (bx_run h1) 2) = (1, 1, 1, 2) /\
  b_stack s = [] /\ rev (b_out s) = [(0%nat, Begin); (1%nat, Begin); (2%nat, Begin); (0%nat, End); (1%nat, End); (2%nat, End)].
Proof. vm_compute. repeat split. Qed.
Example blocks_alternate_ex : alternating (events 2 (b_out (bx_run (bx_row ++ [Turn 0 Begin] ++ bx_go 4 ++ [Turn 0 End] ++ bx_go 3)))) /\
  events 2 (b_out (bx_run (bx_row ++ [Turn 0 Begin] ++ bx_go 4 ++ [Turn 0 End] ++ bx_go 3))) = [End; Begin].
Proof. vm_compute. repeat split. Qed.
Example blocks_end_ex : b_stack (bx_run (bx_row ++ [Turn 0 Begin] ++ bx_go 2)) <> [] /\ quiet (bx_run (bx_row ++ [Turn 0 Begin] ++ bx_go 4)).
Proof. split; [vm_compute; discriminate|reflexivity]. Qed.
Example blocks_open_ex : let s := bx_run (bx_row ++ [Turn 0 Begin] ++ bx_go 4) in upstream s 0%nat 2%nat /\ 0 < told 2 (b_out s).
Proof.
  split; [|reflexivity]. apply (up_next _ _ 2%nat 1%nat); [reflexivity|]. apply (up_next _ _ 1%nat 0%nat); [reflexivity|]. apply up_self.
Qed.

(** ** what does not hold *)
(** a list that gives up its container in the middle of a block: no block is open any more, but its observers are in one *)
Theorem blocks_left_open_refuted :
  exists h, at_each bx_mapped acts_quiet b_new h /\ at_each bx_mapped (moves_acyclic bx_mapped) b_new h /\
  quiet (bx_run h) /\ (forall i, own i h = 0) /\ container (bx_run h) 2 = None /\ told 2 (b_out (bx_run h)) = 1.
Proof.
  exists (bx_row ++ [Turn 0 Begin] ++ bx_go 4 ++ [Move 2 None; Turn 0 End] ++ bx_go 2).
  split; [vm_compute; tauto|]. split.
  - cbn [bx_row bx_go repeat app at_each moves_acyclic].
    assert (Ha : forall s, (forall j k, container s j = Some k -> (k < j)%nat) -> acyclic s) by (intros s Hs; now exists (fun x => x)).
    repeat match goal with |- _ /\ _ => split | |- True => exact I end; apply Ha; intros j k Hc; vm_compute in Hc;
      destruct j as [|[|[|j]]]; try discriminate Hc; injection Hc as <-; lia.
  - split; [reflexivity|]. split; [|split; reflexivity]. intros i. cbn [bx_row bx_go repeat app own].
    destruct (Nat.eqb 0 i); reflexivity.
Qed.

(** a list that gets its container in the middle of a block does not announce the next one *)
Theorem blocks_unannounced_refuted :
  exists h, at_each bx_mapped acts_quiet b_new h /\ at_each bx_mapped (moves_acyclic bx_mapped) b_new h /\
  quiet (bx_run h) /\ container (bx_run h) 2 = Some 0%nat /\ told 0 (b_out (bx_run h)) = 1 /\ events 2 (b_out (bx_run h)) = [].
Proof.
  exists ([Turn 0 Begin; GoOn; Move 2 (Some 0%nat); Turn 0 End; GoOn; Turn 0 Begin; GoOn; GoOn]).
  split; [vm_compute; tauto|]. split.
  - cbn [at_each moves_acyclic].
    assert (Ha : forall s, (forall j k, container s j = Some k -> (k < j)%nat) -> acyclic s) by (intros s Hs; now exists (fun x => x)).
    repeat match goal with |- _ /\ _ => split | |- True => exact I end; apply Ha; intros j k Hc; vm_compute in Hc;
      destruct j as [|[|[|j]]]; try discriminate Hc; injection Hc as <-; lia.
  - vm_compute. repeat split.
Qed.

(** a handler of the begin event that makes a block of its own at the list: the begin is told twice, the end once *)
Theorem blocks_handler_refuted :
  exists h, at_each bx_mapped moves_quiet b_new h /\ quiet (bx_run h) /\ (forall i, own i h = 0) /\
  rev (events 0 (b_out (bx_run h))) = [Begin; Begin; End] /\ b_level (bx_run h) 0 = 0.
Proof.
  exists [Turn 0 Begin; Turn 0 Begin; GoOn; GoOn; Turn 0 End; Turn 0 End].
  split; [vm_compute; tauto|]. split; [reflexivity|]. split; [|split; reflexivity].
  intros i. cbn [own]. destruct (Nat.eqb 0 i); reflexivity.
Qed.

(** a handler of the begin event that ends the block: the end is not told at all *)
Theorem blocks_handler_end_refuted :
  exists h, at_each bx_mapped moves_quiet b_new h /\ quiet (bx_run h) /\ (forall i, own i h = 0) /\
  events 0 (b_out (bx_run h)) = [Begin] /\ b_level (bx_run h) 0 = 0.
Proof.
  exists [Turn 0 Begin; Turn 0 End; GoOn].
  split; [vm_compute; tauto|]. split; [reflexivity|]. split; [|split; reflexivity].
  intros i. cbn [own]. destruct (Nat.eqb 0 i); reflexivity.
Qed.
Print Assumptions blocks_left_open_refuted.
Print Assumptions blocks_unannounced_refuted.
Print Assumptions blocks_handler_refuted.
Print Assumptions blocks_handler_end_refuted.

Example blocks_count_ex : let h := [Turn 0 Begin; Turn 0 Begin; GoOn; GoOn; Turn 0 End; Turn 0 Begin] in
  b_level (bx_run h) 0 = 2 /\ own 0 h = 2 /\ quiet (bx_run h).
Proof. vm_compute. repeat split. Qed.
(** lists 2 and 3 hang on 0; the handler of the begin event at 2 takes 3 away before 3 has heard of it *)
Example blocks_count_any_ex : let h := [Move 2 (Some 0%nat); Move 3 (Some 0%nat); Turn 0 Begin; GoOn; Move 3 None; GoOn; GoOn; GoOn; GoOn] in
  quiet (bx_run h) /\ told 3 (b_out (bx_run h)) = 0 /\ heard_debt bx_mapped 3 b_new h = 0 /\ debt bx_mapped 3 b_new h = 1.
Proof. vm_compute. repeat split. Qed.
Example blocks_left_open_ex :
  told 2 (b_out (bx_run (bx_row ++ [Turn 0 Begin] ++ bx_go 4 ++ [Move 2 None; Turn 0 End] ++ bx_go 2 ++ [Turn 2 Begin; Turn 2 End]))) = 1.
Proof. reflexivity. Qed.
Example blocks_unannounced_ex :
  let h2 := [Turn 0 End; GoOn; Turn 2 Begin; Turn 2 End] in
  events 2 (b_out (bx_run ([Turn 0 Begin; GoOn; Move 2 (Some 0%nat)] ++ h2))) = [].
Proof. reflexivity. Qed.
