(** Closing an event loop: property C110. *)
From Coq Require Import Arith Bool List Lia.
From Verif Require Import PyBase LoopClose_Model LoopClose_Spec LoopClose_Proofs LoopClose_Proofs2.
Import ListNotations.

(** [s1]: the loop after its one chance, when close_event_loop looks which tasks there are *)
Lemma chance_inv come s : loop_ok s -> inv [] (gather (one_chance come s)).
Proof. intros H. apply gather_inv. apply one_chance_ok. exact H. Qed.
Lemma some_missing s : (exists t, going_on s t) -> missing (gather s) <> 0.
Proof.
  intros (t & k & p & E & R) Z. simpl in Z. assert (Q := cnt_zero unfinished (tasks s) Z k (nth_error_In _ _ E)). unfold unfinished in Q. rewrite R in Q. discriminate.
Qed.

(** If some tasks have not ended then, run_until_complete returns two rounds after the first round in which the last of them has
    ended. *)
Theorem loopclose_rounds come env s n : loop_ok s -> let s1 := one_chance come s in (exists t, going_on s1 t) ->
  (returns env n (gather s1) <->
   exists k, n = k + 2 /\ all_ended s1 (rounds env k (gather s1)) /\ forall j, j < k -> ~ all_ended s1 (rounds env j (gather s1))).
Proof.
  intros H s1 Hg. assert (I := chance_inv come s H). fold s1 in I. assert (M := some_missing s1 Hg).
  assert (E : forall j, all_ended s1 (rounds env j (gather s1)) <-> stopping (rounds env (S (S j)) (gather s1)) = true).
  { intros j. rewrite (ended_open s1 _ (rounds_keeps env j (gather s1))), (rounds_stopping env j _ I). symmetry. apply Nat.eqb_eq. }
  assert (E1 : stopping (rounds env 1 (gather s1)) = false) by (rewrite (first_stopping env _ I); apply Nat.eqb_neq; exact M).
  split.
  - intros [R1 R2]. destruct n as [|[|k]]; [discriminate|congruence|]. exists k. split; [lia|]. split; [apply E; exact R1|].
    intros j Hj A. apply E in A. rewrite R2 in A by lia. discriminate.
  - intros (k & -> & A & N). rewrite Nat.add_comm. split; [apply E; exact A|]. intros [|[|m]] Hm; [reflexivity|exact E1|].
    destruct (stopping (rounds env (S (S m)) (gather s1))) eqn:S; [|reflexivity]. exfalso. apply (N m); [lia|]. apply E. exact S.
Qed.
(** Otherwise it returns after one round. *)
Theorem loopclose_none come env s n : loop_ok s -> let s1 := one_chance come s in (forall t, ~ going_on s1 t) ->
  (returns env n (gather s1) <-> n = 1).
Proof.
  intros H s1 Hg. assert (I := chance_inv come s H). fold s1 in I.
  assert (M : missing (gather s1) = 0).
  { simpl. apply (cnt_none unfinished). intros k Hk. unfold unfinished. destruct (rest k) as [p|] eqn:R; [|reflexivity]. exfalso.
    apply In_nth_error in Hk. destruct Hk as [t E]. apply (Hg t). exists k, p. auto. }
  assert (E1 : stopping (rounds env 1 (gather s1)) = true) by (rewrite (first_stopping env _ I), M; reflexivity).
  split.
  - intros [R1 R2]. destruct n as [|[|k]]; [discriminate|reflexivity|]. rewrite R2 in E1 by lia. discriminate.
  - intros ->. split; [exact E1|]. intros [|m] Hm; [reflexivity|lia].
Qed.
(** When the loop is closed, all tasks that were there then have ended. *)
Theorem loopclose_gathered come env s n : loop_ok s -> let s1 := one_chance come s in returns env n (gather s1) ->
  forall t, t < length (tasks s1) -> ended (rounds env n (gather s1)) t.
Proof.
  intros H s1 R t Ht. assert (I := chance_inv come s H). fold s1 in I. assert (K := rounds_keeps env n (gather s1)).
  destruct (nth_error (tasks s1) t) as [k|] eqn:E; [|apply nth_error_None in E; lia].
  destruct (rest k) as [p|] eqn:Rk.
  - assert (Hg : exists t, going_on s1 t) by (exists t, k, p; auto).
    apply (loopclose_rounds come env s n H Hg) in R. destruct R as (j & -> & A & _). fold s1 in A.
    destruct (A t) as (k' & E' & R'); [exists k, p; auto|].
    assert (K2 : keeps (rounds env j (gather s1)) (rounds env (j + 2) (gather s1))).
    { replace (j + 2) with (S (S j)) by lia. simpl. eapply keeps_trans; apply round_keeps. }
    destruct (proj1 K2 t k' E') as (k2 & E2 & _ & R2). exists k2. auto.
  - destruct (proj1 K t (Task (rest k) (asleep k) (unfinished k))) as (k2 & E2 & _ & R2); [apply gather_task; exists k; auto|].
    exists k2. auto.
Qed.
(** It returns if all that tasks wait for comes some time. *)
Theorem loopclose_returns come env s : loop_ok s -> let s1 := one_chance come s in fair env (gather s1) ->
  exists n, returns env n (gather s1).
Proof.
  intros H s1 F. assert (I := chance_inv come s H). fold s1 in I.
  assert (G : exists m, stopping (rounds env m (gather s1)) = true).
  { destruct (all_end env _ I F) as [k Z]. exists (S (S k)). rewrite (rounds_stopping env k _ I), Z. reflexivity. }
  destruct G as [m Hm]. induction m as [m IH] using lt_wf_ind.
  assert (D : (exists j, j < m /\ stopping (rounds env j (gather s1)) = true) \/ forall j, j < m -> stopping (rounds env j (gather s1)) = false).
  { clear IH Hm. induction m as [|m [(j & Hj & Sj)|N]]; [right; lia|left; exists j; auto|].
    destruct (stopping (rounds env m (gather s1))) eqn:S; [left; exists m; auto|]. right. intros j Hj.
    destruct (Nat.eq_dec j m) as [->|Nj]; [exact S|apply N; lia]. }
  destruct D as [(j & Hj & Sj)|N]; [exact (IH j Hj Sj)|]. exists m. split; assumption.
Qed.
(** It never returns if what one of the tasks waits for does not come. *)
Theorem loopclose_never come env s t : loop_ok s -> let s1 := one_chance come s in waiting s1 t -> (forall i, ~ In t (env i)) ->
  forall n, ~ returns env n (gather s1).
Proof.
  intros H s1 (k & E & A) N n R. assert (I := chance_inv come s H). fold s1 in I.
  assert (O : loop_ok s1) by (apply one_chance_ok; exact H). destruct O as (_ & _ & _ & Hl).
  assert (Rk : exists p, rest k = Some p).
  { destruct (rest k) as [p|] eqn:Rk; [eauto|]. rewrite (proj2 (Hl k (nth_error_In _ _ E)) Rk) in A. discriminate. }
  destruct Rk as [p Rk]. set (k1 := Task (rest k) (asleep k) (unfinished k)).
  assert (E1 : nth_error (tasks (gather s1)) t = Some k1) by (apply gather_task; exists k; auto).
  assert (X : forall h hs s, inv (h :: hs) s -> nth_error (tasks s) t = Some k1 -> nth_error (tasks (exec s h)) t = Some k1).
  { intros h hs q Iq Eq. destruct h as [u| |]; simpl; auto. destruct (nth_error (tasks q) u) as [[[[creates after]|] sl w]|] eqn:Eu; auto.
    assert (Nu : u <> t).
    { intros ->. assert (C := i_step _ _ Iq t). cbn [app] in C. rewrite cnt_cons, Eq in C. simpl in C. rewrite Nat.eqb_refl in C. unfold k1 in C. rewrite A, Rk in C.
      simpl in C. discriminate. }
    assert (Q : forall x, nth_error (upd u x (tasks q) ++ map (fun p => Task (Some p) false false) creates) t = Some k1).
    { intros x. rewrite (step_tasks _ _ _ _ _ _ Eu). destruct (Nat.eqb_spec t u); [congruence|].
      destruct (Nat.ltb_spec t (length (tasks q))) as [L|L]; [exact Eq|]. apply nth_error_None in L. congruence. }
    destruct after; simpl; apply Q. }
  assert (Y : forall hs s, inv hs s -> nth_error (tasks s) t = Some k1 -> nth_error (tasks (fold_left exec hs s)) t = Some k1).
  { induction hs as [|h hs IH]; intros q Iq Eq; [exact Eq|]. simpl. apply IH; [apply exec_inv; exact Iq|exact (X h hs q Iq Eq)]. }
  assert (W : forall l s, ~ In t l -> nth_error (tasks s) t = Some k1 -> nth_error (tasks (fold_left wake l s)) t = Some k1).
  { induction l as [|u l IH]; intros q Nl Eq; [exact Eq|]. simpl. apply IH; [intros Hi; apply Nl; right; exact Hi|]. unfold wake.
    destruct (nth_error (tasks q) u) as [[[r|] [|] w]|]; auto. simpl. rewrite upd_nth. destruct (Nat.eqb_spec t u) as [->|Nu]; [exfalso; apply Nl; left; reflexivity|exact Eq]. }
  assert (Z : forall m, nth_error (tasks (rounds env m (gather s1))) t = Some k1).
  { induction m as [|m IH]; [exact E1|]. simpl. unfold round.
    apply (Y _ (emptied (fold_left wake (env m) (rounds env m (gather s1))))).
    - apply emptied_inv. apply wakes_inv. apply rounds_inv. exact I.
    - simpl. apply W; auto. }
  assert (L : t < length (tasks s1)) by (apply nth_error_Some; rewrite E; discriminate).
  destruct (loopclose_gathered come env s n H R t L) as (k2 & E2 & R2). fold s1 in E2. rewrite Z in E2. injection E2 as <-. simpl in R2. congruence.
Qed.
(** If no task that had not ended then creates tasks, no task is left when the loop is closed. *)
Theorem loopclose_quiet come env s n : loop_ok s -> let s1 := one_chance come s in returns env n (gather s1) ->
  (forall k p, In k (tasks s1) -> rest k = Some p -> creates_none p) ->
  forall k, In k (tasks (rounds env n (gather s1))) -> rest k = None.
Proof.
  intros H s1 R Q k Hk.
  assert (Qg : quiet (gather s1)).
  { intros k' p Hk' Rk. simpl in Hk'. apply in_map_iff in Hk'. destruct Hk' as (k0 & <- & H0). simpl in Rk. exact (Q k0 p H0 Rk). }
  destruct (rounds_quiet env n _ Qg) as [_ L]. apply In_nth_error in Hk. destruct Hk as [t E].
  assert (Ht : t < length (tasks s1)).
  { assert (t < length (tasks (rounds env n (gather s1)))) by (apply nth_error_Some; rewrite E; discriminate). rewrite L in *. simpl in *. rewrite map_length in *. assumption. }
  destruct (loopclose_gathered come env s n H R t Ht) as (k' & E' & R'). fold s1 in E'. congruence.
Qed.

(** ** Examples *)
Definition ends : prog := Act [] Ends.
(** as a sampling stream does: at its end a task creates the next one, which waits *)
Definition sampling : prog := Act [Act [] (Waits ends)] Ends.
Definition one_task (p : prog) : loop := Loop [Task (Some p) false false] [HStep 0] 0 false.
Lemma one_task_ok p : loop_ok (one_task p).
Proof.
  split; [reflexivity|]. split; [intros h [<-|[]]; eauto|]. split; [|intros k [<-|[]]; split; [reflexivity|discriminate]].
  intros [|[|t]]; reflexivity.
Qed.
Definition nothing (n : nat) : list nat := [].
(** wakes task 0 in the second round, once gathered *)
Definition then_0 (n : nat) : list nat := if Nat.eqb n 1 then [0] else [].

(** the task waits, is woken in the second round and creates a task of two steps, which ends as well *)
Example loopclose_rounds_ex :
  let s1 := one_chance [] (one_task (Act [] (Waits (Act [Act [] (Soon ends)] Ends)))) in
  returns then_0 4 (gather s1) /\ map rest (tasks (rounds then_0 4 (gather s1))) = [None; None].
Proof. split; [split; [reflexivity|]|reflexivity]. intros [|[|[|[|m]]]] Hm; try reflexivity. lia. Qed.
Example loopclose_none_ex : returns nothing 1 (gather (one_chance [] (one_task ends))).
Proof. split; [reflexivity|]. intros [|m] Hm; [reflexivity|lia]. Qed.
Example loopclose_gathered_ex :
  let s1 := one_chance [] (one_task (Act [Act [] (Soon ends)] (Soon ends))) in
  length (tasks s1) = 2 /\ returns nothing 4 (gather s1) /\ map rest (tasks (rounds nothing 4 (gather s1))) = [None; None].
Proof. split; [reflexivity|]. split; [split; [reflexivity|]|reflexivity]. intros [|[|[|[|m]]]] Hm; try reflexivity. lia. Qed.
Example loopclose_never_ex : waiting (one_chance [] (one_task (Act [] (Waits ends)))) 0.
Proof. eexists. split; reflexivity. Qed.
Example loopclose_quiet_ex : creates_none (Act [] (Waits (Act [] (Soon ends)))) /\ ~ creates_none sampling.
Proof. split; simpl; [auto|]. intros [H _]. discriminate. Qed.
Example loopclose_returns_ex : fair then_0 (gather (one_chance [] (one_task (Act [] (Waits ends))))).
Proof.
  intros i t (k & E & A). destruct i as [|[|i]].
  - exists 1. split; [lia|]. destruct t as [|[|t]]; [left; reflexivity|discriminate|discriminate].
  - exists 1. split; [lia|]. destruct t as [|[|t]]; [left; reflexivity|discriminate|discriminate].
  - exfalso. assert (G : forall i, tasks (rounds then_0 (S (S i)) (gather (one_chance [] (one_task (Act [] (Waits ends)))))) = [Task None false true] /\
      forall h, In h (ready (rounds then_0 (S (S i)) (gather (one_chance [] (one_task (Act [] (Waits ends))))))) -> h = HGather \/ h = HStop).
    { clear. induction i as [|i [IH1 IH2]]; [split; [reflexivity|intros h [<-|[]]; auto]|].
      set (s := rounds then_0 (S (S i)) (gather (one_chance [] (one_task (Act [] (Waits ends)))))) in *.
      change (rounds then_0 (S (S (S i))) (gather (one_chance [] (one_task (Act [] (Waits ends)))))) with (round [] s).
      unfold round. simpl. assert (X : forall hs q, (forall h, In h hs -> h = HGather \/ h = HStop) -> (forall h, In h (ready q) -> h = HGather \/ h = HStop) ->
        tasks (fold_left exec hs q) = tasks q /\ forall h, In h (ready (fold_left exec hs q)) -> h = HGather \/ h = HStop).
      { induction hs as [|h hs IHhs]; intros q H1 H2; [auto|]. simpl.
        destruct (IHhs (exec q h)) as [T R]; [intros h' Hh; apply H1; right; exact Hh| |].
        - destruct (H1 h (or_introl eq_refl)) as [-> | ->]; simpl; [|exact H2]. destruct (missing q =? 1); [|exact H2].
          intros h' Hh. apply in_app_or in Hh. destruct Hh as [Hh|[<-|[]]]; auto.
        - split; [|exact R]. rewrite T. destruct (H1 h (or_introl eq_refl)) as [-> | ->]; reflexivity. }
      destruct (X (ready s) (Loop (tasks s) [] (missing s) (stopping s)) IH2) as [T R]; [intros h []|]. split; [rewrite T; exact IH1|exact R]. }
    destruct (G i) as [G1 _]. rewrite G1 in E. destruct t as [|[|t]]; try discriminate. injection E as <-. discriminate.
Qed.

(** Refuted: no task is left when the loop is closed. *)
Theorem loopclose_left_refuted : ~ forall come env s n, loop_ok s -> let s1 := one_chance come s in returns env n (gather s1) ->
  forall k, In k (tasks (rounds env n (gather s1))) -> rest k = None.
Proof.
  intros H. assert (R : returns then_0 4 (gather (one_chance [] (one_task (Act [] (Waits sampling)))))).
  { split; [reflexivity|]. intros [|[|[|[|m]]]] Hm; try reflexivity. lia. }
  assert (G := H [] then_0 _ 4 (one_task_ok _) R (Task (Some ends) true false)). assert (X : Some ends = None); [|discriminate].
  apply G. right. left. reflexivity.
Qed.
Print Assumptions loopclose_rounds.
Print Assumptions loopclose_none.
Print Assumptions loopclose_gathered.
Print Assumptions loopclose_returns.
Print Assumptions loopclose_never.
Print Assumptions loopclose_quiet.
Print Assumptions loopclose_left_refuted.
