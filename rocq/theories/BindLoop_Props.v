(** Property C91: property models connected by two-way bindings. *)
From Coq Require Import List Arith Lia ZArith Bool.
From Verif Require Import PyBase BindLoop_Model BindLoop_Spec BindLoop_Proofs.
Import ListNotations.

Section Props.
  Context {P : Type} (P_dec : forall a b : P, {a = b} + {a <> b}).
  Variable bindings : list (binding P).
  Notation assign := (assign P_dec bindings).

  (** C91: an assignment to the source or to any target comes to rest after three nested assignments at most, and the
      assignments taken are exactly those of [settles] *)
  Theorem loop_settles good f o s : faithful bindings good -> allowed bindings good o -> length (l_targets s) = length bindings ->
    exists v ts log, assign (3 + f) o s = Some (Loop v ts (rev log ++ l_log s)) /\ settles P_dec bindings s o v ts log.
  Proof.
    intros F A L. destruct s as [s0 ts0 lg]. cbn [l_targets l_source l_log] in *. destruct o as [v|j t]; cbn [allowed] in A.
    - destruct (P_dec v s0) as [->|N].
      + exists s0, ts0, []. split; [apply same_source; reflexivity|]. apply S_same. reflexivity.
      + eexists _, _, _. split; [apply (source_settles P_dec bindings (S f) good v (Loop s0 ts0 lg) F A L N)|]. apply S_source. exact N.
    - destruct (nth_error ts0 j) as [old|] eqn:No; [|apply nth_error_None in No; lia].
      destruct (nth_error bindings j) as [b|] eqn:Nb; [|apply nth_error_None in Nb; lia].
      cbn [Nat.add]. rewrite assign_target. cbn [l_targets l_source l_log]. rewrite No, Nb.
      destruct (P_dec t old) as [->|N].
      { exists s0, ts0, []. split; [reflexivity|]. apply S_target_same. exact No. }
      destruct (b_accept b t) as [v|e] eqn:Ea.
      + destruct (P_dec v s0) as [->|Nv].
        * exists s0, (put_target j t ts0), [(Some j, t)]. split; [apply same_source; reflexivity|].
          eapply S_target_kept; [exact No|congruence|exact Nb|]. intros v Ev. cbn. congruence.
        * exists v, (all_shown v bindings (put_target j t ts0)), ((Some j, t) :: (None, v) :: changes P_dec v 0 bindings (put_target j t ts0)).
          split; [|eapply S_target; [exact No|congruence|exact Nb|exact Ea|exact Nv]].
          assert (G : good v).
          { unfold faithful in F. rewrite Forall_forall in F. destruct (F b (nth_error_In _ _ Nb)) as [_ F2]. eapply F2, Ea. }
          cbv zeta. rewrite (source_settles P_dec bindings f good v _ F G); cbn [l_targets l_source l_log]; [|rewrite put_length by lia; exact L|exact Nv].
          do 2 f_equal. cbn [rev]. rewrite <- !app_assoc. reflexivity.
      + exists s0, (put_target j t ts0), [(Some j, t)]. split; [reflexivity|].
        eapply S_target_kept; [exact No|congruence|exact Nb|]. intros v Ev. congruence.
  Qed.
  (** C91: over any history the source is what was last requested and accepted, and every target stands for it *)
  Theorem loop_history good f l : faithful bindings good -> (forall v b, good v -> In b bindings -> exists t, b_show b v = Ok t) ->
    forall s, agrees bindings s -> Forall (allowed bindings good) l ->
    exists s', assign_all P_dec bindings (3 + f) l s = Some s' /\ l_source s' = fold_left (requested bindings) l (l_source s) /\ agrees bindings s'.
  Proof.
    intros F T. induction l as [|o l IH]; intros s Ag Al; [exists s; auto|]. inversion Al as [|? ? Ao Al']; subst.
    assert (L : length (l_targets s) = length bindings) by (clear - Ag; unfold agrees in Ag; induction Ag; cbn; congruence).
    destruct (loop_settles good f o s F Ao L) as (v & ts & log & E & St). cbn [assign_all]. rewrite E.
    assert (K : v = requested bindings (l_source s) o /\ agrees bindings (Loop v ts (rev log ++ l_log s))).
    { assert (Sh : forall w ts, good w -> length ts = length bindings -> agrees bindings (Loop w (all_shown w bindings ts) (rev log ++ l_log s))).
      { intros w ts' G L'. apply all_shown_forall; [exact L'|]. apply Forall_forall. intros b Ib. destruct (T w b G Ib) as [t Et]. exists t. split; [exact Et|].
        unfold faithful in F. rewrite Forall_forall in F. apply (F b Ib); assumption. }
      inversion St as [w Ew|w Nw|j t Nt|j t old b No Nn Nb Ka|j t old b w No Nn Nb Ea Nw]; subst; cbn [requested].
      - auto.
      - split; [reflexivity|]. apply Sh; [exact Ao|exact L].
      - split; [|exact Ag]. destruct (nth_error bindings j) as [b|] eqn:Nb; [|reflexivity]. destruct (b_accept b t) as [w|] eqn:Ea; [|reflexivity].
        symmetry. exact (forall2_nth _ j t b _ _ Ag Nb Nt w Ea).
      - rewrite Nb. split; [destruct (b_accept b t) as [w|]; [symmetry; apply Ka; reflexivity|reflexivity]|].
        eapply forall2_put; [exact Ag|exact Nb|exact Ka].
      - rewrite Nb, Ea. split; [reflexivity|]. apply Sh; [|rewrite put_length; [exact L|rewrite L; apply nth_error_Some; congruence]].
        unfold faithful in F. rewrite Forall_forall in F. destruct (F b (nth_error_In _ _ Nb)) as [_ F2]. eapply F2, Ea. }
    destruct K as [-> Ag']. apply (IH _ Ag' Al').
  Qed.
  (** C91 (defect): a target that is assigned another text of the source's value, or a value that the validator turns into it, keeps it *)
  Theorem loop_not_normalised_refuted good f j b t old s : faithful bindings good -> length (l_targets s) = length bindings ->
    nth_error bindings j = Some b -> nth_error (l_targets s) j = Some old -> old <> t -> b_accept b t = Ok (l_source s) -> b_show b (l_source s) <> Ok t ->
    exists s', assign (3 + f) (ToTarget j t) s = Some s' /\ l_source s' = l_source s /\ nth_error (l_targets s') j = Some t.
  Proof.
    intros F L Nb No Nn Ea Ns. assert (J : j < length bindings) by (apply nth_error_Some; congruence).
    destruct (loop_settles good f (ToTarget j t) s F J L) as (v & ts & log & E & St). eexists. split; [exact E|].
    inversion St as [w Ew|w Nw|j' t' Nt|j' t' old' b' No' Nn' Nb' Ka|j' t' old' b' w No' Nn' Nb' Ea' Nw]; subst.
    - congruence.
    - split; [reflexivity|]. cbn [l_targets]. unfold put_target. assert (Lj : j < length (l_targets s)) by lia.
      rewrite nth_error_app2; rewrite firstn_length; [|lia]. replace (j - Nat.min j (length (l_targets s))) with 0 by lia. reflexivity.
    - congruence.
  Qed.
End Props.

(** ** one binding that does not give back what it shows *)
Section Lossy.
  Context {P : Type} (P_dec : forall a b : P, {a = b} + {a <> b}) (show accept : P -> P).
  Definition one : list (binding P) := [Binding (fun v => Ok (show v)) (fun t => Ok (accept t))].
  Definition trip (v : P) : P := accept (show v).
  Notation assign := (assign P_dec one).
  Lemma one_source f v s t lg : v <> s -> assign (S f) (ToSource v) (Loop s [t] lg) = assign f (ToTarget 0 (show v)) (Loop v [t] ((None, v) :: lg)).
  Proof. intros N. rewrite assign_source. cbn [l_source]. destruct (P_dec v s); [contradiction|]. cbn [one length seq combine listen b_show l_source l_targets l_log].
    destruct (assign f _ _); reflexivity. Qed.
  Lemma one_target f u v t lg : u <> t -> assign (S f) (ToTarget 0 u) (Loop v [t] lg) = assign f (ToSource (accept u)) (Loop v [u] ((Some 0, u) :: lg)).
  Proof. intros N. rewrite assign_target. cbn [l_targets nth_error one]. destruct (P_dec u t); [contradiction|]. reflexivity. Qed.
  (** C91 (defect): the source does not keep the value assigned to it: it is passed through the converter and back until
      what is shown no longer changes *)
  Theorem loop_lossy k : forall v s t lg f, v <> s -> show v <> t ->
    show (trip (Nat.iter k trip v)) = show (Nat.iter k trip v) -> (forall i, i < k -> show (trip (Nat.iter i trip v)) <> show (Nat.iter i trip v)) ->
    exists lg', assign (2 * k + 4 + f) (ToSource v) (Loop s [t] lg) = Some (Loop (trip (Nat.iter k trip v)) [show (trip (Nat.iter k trip v))] lg').
  Proof.
    induction k as [|k IH]; intros v s t lg f Nv Nt Hk Hi.
    - change (Nat.iter 0 trip v) with v in *. cbn [Nat.mul Nat.add]. rewrite one_source by exact Nv. rewrite one_target by exact Nt. fold (trip v).
      destruct (P_dec (trip v) v) as [E|N].
      + rewrite same_source by (symmetry; exact E). rewrite E. eexists. reflexivity.
      + rewrite one_source by exact N. rewrite Hk, assign_target. cbn [l_targets nth_error one]. destruct (P_dec (show v) (show v)); [|contradiction].
        eexists. reflexivity.
    - replace (2 * S k + 4 + f) with (S (S (2 * k + 4 + f))) by lia. rewrite one_source by exact Nv. rewrite one_target by exact Nt. fold (trip v).
      assert (It : forall i, Nat.iter i trip (trip v) = Nat.iter (S i) trip v) by (clear; intros i; induction i as [|i IHi]; [reflexivity|transitivity (trip (Nat.iter i trip (trip v))); [reflexivity|rewrite IHi; reflexivity]]).
      rewrite <- (It k) in *. apply IH.
      + intros E. apply (Hi 0 ltac:(lia)). cbn. rewrite E. reflexivity.
      + apply (Hi 0). lia.
      + exact Hk.
      + intros i Li. rewrite It. apply Hi. lia.
  Qed.
  (** C91 (defect): if it never stops changing, no nesting depth suffices *)
  Theorem loop_diverges_refuted f : forall v s t lg, v <> s -> show v <> t ->
    (forall i, show (trip (Nat.iter i trip v)) <> show (Nat.iter i trip v)) -> assign f (ToSource v) (Loop s [t] lg) = None.
  Proof.
    induction f as [f IH] using lt_wf_ind. intros v s t lg Nv Nt H.
    destruct f as [|[|f]].
    - rewrite assign_source. cbn [l_source]. destruct (P_dec v s); [contradiction|reflexivity].
    - rewrite one_source by exact Nv. rewrite assign_target. cbn [l_targets nth_error one]. destruct (P_dec (show v) t); [contradiction|reflexivity].
    - rewrite one_source by exact Nv. rewrite one_target by exact Nt. fold (trip v).
      assert (It : forall i, Nat.iter i trip (trip v) = Nat.iter (S i) trip v) by (clear; intros i; induction i as [|i IHi]; [reflexivity|transitivity (trip (Nat.iter i trip (trip v))); [reflexivity|rewrite IHi; reflexivity]]).
      apply IH; [lia| | |].
      + intros E. apply (H 0). cbn. rewrite E. reflexivity.
      + apply (H 0).
      + intros i. rewrite It. apply H.
  Qed.
End Lossy.
Print Assumptions loop_settles.
Print Assumptions loop_history.
Print Assumptions loop_not_normalised_refuted.
Print Assumptions loop_lossy.
Print Assumptions loop_diverges_refuted.

(** two targets, one showing the double; the second accepts at most 100 *)
Example loop_case :
  let bs := [Binding (fun v => Ok (2 * v)%Z) (fun t => if Z.even t then Ok (t / 2)%Z else Err ValueError);
             Binding (fun v => Ok v) (fun t => Ok (Z.min t 100))] in
  let run l := match assign_all Z.eq_dec bs 3 l (Loop 100 [200; 100] [])%Z with
               | Some s => Some (l_source s, l_targets s, rev (l_log s)) | None => None end in
  run [ToSource 7%Z] = Some (7, [14; 7], [(None, 7); (Some 0%nat, 14); (Some 1%nat, 7)])%Z /\
  run [ToTarget 0 12%Z] = Some (6, [12; 6], [(Some 0%nat, 12); (None, 6); (Some 1%nat, 6)])%Z /\
  run [ToTarget 0 3%Z] = Some (100, [3; 100], [(Some 0%nat, 3)])%Z /\
  run [ToTarget 1 150%Z] = Some (100, [200; 150], [(Some 1%nat, 150)])%Z /\
  run [ToTarget 1 7%Z; ToTarget 1 150%Z] =
    Some (100, [200; 100], [(Some 1%nat, 7); (None, 7); (Some 0%nat, 14); (Some 1%nat, 150); (None, 100); (Some 0%nat, 200); (Some 1%nat, 100)])%Z.
Proof. repeat split. Qed.
(** a binding that cannot show the value keeps the later ones from hearing of it *)
Example loop_raise_case :
  let bs := [Binding (fun v => Ok v) (fun t => Ok t); Binding (fun v => if Z.eqb v 5 then Err ValueError else Ok v) (fun t => Ok t);
             Binding (fun v => Ok v) (fun t => Ok t)] in
  match assign Z.eq_dec bs 3 (ToSource 5%Z) (Loop 1 [1; 1; 1] [])%Z with Some s => l_targets s = [5; 1; 1]%Z | None => False end.
Proof. reflexivity. Qed.
(** tens only: 47 assigned to the source becomes 40 *)
Example loop_lossy_case :
  match assign Z.eq_dec (one (fun v => v / 10)%Z (fun t => t * 10)%Z) 4 (ToSource 47%Z) (Loop 0 [0] [])%Z with
  | Some s => l_source s = 40%Z /\ l_targets s = [4%Z] | None => False end.
Proof. vm_compute. auto. Qed.
