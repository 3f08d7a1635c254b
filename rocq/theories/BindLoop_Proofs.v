From Coq Require Import List Arith Lia.
From Verif Require Import PyBase BindLoop_Model BindLoop_Spec.
Import ListNotations.

Section Proofs.
  Context {P : Type} (P_dec : forall a b : P, {a = b} + {a <> b}).
  Variable bindings : list (binding P).
  Notation assign := (assign P_dec bindings).
  Fixpoint listen (f : nat) (l : list (nat * binding P)) (s1 : loop P) : option (loop P) :=
    match l with
    | [] => Some s1
    | (j, b) :: l' =>
        match b_show b (l_source s1) with
        | Ok t => match assign f (ToTarget j t) s1 with Some s2 => listen f l' s2 | None => None end
        | Err _ => Some s1
        end
    end.
  Lemma assign_source f v s : assign f (ToSource v) s =
    if P_dec v (l_source s) then Some s
    else match f with
         | O => None
         | S f => listen f (combine (seq 0 (length bindings)) bindings) (Loop v (l_targets s) ((None, v) :: l_log s))
         end.
  Proof.
    destruct f; [reflexivity|]. cbn [BindLoop_Model.assign]. destruct (P_dec v (l_source s)); [reflexivity|].
    generalize (combine (seq 0 (length bindings)) bindings) (Loop v (l_targets s) ((None, v) :: l_log s)). clear.
    induction l as [|[j b] l IH]; intros s1; [reflexivity|]. cbn [listen]. destruct (b_show b (l_source s1)) as [t|]; [|reflexivity].
    destruct (assign f (ToTarget j t) s1); [apply IH|reflexivity].
  Qed.
  Lemma assign_target f j t s : assign f (ToTarget j t) s =
    match nth_error (l_targets s) j, nth_error bindings j with
    | Some old, Some b =>
        if P_dec t old then Some s
        else match f with
             | O => None
             | S f =>
                 let s1 := Loop (l_source s) (put_target j t (l_targets s)) ((Some j, t) :: l_log s) in
                 match b_accept b t with Ok v => assign f (ToSource v) s1 | Err _ => Some s1 end
             end
    | _, _ => Some s
    end.
  Proof. destruct f; reflexivity. Qed.
  Lemma put_app (l1 l2 : list P) t' t : put_target (length l1) t' (l1 ++ t :: l2) = l1 ++ t' :: l2.
  Proof.
    unfold put_target. rewrite firstn_app, Nat.sub_diag, firstn_all, firstn_O, app_nil_r. do 2 f_equal.
    rewrite skipn_app. replace (S (length l1) - length l1) with 1 by lia. rewrite skipn_all2 by lia. reflexivity.
  Qed.
  Lemma put_length j t (l : list P) : j < length l -> length (put_target j t l) = length l.
  Proof. intros H. unfold put_target. rewrite app_length. cbn [length]. rewrite firstn_length, skipn_length. lia. Qed.
  Lemma nth_mid {X} (l1 l2 : list X) x : nth_error (l1 ++ x :: l2) (length l1) = Some x.
  Proof. rewrite nth_error_app2 by lia. rewrite Nat.sub_diag. reflexivity. Qed.
  Lemma same_source f v s : l_source s = v -> assign f (ToSource v) s = Some s.
  Proof. intros <-. rewrite assign_source. destruct (P_dec _ _); [reflexivity|contradiction]. Qed.

  Lemma listeners f good v : faithful bindings good -> good v -> forall bs bs1 ts1 ts log,
    bindings = bs1 ++ bs -> length ts1 = length bs1 -> length ts = length bs ->
    listen (S f) (combine (seq (length bs1) (length bs)) bs) (Loop v (ts1 ++ ts) log) =
    Some (Loop v (ts1 ++ all_shown v bs ts) (rev (changes P_dec v (length bs1) bs ts) ++ log)).
  Proof.
    intros F G. induction bs as [|b bs IH]; intros bs1 ts1 ts log E L1 L2.
    - destruct ts; [reflexivity|discriminate].
    - destruct ts as [|t ts]; [discriminate|]. cbn [length seq combine listen all_shown changes l_source].
      assert (Fb : forall t, b_show b v = Ok t -> b_accept b t = Ok v).
      { unfold faithful in F. rewrite E, Forall_app in F. destruct F as [_ F]. inversion F as [|? ? [F1 _] _]; subst. intros t'. apply F1, G. }
      destruct (b_show b v) as [t'|e] eqn:Es; [|reflexivity].
      assert (H : assign (S f) (ToTarget (length bs1) t') (Loop v (ts1 ++ t :: ts) log) =
                  Some (Loop v (ts1 ++ t' :: ts) ((if P_dec t' t then [] else [(Some (length bs1), t')]) ++ log))).
      { rewrite assign_target. cbn [l_targets l_source l_log].
        assert (Nb : nth_error bindings (length bs1) = Some b) by (rewrite E; apply nth_mid).
        assert (Nt : nth_error (ts1 ++ t :: ts) (length bs1) = Some t) by (rewrite <- L1; apply nth_mid). rewrite Nt, Nb.
        destruct (P_dec t' t) as [->|N]; [reflexivity|]. cbv zeta. rewrite (Fb t' eq_refl), same_source by reflexivity.
        rewrite <- L1, put_app. reflexivity. }
      rewrite H. specialize (IH (bs1 ++ [b]) (ts1 ++ [t']) ts).
      rewrite !app_length in IH. cbn [length] in IH. rewrite !Nat.add_1_r in IH.
      replace (ts1 ++ t' :: ts) with ((ts1 ++ [t']) ++ ts) by (rewrite <- app_assoc; reflexivity).
      rewrite IH; [|rewrite E, <- app_assoc; reflexivity|lia|injection L2; auto]. rewrite <- app_assoc. cbn [app]. do 2 f_equal.
      rewrite rev_app_distr, <- app_assoc. f_equal. destruct (P_dec _ _); reflexivity.
  Qed.
  Lemma source_settles f good v s : faithful bindings good -> good v -> length (l_targets s) = length bindings -> v <> l_source s ->
    assign (S (S f)) (ToSource v) s =
    Some (Loop v (all_shown v bindings (l_targets s)) (rev ((None, v) :: changes P_dec v 0 bindings (l_targets s)) ++ l_log s)).
  Proof.
    intros F G L N. rewrite assign_source. destruct (P_dec v (l_source s)) as [E|_]; [contradiction|].
    change 0 with (length (@nil (binding P))) at 1.
    pose proof (listeners f good v F G bindings [] [] (l_targets s) ((None, v) :: l_log s) eq_refl eq_refl L) as H. cbn [app] in H.
    rewrite H. cbn [length rev]. rewrite <- app_assoc. reflexivity.
  Qed.
  Lemma all_shown_forall (v : P) (bs : list (binding P)) ts : length ts = length bs ->
    Forall (fun b => exists t, b_show b v = Ok t /\ b_accept b t = Ok v) bs ->
    Forall2 (fun b t => forall v', b_accept b t = Ok v' -> v' = v) bs (all_shown v bs ts).
  Proof.
    revert ts. induction bs as [|b bs IH]; intros [|t ts] L F; try discriminate; [constructor|]. cbn [all_shown].
    inversion F as [|? ? (t' & S1 & A1) F']; subst. rewrite S1. constructor; [|apply IH; [injection L; auto|exact F']].
    congruence.
  Qed.
  Lemma all_shown_length (v : P) bs ts : length (all_shown v bs ts) = length ts.
  Proof. revert ts. induction bs as [|b bs IH]; intros [|t ts]; try reflexivity. cbn. destruct (b_show b v); [cbn; f_equal; apply IH|reflexivity]. Qed.
  Lemma forall2_put (R : binding P -> P -> Prop) j t b ts : forall bs, Forall2 R bs ts -> nth_error bs j = Some b -> R b t -> Forall2 R bs (put_target j t ts).
  Proof.
    revert j. induction ts as [|t0 ts IH]; intros j bs H Nb Hb; inversion H; subst; [destruct j; discriminate|].
    destruct j as [|j]; cbn in Nb.
    - injection Nb as ->. constructor; assumption.
    - constructor; [assumption|]. apply IH; assumption.
  Qed.
  Lemma forall2_nth (R : binding P -> P -> Prop) j t b bs ts : Forall2 R bs ts -> nth_error bs j = Some b -> nth_error ts j = Some t -> R b t.
  Proof.
    intros H. revert j. induction H as [|? ? ? ? H0 H IH]; intros [|j] N1 N2; cbn in *; try discriminate; [congruence|]. eapply IH; eassumption.
  Qed.
End Proofs.
