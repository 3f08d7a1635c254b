From Coq Require Import List ZArith Bool Arith Permutation Sorted Lia.
From Verif Require Import PyBase Filtered_Model Filtered_Spec Filtered_Proofs Filtered_Proofs2 Filtered_Proofs3
  FiltBlk_Model FiltBlk_Spec FiltBlk_Proofs FiltBlk_Proofs2.
Import ListNotations.

Section FB3.
  Context {A C K : Type} (A_dec : forall a b : A, {a = b} + {a <> b}) (lt : K -> K -> bool).
  Notation inb := (inb A_dec).
  Notation bst := (bst A C K).
  Notation bact := (bact A C K).
  Notation bpc := (bpc A C K).
  Notation bsh := (bsh A C K).
  Notation b_step := (b_step A_dec lt).
  Notation b_move := (b_move A_dec lt).

  (** -- nothing is listed anew while the level is positive -- *)
  Definition calm (p : bpc) : bool := match p with BRel | BEndW _ | BEndC => true | _ => negb (b_holds p) end.
  Lemma move_calm ord (h : bsh) (p : bpc) h1 p1 tr : b_move ord h p = (h1, p1, tr) -> (0 < b_level h)%Z -> calm p = true ->
    calm p1 = true /\ b_items h1 = b_items h /\ (tr = [] \/ tr = [FReset]).
  Proof.
    intros E Hl Hc. assert (Hh : b_held h = true) by (apply held_spec, Hl).
    destruct p; cbn in Hc; try discriminate; cbn [FiltBlk_Model.b_move] in E; rewrite ?Hh in E;
      try (injection E as <- <- <-; cbn; auto).
    - destruct (inb x (b_master h)); injection E as <- <- <-; cbn; auto.
    - destruct (py_get _ _); [|injection E as <- <- <-; cbn; auto]. destruct (py_del _ _); injection E as <- <- <-; cbn; auto.
    - destruct (inb x (b_master h)); cbn; auto.
    - destruct (Z.eqb_spec (b_level h) 0); [lia|]. cbn. auto.
  Qed.
  Definition calms (s : bst) : Prop := forall p, In p (b_calls s) -> calm p = true.
  Lemma step_calm (s : bst) a : (0 < level s)%Z -> calms s ->
    calms (b_step s a) /\ items (b_step s a) = items s /\ exists n, b_log (b_step s a) = b_log s ++ repeat FReset n.
  Proof.
    intros Hl Hc.
    assert (N : calms s /\ items s = items s /\ exists n, b_log s = b_log s ++ repeat FReset n).
    { split; [exact Hc|]. split; [reflexivity|]. exists 0. cbn. rewrite app_nil_r. reflexivity. }
    destruct a as [p|t ord]; cbn [FiltBlk_Model.b_step].
    - destruct (b_starts p) eqn:Es; [|exact N]. destruct (starts_ok p Es) as (Hh & _).
      destruct N as (_ & _ & N). split; [|split; [reflexivity|exact N]].
      intros q Hq. cbn in Hq. apply in_app_iff in Hq as [Hq|[<-|[]]]; [exact (Hc q Hq)|]. destruct p; cbn in *; auto; discriminate.
    - destruct (nth_error (b_calls s) t) as [p|] eqn:Hp; [|exact N]. destruct (b_blocked s p); [exact N|].
      destruct (b_move ord (b_sh s) p) as [[h1 p1] tr] eqn:E.
      destruct (move_calm _ _ _ _ _ _ E Hl (Hc p (nth_error_In _ _ Hp))) as (M1 & M2 & M3).
      split; [|split].
      + intros q Hq. cbn in Hq. apply (in_put t p1 p _ q Hp) in Hq as [->|(u & _ & Hq)]; [exact M1|]. apply Hc. eapply nth_error_In. exact Hq.
      + exact M2.
      + cbn. destruct M3 as [->| ->]; [exists 0|exists 1]; reflexivity.
  Qed.
  Lemma run_calm acts : forall s : bst, calms s ->
    throughout A_dec lt (fun s => (0 < level s)%Z) s acts ->
    items (fold_left b_step acts s) = items s /\ exists n, b_log (fold_left b_step acts s) = b_log s ++ repeat FReset n.
  Proof.
    induction acts as [|a acts IH]; intros s Hc HT; cbn [fold_left].
    - split; [reflexivity|]. exists 0. cbn. rewrite app_nil_r. reflexivity.
    - destruct HT as [T1 T2]. destruct (step_calm s a T1 Hc) as (S1 & S2 & n & S3).
      destruct (IH _ S1 T2) as (I1 & m & I2). split; [congruence|]. exists (n + m). rewrite I2, S3, <- app_assoc, repeat_app. reflexivity.
  Qed.
  Lemma free_calms (s : bst) : linv s -> b_owner s = None -> calms s.
  Proof.
    intros V Ho p Hp. apply In_nth_error in Hp as [t Hp]. assert (Q : b_holds p = false).
    { destruct (b_holds p) eqn:E; [|reflexivity]. rewrite (v_hold s V t p Hp E) in Ho. discriminate. }
    destruct p; cbn in *; auto; discriminate.
  Qed.

  (** a block that stays open *)
  Lemma step_stays (s : bst) t a : nth_error (b_calls s) t = Some BOpen -> leaves t a -> nth_error (b_calls (b_step s a)) t = Some BOpen.
  Proof.
    intros Hp Hl. destruct a as [p|u ord]; cbn [FiltBlk_Model.b_step].
    - destruct (b_starts p); [|exact Hp]. cbn. rewrite nth_error_app1; [exact Hp|]. apply nth_error_Some. congruence.
    - destruct (nth_error (b_calls s) u) as [p|] eqn:Hu; [|exact Hp]. destruct (b_blocked s p); [exact Hp|].
      destruct (b_move ord (b_sh s) p) as [[h1 p1] tr]. cbn. rewrite put_other; [exact Hp|]. cbn in Hl. congruence.
  Qed.
  Lemma open_level (s : bst) t : cinv 0 s -> nth_error (b_calls s) t = Some BOpen -> (0 < level s)%Z.
  Proof.
    intros V Hp. rewrite (level_blocks s V). unfold blocks.
    assert (Q : In BOpen (filter in_block (b_calls s))) by (apply filter_In; split; [eapply nth_error_In; exact Hp|reflexivity]).
    destruct (filter in_block (b_calls s)); [destruct Q|cbn; lia].
  Qed.
  Lemma stays_level acts : forall (s : bst) t, cinv 0 s -> nth_error (b_calls s) t = Some BOpen -> Forall (leaves t) acts ->
    throughout A_dec lt counts_apart s acts -> throughout A_dec lt (fun s => (0 < level s)%Z) s acts.
  Proof.
    induction acts as [|a acts IH]; intros s t V Hp Hl HT; cbn [throughout] in *.
    - split; [eapply open_level; eassumption|exact I].
    - destruct HT as [T1 T2]. inversion Hl; subst. split; [eapply open_level; eassumption|].
      apply (IH _ t); [apply step_cinv; assumption|apply step_stays; assumption|assumption|exact T2].
  Qed.
  Lemma drift_level acts d : (0 < d)%Z -> forall s : bst, cinv d s ->
    throughout A_dec lt counts_apart s acts -> throughout A_dec lt (fun s => (0 < level s)%Z) s acts.
  Proof.
    intros Hd. induction acts as [|a acts IH]; intros s V HT; cbn [throughout] in *.
    - split; [|exact I]. rewrite (c_level _ _ V). unfold blocks. lia.
    - destruct HT as [T1 T2]. split; [rewrite (c_level _ _ V); unfold blocks; lia|]. apply IH; [apply step_cinv; assumption|exact T2].
  Qed.

  (** -- no call can be stuck -- *)
  Definition rank (h : bsh) (p : bpc) : nat :=
    match p with
    | BDone => 0 | BRel => 1 | BFlag => 2 | BApply _ => 3 | BBuild _ rest => 4 + length rest
    | BEndU | BUpd => 5 + length (b_master h) | BSetFlag | BSetKey _ | BSetRev _ => 6 + length (b_master h) | BSetFilter _ => 7 + length (b_master h)
    | BEndC => 6 + length (b_master h) | BEndW _ => 7 + length (b_master h) | BEnd => 8 + length (b_master h)
    | BOpen => 9 + length (b_master h) | BBeginW _ => 10 + length (b_master h) | BBegin => 11 + length (b_master h)
    | BReset => 1 | BPlace _ => 2 | BMatch _ => 3 | BAgain _ => 4 | BDrop _ _ => 5 | BCheck _ => 6 | BTell _ => 7 | BEdit _ _ => 8 | BIns _ _ => 4 | BDel _ => 2
    end.
  Lemma sorted_length (h : bsh) : length (sorted_master lt h) = length (b_master h).
  Proof. apply Permutation_length, sorted_master_perm. Qed.
  Lemma move_rank ord (h : bsh) (p : bpc) h1 p1 tr : b_move ord h p = (h1, p1, tr) -> p <> BDone -> rank h1 p1 < rank h p.
  Proof.
    pose proof (sorted_length h) as SL.
    intros E Hp. destruct p; cbn [FiltBlk_Model.b_move] in E; try (injection E as <- <- <-; cbn; lia).
    - destruct (inb x (b_master h)); injection E as <- <- <-; [cbn; lia|]. destruct (b_held h); cbn; lia.
    - injection E as <- <- <-. destruct (b_passes h x); cbn; lia.
    - destruct (py_get _ _); [|injection E as <- <- <-; cbn; lia]. destruct (py_del _ _); [|injection E as <- <- <-; cbn; lia].
      destruct (b_held h); [injection E as <- <- <-; cbn; lia|]. destruct (b_drop _ _ _). injection E as <- <- <-. cbn; lia.
    - injection E as <- <- <-. destruct (inb x _), (b_held h); cbn; lia.
    - injection E as <- <- <-. unfold check_next. destruct (b_passes h x), (index_of _ _ _); try destruct (b_key h); try destruct (_ =? _); cbn; lia.
    - destruct (b_held h); [|destruct (b_drop _ _ _)]; injection E as <- <- <-; destruct again; cbn; lia.
    - injection E as <- <- <-. destruct (b_held h); cbn; lia.
    - injection E as <- <- <-. destruct (b_held h); cbn; lia.
    - injection E as <- <- <-. destruct (_ =? _)%Z; cbn; lia.
    - injection E as <- <- <-. destruct (b_held h); cbn; lia.
    - destruct rest; injection E as <- <- <-; cbn; lia.
    - destruct (b_apply _ _ _ _ _). injection E as <- <- <-. cbn; lia.
    - congruence.
  Qed.
  Lemma put_put t (p q : bpc) l : b_put t p (b_put t q l) = b_put t p l.
  Proof. revert t. induction l as [|a l IH]; intros [|t]; cbn; try reflexivity. rewrite IH. reflexivity. Qed.
  Lemma put_id t (p : bpc) l : nth_error l t = Some p -> b_put t p l = l.
  Proof. revert t. induction l as [|a l IH]; intros [|t]; cbn; try discriminate; [intros [= ->]; reflexivity|]. intros H. rewrite IH; auto. Qed.

  Lemma solo n : forall (s : bst) t p, linv s -> nth_error (b_calls s) t = Some p -> b_owner s = None \/ b_owner s = Some t ->
    rank (b_sh s) p <= n -> exists acts, Forall visits acts /\ Forall goes acts /\
      b_calls (fold_left b_step acts s) = b_put t BDone (b_calls s) /\ b_owner (fold_left b_step acts s) = None.
  Proof.
    induction n as [|n IH]; intros s t p V Hp Ho Hr.
    - assert (p = BDone) as -> by (destruct p; cbn in Hr; try lia; reflexivity). exists []. repeat split; auto.
      + cbn. rewrite put_id; auto.
      + cbn. destruct Ho as [Ho|Ho]; [exact Ho|]. destruct (v_own s V t Ho) as (q & Hq & Hh). rewrite Hp in Hq. injection Hq as <-. discriminate.
    - destruct p eqn:Ep; try (assert (Hnd : p <> BDone) by (subst p; discriminate);
        rewrite <- Ep in *; clear Ep;
        destruct (b_move (fun l => l) (b_sh s) p) as [[h1 p1] tr] eqn:E;
        assert (Hb : b_blocked s p = false) by
          (unfold b_blocked; destruct Ho as [Ho|Ho]; rewrite Ho; [reflexivity|];
           destruct (v_own s V t Ho) as (q & Hq & Hh); rewrite Hp in Hq; injection Hq as <-; destruct p; cbn in Hh; try discriminate; reflexivity);
        pose proof (move_rank _ _ _ _ _ _ E Hnd) as R;
        set (s1 := Bst h1 (if b_holds p1 then Some t else if b_holds p || b_acquires p then None else b_owner s) (b_put t p1 (b_calls s)) (b_log s ++ tr));
        assert (St : b_step s (BGo t (fun l => l)) = s1) by (cbn [FiltBlk_Model.b_step]; rewrite Hp, Hb, E; reflexivity);
        destruct (IH s1 t p1) as (acts & A1 & A2 & A3 & A4);
        [ rewrite <- St; apply step_linv; exact V
        | cbn; eapply put_same; exact Hp
        | cbn; destruct (b_holds p1); [auto|]; destruct (b_holds p || b_acquires p); auto
        | cbn; lia
        | exists (BGo t (fun l => l) :: acts); split; [constructor; [cbn; reflexivity|exact A1]|];
          split; [constructor; [exact I|exact A2]|];
          cbn [fold_left]; rewrite St; split; [rewrite A3; cbn; apply put_put|exact A4] ]).
      exists []. repeat split; auto.
      + cbn. rewrite put_id; auto.
      + cbn. destruct Ho as [Ho|Ho]; [exact Ho|]. destruct (v_own s V t Ho) as (q & Hq & Hh). rewrite Hp in Hq. injection Hq as <-. discriminate.
  Qed.

  Definition going (p : bpc) : bool := match p with BDone => false | _ => true end.
  Lemma finish_all n : forall s : bst, linv s -> b_owner s = None -> length (filter going (b_calls s)) <= n ->
    exists acts, Forall visits acts /\ Forall goes acts /\ over (fold_left b_step acts s).
  Proof.
    induction n as [|n IH]; intros s V Ho Hn.
    - exists []. repeat split; auto. intros p Hp. cbn in Hp. destruct (going p) eqn:E; [|destruct p; try discriminate; reflexivity].
      assert (Q : In p (filter going (b_calls s))) by (apply filter_In; auto). destruct (filter going (b_calls s)); [destruct Q|cbn in Hn; lia].
    - destruct (filter going (b_calls s)) as [|p l] eqn:E.
      + apply IH; auto. rewrite E. cbn. lia.
      + assert (Q : In p (filter going (b_calls s))) by (rewrite E; left; reflexivity). apply filter_In in Q as [Q1 Q2].
        apply In_nth_error in Q1 as [t Q1].
        destruct (solo _ s t p V Q1 (or_introl Ho) (le_n _)) as (acts & A1 & A2 & A3 & A4).
        destruct (IH (fold_left b_step acts s)) as (acts2 & B1 & B2 & B3).
        * apply run_linv; assumption.
        * exact A4.
        * rewrite A3. pose proof (filter_put going t BDone (b_calls s) p Q1) as F. rewrite Q2, E in F. cbn in F, Hn. lia.
        * exists (acts ++ acts2). rewrite !Forall_app, fold_left_app. auto.
  Qed.

  Lemma throughout_app P acts1 acts2 : forall s : bst, throughout A_dec lt P s (acts1 ++ acts2) ->
    throughout A_dec lt P s acts1 /\ throughout A_dec lt P (fold_left b_step acts1 s) acts2.
  Proof.
    induction acts1 as [|a acts1 IH]; intros s H; cbn [app fold_left] in *.
    - split; [|exact H]. cbn. destruct acts2; destruct H; auto.
    - cbn [throughout] in *. destruct H as [H1 H2]. destruct (IH _ H2). auto.
  Qed.
End FB3.
