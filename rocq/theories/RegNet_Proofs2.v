(** What a listener is told. *)
From stdpp Require Import gmap sets list.
From Verif Require Import PyBase Registry_Model Registry_Spec Registry_Proofs RegNet_Model RegNet_Spec RegNet_Proofs.

Section Proofs2.
  Context {C T : Type} `{Countable C} `{Countable T}.
  Variable order : gset C -> list C.
  Notation note := (@rnote C T _ _).
  Notation netT := (net C T).
  Notation registryT := (@registry C T _ _ _ _).

  Definition wait (l : nat) (f : frame C T) : option note :=
    match f with FCall l' n => if decide (l' = l) then Some n else None | FLoop _ _ _ => None end.
  Lemma waits_frames l (s : netT) : waits l s = omap (wait l) (frames s).
  Proof. done. Qed.
  Lemma wait_calls l ears (n : note) : omap (wait l) (calls ears n) = (fun _ => n) <$> filter (fun x => x = l) ears.
  Proof.
    unfold calls. induction ears as [|x ears IH]; [done|]. rewrite filter_cons. cbn.
    destruct (decide (x = l)); cbn; [f_equal|]; exact IH.
  Qed.
  Lemma told_app l (s : netT) r e st rz h :
    told l (Net r e st (n_heard s ++ h) rz) = told l s ++ (snd <$> filter (fun p : nat * note => p.1 = l) h).
  Proof. unfold told. simpl. rewrite filter_app, fmap_app. done. Qed.

  Definition hears_once (l : nat) (s : netT) : Prop := filter (fun x => x = l) (n_ears s) = [l].

  Lemma hears_once_in l (s : netT) : hears_once l s -> l ∈ n_ears s.
  Proof.
    unfold hears_once. intros E. assert (I : l ∈ filter (fun x => x = l) (n_ears s)) by (rewrite E; constructor).
    apply elem_of_list_filter in I. tauto.
  Qed.
  Lemma hears_once_step l (s : netT) a :
    views_agree (n_reg s) -> proper a -> spares l a -> hears_once l s -> hears_once l (nstep order s a).
  Proof.
    intros V Pr Sp Ho. destruct (step_does order s a V Pr); unfold hears_once in *; simpl in *; try done.
    - rewrite filter_app, Ho. rewrite filter_cons_False by done. done.
    - rewrite list_filter_filter. erewrite list_filter_iff; [exact Ho|]. intros x. simpl. split; [tauto|]. intros ->. split; done.
  Qed.
  Lemma hears_once_fresh l (s : netT) : fresh l s -> hears_once l (nstep order s (AListen l)).
  Proof.
    intros (F & _ & _). unfold hears_once. simpl. rewrite filter_app, filter_cons_True by done.
    assert (E : filter (fun x => x = l) (n_ears s) = []).
    { apply elem_of_nil_inv. intros x I. apply elem_of_list_filter in I as [-> I]. done. }
    rewrite E. done.
  Qed.

  (** delivered and waiting is what was fired *)
  Definition paid (l n0 : nat) (s : netT) : Prop :=
    n0 <= length (r_notes (n_reg s)) /\ told l s ++ waits l s ≡ₚ drop n0 (r_notes (n_reg s)).

  Lemma paid_step l n0 (s : netT) a :
    views_agree (n_reg s) -> proper a -> hears_once l s -> paid l n0 s -> paid l n0 (nstep order s a).
  Proof.
    intros V Pr Ho (L & Pm).
    destruct (step_does order s a V Pr) as
      [a|k o e|k o r' n st P Q E Hn V' A1 A2 A3 F1 F2 L2|k t st P Q X F1 F2 L2|k l' n st P Q h F1 F2 L2 Hh
      |k t c todo n0' st P Q F1 F2 L2|k t n0' st P Q F1 F2 L2|k t todo n0' st P Q F1 F2 L2|l'|l'];
      unfold paid; simpl; try done.
    - rewrite Hn. split; [rewrite app_length; lia|]. rewrite drop_app_le by lia. rewrite <- Pm.
      rewrite !waits_frames, F1. unfold frames. simpl. rewrite F2, !omap_app, wait_calls, Ho. simpl.
      unfold told. simpl. rewrite <- app_assoc. f_equiv. solve_Permutation.
    - split; [done|]. rewrite <- Pm. rewrite !waits_frames, F1. unfold frames. simpl. rewrite F2, !omap_app. simpl. done.
    - split; [done|]. rewrite <- Pm. rewrite told_app. rewrite !waits_frames, F1. unfold frames. simpl.
      rewrite F2, !omap_app. simpl. destruct Hh as [[I ->]|[I ->]].
      + rewrite filter_cons. simpl. destruct (decide (l' = l)) as [->|D]; simpl; [|rewrite app_nil_r; done].
        rewrite <- app_assoc. f_equiv. solve_Permutation.
      + simpl. rewrite app_nil_r. destruct (decide (l' = l)) as [->|D]; [|done].
        exfalso. apply I. apply hears_once_in, Ho.
    - split; [rewrite app_length; lia|]. rewrite drop_app_le by lia. rewrite <- Pm.
      rewrite !waits_frames, F1. unfold frames. simpl. rewrite F2, !omap_app, wait_calls, Ho. simpl.
      unfold told. simpl. rewrite <- !app_assoc. f_equiv. simpl. solve_Permutation.
    - split; [done|]. rewrite <- Pm. rewrite !waits_frames, F1. unfold frames. simpl. rewrite F2, !omap_app. simpl. done.
    - split; [done|]. rewrite <- Pm. rewrite !waits_frames, F1. unfold frames. simpl. rewrite F2, !omap_app. simpl. done.
  Qed.

  Lemma paid_run l n0 acts : forall s : netT,
    views_agree (n_reg s) -> Forall proper acts -> Forall (spares l) acts -> hears_once l s -> paid l n0 s ->
    paid l n0 (nrun order acts s).
  Proof.
    induction acts as [|a acts IH]; intros s V F1 F2 Ho Pd; [done|].
    apply Forall_cons in F1 as [F1 F1']. apply Forall_cons in F2 as [F2 F2'].
    apply (IH (nstep order s a)); [apply views_step|..|apply hears_once_step|apply paid_step]; done.
  Qed.

  Lemma paid_fresh l (s : netT) : fresh l s -> paid l (length (r_notes (n_reg s))) (nstep order s (AListen l)).
  Proof.
    intros (F & E1 & E2). split; [done|]. simpl. rewrite drop_all.
    change (told l s ++ waits l s ≡ₚ []). rewrite E1, E2. done.
  Qed.

  (** counting *)
  Lemma tally_app c t (l1 l2 : list note) : (tally c t (l1 ++ l2) = tally c t l1 + tally c t l2)%Z.
  Proof. induction l1 as [|n l1 IH]; simpl; [done|]. rewrite IH. lia. Qed.
  Lemma tally_perm c t (l1 l2 : list note) : l1 ≡ₚ l2 -> tally c t l1 = tally c t l2.
  Proof. induction 1; simpl; try lia. Qed.

  Definition one (P : Prop) `{Decision P} : Z := if decide P then 1 else 0.
  Definition holds (r : registryT) c t : Z := if decide (c ∈ components_by_type r t) then 1 else 0.
  Definition straight (s : netT) : Prop := Forall (fun f => match f with FLoop _ _ _ => False | _ => True end) (frames s).

  Lemma straight_step (s : netT) a :
    views_agree (n_reg s) -> proper a -> loopless a -> straight s -> straight (nstep order s a).
  Proof.
    intros V Pr Lo St. unfold straight in *.
    destruct (step_does order s a V Pr) as
      [a|k o e|k o r' n st P Q E Hn V' A1 A2 A3 F1 F2 L2|k t st P Q X F1 F2 L2|k l' n st P Q h F1 F2 L2 Hh
      |k t c todo n0' st P Q F1 F2 L2|k t n0' st P Q F1 F2 L2|k t todo n0' st P Q F1 F2 L2|l'|l']; simpl in Lo; try done;
      unfold frames in *; simpl; rewrite F1 in St; rewrite ?F2, ?Forall_app, ?Forall_cons in *; try tauto.
    split_and!; try tauto. unfold calls. apply Forall_fmap, Forall_true. done.
  Qed.

  Definition counted c t n0 z0 (s : netT) : Prop :=
    n0 <= length (r_notes (n_reg s)) /\ tally c t (drop n0 (r_notes (n_reg s))) = (holds (n_reg s) c t - z0)%Z.

  Lemma counted_step c t n0 z0 (s : netT) a :
    views_agree (n_reg s) -> proper a -> loopless a -> straight s -> named_act c a ->
    counted c t n0 z0 s -> counted c t n0 z0 (nstep order s a).
  Proof.
    intros V Pr Lo St Na (L & E0). unfold straight in *.
    destruct (step_does order s a V Pr) as
      [a|k o e|k o r' n st P Q E Hn V' A1 A2 A3 F1 F2 L2|k t' st P Q X F1 F2 L2|k l' n st P Q h F1 F2 L2 Hh
      |k t' c' todo n0' st P Q F1 F2 L2|k t' n0' st P Q F1 F2 L2|k t' todo n0' st P Q F1 F2 L2|l'|l']; simpl in Lo; try done.
    - unfold counted. simpl. rewrite Hn. split; [rewrite app_length; lia|]. rewrite drop_app_le by lia.
      rewrite tally_app, E0. simpl. unfold holds. destruct (decide (about c t n)) as [Ab|Ab].
      + destruct (A1 c t Ab) as (_ & B1 & B2). unfold listed in B1, B2.
        destruct (is_reg n).
        * rewrite (decide_True _ _ (proj2 B1 eq_refl)). rewrite decide_False; [lia|]. intros Hx. apply B2 in Hx. discriminate.
        * rewrite (decide_True _ _ (proj2 B2 eq_refl)). rewrite decide_False; [lia|]. intros Hx. apply B1 in Hx. discriminate.
      + assert (Q1 : listed r' c t <-> listed (n_reg s) c t).
        { apply A2; [done|]. intros To. destruct o as [c' ts|c' [ts|]]; try done. }
        unfold listed in Q1. destruct (decide (c ∈ components_by_type r' t)), (decide (c ∈ components_by_type (n_reg s) t)); try tauto; lia.
    - rewrite F1 in St. rewrite Forall_app, Forall_cons in St. tauto.
  Qed.

  Lemma counted_run c t n0 z0 acts : forall s : netT,
    views_agree (n_reg s) -> Forall proper acts -> Forall loopless acts -> Forall (named_act c) acts -> straight s ->
    counted c t n0 z0 s -> counted c t n0 z0 (nrun order acts s).
  Proof.
    induction acts as [|a acts IH]; intros s V F1 F2 F3 St Ct; [done|].
    apply Forall_cons in F1 as [F1 F1']. apply Forall_cons in F2 as [F2 F2']. apply Forall_cons in F3 as [F3 F3'].
    apply (IH (nstep order s a)); [apply views_step|..|apply straight_step|apply counted_step]; done.
  Qed.

  (** what was told last *)
  Lemma latest_app c t (l1 l2 : list note) :
    latest c t (l1 ++ l2) = match latest c t l2 with Some b => Some b | None => latest c t l1 end.
  Proof.
    induction l1 as [|n l1 IH]; simpl; [destruct (latest c t l2); done|]. rewrite IH.
    destruct (latest c t l2); done.
  Qed.

  Definition kind (f : frame C T) : bool := match f with FCall _ n => is_reg n | FLoop _ _ _ => true end.
  Definition nocall l c t (s : netT) : Prop :=
    Forall (fun f => match f with FCall l' n => ~ (l' = l /\ about c t n) | _ => True end) (frames s).
  Definition known l c t (p0 : Prop) (s : netT) : Prop :=
    match latest c t (told l s) with Some b => listed (n_reg s) c t <-> b = true | None => listed (n_reg s) c t <-> p0 end.
  Definition sure l c t p0 (s : netT) : Prop :=
    Forall (fun f => pending l c t f -> (listed (n_reg s) c t <-> kind f = true)) (frames s) /\
    (nocall l c t s -> known l c t p0 s).

  Lemma calls_in l ears (n : note) : l ∈ ears -> FCall l n ∈ calls ears n.
  Proof. intros I. unfold calls. apply elem_of_list_fmap. exists l. done. Qed.
  Lemma calls_inv f ears (n : note) : f ∈ calls ears n -> exists l, f = FCall l n /\ l ∈ ears.
  Proof. unfold calls. intros I. apply elem_of_list_fmap in I as (l & -> & I). exists l. done. Qed.

  Lemma settled_nocall l c t (s : netT) : settled l c t s -> nocall l c t s.
  Proof. unfold settled, nocall, frames. intros F. eapply Forall_impl; [exact F|]. intros [l' n|t' todo m]; simpl; tauto. Qed.

  Lemma sure_step l c t p0 (s : netT) a :
    views_agree (n_reg s) -> proper a -> hears_once l s -> (forall X, order X ≡ₚ elements X) ->
    calm l c t s a -> sure l c t p0 s -> sure l c t p0 (nstep order s a).
  Proof.
    intros V Pr Ho Oo Ca (S1 & S2).
    destruct (step_does order s a V Pr) as
      [a|k o e|k o r' n st P Q E Hn V' A1 A2 A3 F1 F2 L2|k t' st P Q X F1 F2 L2|k l' n st P Q h F1 F2 L2 Hh
      |k t' c' todo n0' st P Q F1 F2 L2|k t' n0' st P Q F1 F2 L2|k t' todo n0' st P Q F1 F2 L2|l'|l']; try done.
    - (* a use of the registry *)
      assert (Fr : frames (Net r' (n_ears s) st (n_heard s) (n_raised s)) = P ++ calls (n_ears s) n ++ Q) by exact F2.
      destruct (decide (about c t n)) as [Ab|Ab].
      + destruct (A1 c t Ab) as (To & B1 & B2). destruct (Ca To) as [Se Na].
        unfold sure. rewrite Fr. split.
        * assert (SeF : Forall (fun f => ~ pending l c t f) (P ++ Q)) by (rewrite <- F1; exact Se).
          rewrite Forall_app in SeF. rewrite !Forall_app. simpl. split; [|split].
          -- eapply Forall_impl; [apply SeF|]. intros f Hf Hp. destruct (Hf Hp).
          -- apply Forall_forall. intros f I. apply calls_inv in I as (l' & -> & _). intros _. simpl. exact B1.
          -- eapply Forall_impl; [apply SeF|]. intros f Hf Hp. destruct (Hf Hp).
        * intros Nc. exfalso. unfold nocall in Nc. rewrite Fr in Nc. rewrite !Forall_app in Nc.
          destruct Nc as (_ & Nc & _). rewrite Forall_forall in Nc.
          apply (Nc (FCall l n)); [apply calls_in, hears_once_in, Ho|]. done.
      + assert (Q1 : listed r' c t <-> listed (n_reg s) c t).
        { apply A2; [done|]. intros To. apply Ca, To. }
        unfold sure. rewrite Fr. split.
        * rewrite F1 in S1. rewrite Forall_app in S1. rewrite !Forall_app. simpl. split; [|split].
          -- eapply Forall_impl; [apply S1|]. intros f Hf Hp. rewrite Q1. apply Hf, Hp.
          -- apply Forall_forall. intros f I. apply calls_inv in I as (l' & -> & _). simpl. tauto.
          -- eapply Forall_impl; [apply S1|]. intros f Hf Hp. rewrite Q1. apply Hf, Hp.
        * intros Nc. unfold nocall in Nc. rewrite Fr in Nc. rewrite !Forall_app in Nc.
          assert (K : known l c t p0 s).
          { apply S2. unfold nocall. rewrite F1, Forall_app. tauto. }
          unfold known in *. change (told l (Net r' (n_ears s) st (n_heard s) (n_raised s))) with (told l s). simpl.
          destruct (latest c t (told l s)); rewrite Q1; exact K.
    - (* a loop begins *)
      unfold sure. unfold frames at 1. simpl. rewrite F2. rewrite F1 in S1. rewrite Forall_app in S1. rewrite Forall_app, Forall_cons.
      split; [split_and!; try tauto|].
      + simpl. intros [-> I]. rewrite Oo in I. apply elem_of_elements in I. unfold X in I. split; done.
      + intros Nc. unfold nocall, frames in Nc. simpl in Nc. rewrite F2 in Nc. rewrite Forall_app, Forall_cons in Nc.
        apply S2. unfold nocall. rewrite F1, Forall_app. tauto.
    - (* a call *)
      unfold sure. unfold frames at 1. simpl. rewrite F2. rewrite F1 in S1. rewrite Forall_app, Forall_cons in S1. rewrite Forall_app.
      split; [tauto|]. intros Nc. unfold nocall, frames in Nc. simpl in Nc. rewrite F2 in Nc.
      unfold known. rewrite told_app. destruct (decide (l' = l /\ about c t n)) as [[-> Ab]|Ab].
      + destruct Hh as [[I ->]|[I ->]]; [|exfalso; apply I, hears_once_in, Ho].
        rewrite filter_cons_True by done. simpl. rewrite latest_app. simpl. rewrite decide_True by done.
        destruct S1 as (_ & S1 & _). apply S1. simpl. done.
      + assert (K : known l c t p0 s).
        { apply S2. unfold nocall. rewrite F1, Forall_app, Forall_cons. rewrite Forall_app in Nc. tauto. }
        destruct Hh as [[I ->]|[I ->]].
        * rewrite filter_cons. simpl. destruct (decide (l' = l)) as [->|D].
          -- simpl. rewrite latest_app. simpl. rewrite decide_False by tauto. exact K.
          -- simpl. rewrite app_nil_r. exact K.
        * simpl. rewrite app_nil_r. exact K.
    - (* the loop goes on *)
      set (n := NRegistered c' {[t']}) in *.
      set (r' := Reg (r_types (n_reg s)) (r_by_type (n_reg s)) (r_notes (n_reg s) ++ [n])).
      assert (Li : forall d u, listed r' d u <-> listed (n_reg s) d u) by done.
      unfold sure. unfold frames at 1. simpl. rewrite F2. rewrite F1 in S1. rewrite Forall_app, Forall_cons in S1.
      destruct S1 as (S1a & S1b & S1c). rewrite !Forall_app, Forall_singleton. split.
      + split; [exact S1a|]. split; [|exact S1c]. split.
        * apply Forall_forall. intros f I. apply calls_inv in I as (l' & -> & _). simpl. intros (-> & -> & Ht).
          apply elem_of_singleton in Ht as ->. split; [done|]. intros _. apply S1b; [|done]. simpl. split; [done|]. constructor.
        * intros [-> I]. apply S1b. simpl. split; [done|]. apply elem_of_cons. right. exact I.
      + intros Nc. unfold nocall, frames in Nc. simpl in Nc. rewrite F2 in Nc. rewrite !Forall_app, Forall_singleton in Nc.
        destruct Nc as (N1 & (N2 & _) & N3).
        assert (K : known l c t p0 s).
        { apply S2. unfold nocall. rewrite F1, Forall_app, Forall_cons. tauto. }
        exact K.
    - unfold sure. unfold frames at 1. simpl. rewrite F2. rewrite F1 in S1. rewrite Forall_app, Forall_cons in S1. rewrite Forall_app.
      split; [tauto|]. intros Nc. unfold nocall, frames in Nc. simpl in Nc. rewrite F2 in Nc. rewrite Forall_app in Nc.
      apply S2. unfold nocall. rewrite F1, Forall_app, Forall_cons. tauto.
    - unfold sure. unfold frames at 1. simpl. rewrite F2. rewrite F1 in S1. rewrite Forall_app, Forall_cons in S1. rewrite Forall_app.
      split; [tauto|]. intros Nc. unfold nocall, frames in Nc. simpl in Nc. rewrite F2 in Nc. rewrite Forall_app in Nc.
      apply S2. unfold nocall. rewrite F1, Forall_app, Forall_cons. tauto.
  Qed.

  Lemma sure_run l c t p0 acts : forall s : netT,
    views_agree (n_reg s) -> Forall proper acts -> Forall (spares l) acts -> hears_once l s -> (forall X, order X ≡ₚ elements X) ->
    throughout order (calm l c t) s acts -> sure l c t p0 s -> sure l c t p0 (nrun order acts s).
  Proof.
    induction acts as [|a acts IH]; intros s V F1 F2 Ho Oo Th Su; [done|].
    apply Forall_cons in F1 as [F1 F1']. apply Forall_cons in F2 as [F2 F2']. destruct Th as [Th Th'].
    apply (IH (nstep order s a)); [apply views_step|..|apply hears_once_step|done|done|apply sure_step]; done.
  Qed.

  (** after [fire_existing] *)
  Definition learnt l c t (s : netT) : Prop := latest c t (told l s) <> None \/ ~ settled l c t s.

  Lemma raised_grows (s : netT) a e : views_agree (n_reg s) -> proper a -> e ∈ n_raised s -> e ∈ n_raised (nstep order s a).
  Proof. intros V Pr I. destruct (step_does order s a V Pr); simpl; try done; apply elem_of_app; left; done. Qed.
  Lemma raised_run acts e : forall s : netT, views_agree (n_reg s) -> Forall proper acts -> e ∈ n_raised s -> e ∈ n_raised (nrun order acts s).
  Proof.
    induction acts as [|a acts IH]; intros s V F I; [done|]. apply Forall_cons in F as [F F'].
    apply (IH (nstep order s a)); [apply views_step|done|apply raised_grows]; done.
  Qed.

  Lemma pending_dec l c t (f : frame C T) : Decision (pending l c t f).
  Proof. destruct f; simpl; apply _. Defined.
  Lemma settled_frames l c t (s : netT) : ~ settled l c t s <-> exists f, f ∈ frames s /\ pending l c t f.
  Proof.
    unfold settled. split.
    - intros Hn. apply not_Forall_Exists in Hn; [|intros f; pose proof (pending_dec l c t f); apply _].
      apply Exists_exists in Hn as (f & I & Hf). exists f. split; [done|].
      destruct (pending_dec l c t f); [done|]. destruct (Hf n).
    - intros (f & I & Hf) Hall. rewrite Forall_forall in Hall. apply (Hall f I Hf).
  Qed.

  Lemma learnt_step l c t (s : netT) a :
    views_agree (n_reg s) -> proper a -> hears_once l s -> RuntimeError ∉ n_raised (nstep order s a) ->
    learnt l c t s -> learnt l c t (nstep order s a).
  Proof.
    intros V Pr Ho Nr Le.
    assert (Ear := hears_once_in l s Ho).
    destruct Le as [Le|Le].
    { left. destruct (step_does order s a V Pr); try done. unfold told in *. simpl. rewrite filter_app, fmap_app.
      rewrite latest_app. destruct (latest c t (snd <$> filter (fun p : nat * note => p.1 = l) h)); done. }
    apply settled_frames in Le as (f & I & Hf).
    destruct (step_does order s a V Pr) as
      [a|k o e|k o r' n st P Q E Hn V' A1 A2 A3 F1 F2 L2|k t' st P Q X F1 F2 L2|k l' n st P Q h F1 F2 L2 Hh
      |k t' c' todo n0' st P Q F1 F2 L2|k t' n0' st P Q F1 F2 L2|k t' todo n0' st P Q F1 F2 L2|l'|l'];
      try (right; apply settled_frames; exists f; done).
    - right. apply settled_frames. exists f. split; [|done]. unfold frames. simpl. rewrite F2. rewrite F1 in I. set_solver.
    - right. apply settled_frames. exists f. split; [|done]. unfold frames. simpl. rewrite F2. rewrite F1 in I. set_solver.
    - rewrite F1 in I. rewrite elem_of_app, elem_of_cons in I.
      destruct (decide (l' = l /\ about c t n)) as [[-> Ab]|Ab].
      + left. destruct Hh as [[_ ->]|[Ie _]]; [|done]. rewrite told_app, filter_cons_True by done. simpl.
        rewrite latest_app. simpl. rewrite decide_True by done. done.
      + right. apply settled_frames. exists f. split; [|done]. unfold frames. simpl. rewrite F2.
        destruct I as [I|[->|I]]; [set_solver| |set_solver]. simpl in Hf. destruct (Ab Hf).
    - right. apply settled_frames. unfold frames. simpl. rewrite F2. rewrite F1 in I. rewrite elem_of_app, elem_of_cons in I.
      destruct I as [I|[->|I]]; [exists f; split; [set_solver|done]| |exists f; split; [set_solver|done]].
      simpl in Hf. destruct Hf as [-> Hc]. apply elem_of_cons in Hc as [->|Hc].
      + exists (FCall l (NRegistered c' {[t]})). split.
        * apply elem_of_app. right. apply elem_of_app. left. apply elem_of_app. left. apply calls_in, Ear.
        * simpl. split; [done|]. split; [done|]. set_solver.
      + exists (FLoop t todo n0'). split; [set_solver|]. simpl. done.
    - right. apply settled_frames. exists f. split; [|done]. unfold frames. simpl. rewrite F2.
      rewrite F1 in I. rewrite elem_of_app, elem_of_cons in I.
      destruct I as [I|[->|I]]; [set_solver| |set_solver]. simpl in Hf. destruct Hf as [_ Hf]. apply elem_of_nil in Hf. done.
    - exfalso. apply Nr. simpl. set_solver.
  Qed.

  Lemma learnt_run l c t acts : forall s : netT,
    views_agree (n_reg s) -> Forall proper acts -> Forall (spares l) acts -> hears_once l s ->
    RuntimeError ∉ n_raised (nrun order acts s) -> learnt l c t s -> learnt l c t (nrun order acts s).
  Proof.
    induction acts as [|a acts IH]; intros s V F1 F2 Ho Nr Le; [done|].
    apply Forall_cons in F1 as [F1 F1']. apply Forall_cons in F2 as [F2 F2'].
    assert (V' := views_step order s a V F1).
    apply (IH (nstep order s a)); [done|done|done|apply hears_once_step; done|done|].
    apply learnt_step; try done. intros I. apply Nr. apply (raised_run acts _ (nstep order s a)); done.
  Qed.

  (** one thread, nothing nested *)
  Definition is_call (f : frame C T) : Prop := match f with FCall _ _ => True | FLoop _ _ _ => False end.
  Definition lined (fs : list (frame C T)) : Prop :=
    exists cs rest, fs = cs ++ rest /\ Forall is_call cs /\ (rest = [] \/ exists t todo m, rest = [FLoop t todo m]).
  Definition orderly l n0 (s : netT) : Prop :=
    exists fs, n_stacks s = [fs] /\ lined fs /\ n0 <= length (r_notes (n_reg s)) /\
      told l s ++ omap (wait l) fs = drop n0 (r_notes (n_reg s)).

  Lemma calls_call ears (n : note) : Forall is_call (calls ears n).
  Proof. unfold calls. apply Forall_fmap, Forall_true. done. Qed.
  Lemma orderly_step l n0 (s : netT) a :
    views_agree (n_reg s) -> proper a -> hears_once l s -> in_turn s a -> orderly l n0 s -> orderly l n0 (nstep order s a).
  Proof.
    intros V Pr Ho It (fs & Es & Li & L & E).
    assert (Ear := hears_once_in l s Ho).
    destruct a as [k o|k t|k|l'|l']; cbn [nstep]; [| | |exists fs; done|exists fs; done].
    - assert (Ef : fs = []) by (cbn in It; unfold quiet in It; rewrite Es in It; apply Forall_cons in It as [It _]; exact It).
      subst fs. destruct (n_stacks s !! k) as [fs|] eqn:Ek; [|exists []; done].
      rewrite Es in Ek. destruct k as [|k]; [|done]. simpl in Ek. injection Ek as <-.
      destruct (op_cases (n_reg s) o V Pr) as [(e & Ee)|(r' & n & Eo & V' & Hn & _)].
      + rewrite Ee. unfold new_notes, with_stack. simpl. rewrite drop_all. simpl. exists []. rewrite Es. done.
      + rewrite Eo. unfold new_notes, with_stack. simpl. rewrite Hn, drop_app. simpl. rewrite !app_nil_r, Es.
        exists (calls (n_ears s) n). split; [done|]. split.
        { exists (calls (n_ears s) n), []. rewrite app_nil_r. split; [done|]. split; [apply calls_call|left; done]. }
        simpl. rewrite Hn. split; [rewrite app_length; lia|]. rewrite drop_app_le by lia. rewrite <- E.
        rewrite wait_calls, Ho. cbn. rewrite app_nil_r. done.
    - assert (Ef : fs = []) by (cbn in It; unfold quiet in It; rewrite Es in It; apply Forall_cons in It as [It _]; exact It).
      subst fs. destruct (n_stacks s !! k) as [fs|] eqn:Ek; [|exists []; done].
      destruct (r_by_type (n_reg s) !! t); [|exists []; done].
      rewrite Es in Ek. destruct k as [|k]; [|done]. simpl in Ek. injection Ek as <-.
      unfold with_stack. rewrite Es. eexists. split; [done|]. split.
      { exists [], [FLoop t (order (components_by_type (n_reg s) t)) (size (components_by_type (n_reg s) t))].
        split; [done|]. split; [constructor|]. right. do 3 eexists. done. }
      split; [done|]. exact E.
    - unfold go. rewrite Es. destruct k as [|k]; [|exists fs; destruct fs as [|[]]; done]. simpl.
      destruct Li as (cs & rest & -> & Fc & Hr). destruct cs as [|f cs].
      + simpl in E |- *. destruct Hr as [->|(t & todo & m & ->)]; [exists []; split; [done|]; split; [exists [], []; split; [done|]; split; [constructor|left; done]|done]|].
        destruct (decide (size (components_by_type (n_reg s) t) = m)) as [D|D].
        * destruct todo as [|c todo].
          -- unfold with_stack. rewrite Es. exists []. split; [done|]. split; [exists [], []; split; [done|]; split; [constructor|left; done]|]. split; done.
          -- unfold with_stack. rewrite Es. simpl. eexists. split; [done|]. split.
             { exists (calls (n_ears s) (NRegistered c {[t]})), [FLoop t todo m]. split; [done|]. split; [apply calls_call|].
               right. do 3 eexists. done. }
             simpl. split; [rewrite app_length; lia|]. rewrite drop_app_le by lia. rewrite <- E.
             rewrite omap_app, wait_calls, Ho. cbn. rewrite app_nil_r. done.
        * unfold with_stack. rewrite Es. exists []. split; [done|]. split; [exists [], []; split; [done|]; split; [constructor|left; done]|]. split; done.
      + apply Forall_cons in Fc as [Fc Fc']. destruct f as [l' n|]; [|done]. simpl.
        assert (Li' : lined (cs ++ rest)) by (exists cs, rest; done).
        unfold with_stack. rewrite Es. simpl in E. destruct (decide (l' ∈ n_ears s)) as [I|I].
        * eexists. split; [done|]. split; [exact Li'|]. split; [done|].
          rewrite told_app. rewrite filter_cons. simpl. destruct (decide (l' = l)) as [->|D].
          -- simpl. rewrite <- app_assoc. exact E.
          -- simpl. rewrite app_nil_r. exact E.
        * eexists. split; [done|]. split; [exact Li'|]. split; [done|].
          destruct (decide (l' = l)) as [->|D]; [done|]. exact E.
  Qed.
  Lemma orderly_run l n0 acts : forall s : netT,
    views_agree (n_reg s) -> Forall proper acts -> Forall (spares l) acts -> hears_once l s ->
    throughout order in_turn s acts -> orderly l n0 s -> orderly l n0 (nrun order acts s).
  Proof.
    induction acts as [|a acts IH]; intros s V F1 F2 Ho Th Su; [done|].
    apply Forall_cons in F1 as [F1 F1']. apply Forall_cons in F2 as [F2 F2']. destruct Th as [Th Th'].
    apply (IH (nstep order s a)); [apply views_step|..|apply hears_once_step|done|apply orderly_step]; done.
  Qed.
End Proofs2.
