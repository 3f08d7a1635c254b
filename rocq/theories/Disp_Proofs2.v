(** Proofs for Disp_Props: the invariant, how far it is to the next start and to the end. *)
From Coq Require Import Arith Bool List Lia Setoid.
From Verif Require Import Disp_Model Disp_Spec Disp_Proofs.
Import ListNotations.

Definition ended (s : disp) : Prop := d_pc s = DEnd -> d_break s = true.
Lemma step_ended i s s' : stepped i s s' -> ended s -> ended s'.
Proof.
  intros H HS. unfold ended in *. all_steps H; expose; auto; try discriminate.
  - rewrite Hc. destruct (d_break s); [auto|discriminate].
  - rewrite Hc. destruct (d_break s); [auto|discriminate].
  - rewrite Hc. destruct (d_break s); [auto|discriminate].
Qed.
Definition sound (i : nat) (s : disp) : Prop := locks s /\ served s /\ broken s /\ closed_ok s /\ few s /\ spaced i s /\ waits s /\ ended s.
Lemma step_sound i s s' : stepped i s s' -> sound i s -> sound i s'.
Proof.
  intros H (H1 & H2 & H3 & H4 & H5 & H6 & H7 & H8). split; [eapply step_locks; eauto|]. split; [eapply step_served; eauto|]. split; [eapply step_broken; eauto|].
  split; [eapply step_closed; eauto|]. split; [eapply step_few; eauto|]. split; [eapply step_spaced; eauto|]. split; [eapply step_waits; eauto|eapply step_ended; eauto].
Qed.
Lemma sound_make i now : sound i (disp_make now).
Proof.
  split; [split; [split; discriminate|intros t; split; discriminate]|]. split; [discriminate|]. split; [discriminate|].
  split. { split; [discriminate|]. split; [intros t []|]. split; [split; [discriminate|intros [t []]]|]. split; [discriminate|intros t []]. }
  split; [split; [auto|discriminate]|]. split. { split; [apply Nat.le_0_l|]. split; [intros a [[]|[]]|]. split; [right; right; intros a [[]|[]]|exact I]. }
  split; [intros t; exact I|discriminate].
Qed.
Lemma run_sound i now l : sound i (run i l (disp_make now)).
Proof. apply run_inv; [apply step_sound|apply sound_make]. Qed.
(** at most one event per step *)
Lemma step_log i s s' : stepped i s s' -> d_log s' = d_log s \/ exists e, d_log s' = d_log s ++ [e].
Proof. intros H. all_steps H; expose; eauto. destruct f; auto. Qed.
Lemma snoc_split {X} (l : list X) x l1 e l2 :
  l ++ [x] = l1 ++ e :: l2 -> (exists l2', l = l1 ++ e :: l2') \/ (l1 = l /\ e = x).
Proof.
  revert l1. induction l as [|y l IH]; intros l1 H.
  - destruct l1 as [|z l1]; [injection H as <- <-; right; auto|]. injection H as _ H. destruct l1; discriminate.
  - destruct l1 as [|z l1].
    + injection H as -> H. left. exists l. auto.
    + injection H as -> H. destruct (IH _ H) as [(l2' & ->)|(-> & ->)]; [left; exists l2'; auto|right; auto].
Qed.
Lemma at_event i now (P : list event -> event -> Prop) :
  (forall s s' e, sound i s -> stepped i s s' -> d_log s' = d_log s ++ [e] -> P (d_log s) e) ->
  forall l l1 e l2, d_log (run i l (disp_make now)) = l1 ++ e :: l2 -> P l1 e.
Proof.
  intros H l. rewrite <- (rev_involutive l). induction (rev l) as [|a l' IH]; intros l1 e l2 El.
  - destruct l1; discriminate.
  - cbn [rev] in El. unfold run in El. rewrite fold_left_app in El. cbn [fold_left] in El. fold (run i (rev l') (disp_make now)) in El.
    assert (HF := run_sound i now (rev l')). assert (Hst := step_stepped i (run i (rev l') (disp_make now)) a).
    destruct (step_log _ _ _ Hst) as [E|(e0 & E)]; [rewrite E in El; exact (IH _ _ _ El)|].
    assert (El' := El). rewrite E in El'. destruct (snoc_split _ _ _ _ _ El') as [(l2' & E1)|(-> & ->)]; [exact (IH _ _ _ E1)|].
    exact (H _ _ _ HF Hst E).
Qed.
Lemma app_neq {X} (l : list X) e : l = l ++ [e] -> False.
Proof. intros H. apply (f_equal (@length X)) in H. rewrite app_length in H. simpl in H. lia. Qed.
(** which step logs what *)
Lemma start_event i s s' k : stepped i s s' -> d_log s' = d_log s ++ [Start k] -> d_pc s = DStart /\ k = d_now s.
Proof.
  intros H. all_steps H; expose; intros E; try (destruct f; expose); try (destruct (app_neq _ _ E)); try (apply app_inv_head in E; try discriminate).
  injection E as <-. auto.
Qed.
Lemma ret_event i s s' t : stepped i s s' -> d_log s' = d_log s ++ [WaitRet t] -> d_cl s t = WCheck /\ d_done s = true \/ d_cl s t = WWoken.
Proof.
  intros H. destruct H as [|u|u Hu|u Hu|n|m s' H]; [| | | | |apply go_moved in H; destruct H]; expose; intros E; try (destruct f; expose); try (destruct (app_neq _ _ E)); try (apply app_inv_head in E; try discriminate).
  - injection E as <-. auto.
  - injection E as <-. auto.
Qed.

(** ** the dispatcher thread is never stuck while a trigger is unserved *)
Lemma holder_goes i s u : locks s -> d_lock s = Some (Cl u) -> exists s', go i (GoClient u) s = Some s'.
Proof.
  intros [_ H] E. apply H in E. cbn [go]. unfold go_client. destruct (d_cl s u); try discriminate; eauto.
Qed.
Lemma not_stuck i s : sound i s -> pend (d_log s) = true -> d_break s = false -> ~ disp_stuck i s \/ exists u s', d_lock s = Some (Cl u) /\ go i (GoClient u) s = Some s'.
Proof.
  intros (HL & HS & _ & _ & _ & _ & _ & HE) Hp Hb. specialize (HS Hp). destruct HS as [HS|HS]; [congruence|].
  unfold disp_stuck. cbn [go]. unfold go_disp, go_timeout. destruct (d_pc s) eqn:E; try (left; intros [H1 H2]; discriminate).
  - destruct HS as [->|HS]; [left; intros [H1 H2]; discriminate|discriminate].
  - destruct (d_lock s) as [[|u]|] eqn:El; [|right; destruct (holder_goes i s u HL El) as [s' G]; eauto|left; intros [H1 H2]; discriminate].
    apply HL in El. rewrite E in El. discriminate.
  - specialize (HE E). congruence.
Qed.
(** ** how many steps to the next start *)
Definition rank (c : dpc) : nat :=
  match c with
  | DEnd => 0 | DStart => 1 | DTest2 => 2 | DAfter _ => 3 | DElapsed _ => 4 | DLoop _ => 5 | DClear2 _ | DTest1 => 6 | DSleep _ | DUnlock => 7
  | DClear => 8 | DLock => 9 | DWait => 10 | DLast => 11 | DOk => 12 | DRunning => 13
  end.
Definition disp_step (i : nat) (s : disp) (a : action) : nat :=
  match a with Go m => if of_disp m then match go i m s with Some _ => 1 | None => 0 end else 0 | _ => 0 end.
Lemma one_event f e l : count f (l ++ [e]) = count f l + (if f e then 1 else 0).
Proof. rewrite count_app. unfold count. simpl. destruct (f e); reflexivity. Qed.
Lemma step_rank i s a : d_break (step i s a) = false ->
  exists l', d_log (step i s a) = d_log s ++ l' /\ (count is_start l' = 0 -> rank (d_pc (step i s a)) + disp_step i s a <= rank (d_pc s) + 4 * count is_early l').
Proof.
  intros Hb. destruct a as [t|t|t|n|m]; cbn [step disp_step] in *.
  - eexists. split; [reflexivity|]. expose. simpl. lia.
  - exists []. rewrite app_nil_r. destruct (d_cl s t); (split; [reflexivity|]); expose; simpl; lia.
  - exists []. rewrite app_nil_r. destruct (d_cl s t); (split; [reflexivity|]); expose; simpl; lia.
  - exists []. rewrite app_nil_r. (split; [reflexivity|]); expose; simpl; lia.
  - destruct (go i m s) as [s'|] eqn:Eg; [|exists []; rewrite app_nil_r; split; [reflexivity|]; destruct (of_disp m); simpl; lia].
    destruct m as [| | |t]; cbn [go of_disp] in *.
    + unfold go_disp in Eg. destruct (d_pc s) eqn:E.
      * destruct (d_event s); [|discriminate]. injection Eg as <-. exists []. rewrite app_nil_r. split; [reflexivity|]. expose. simpl. lia.
      * destruct (d_lock s); [discriminate|]. injection Eg as <-. exists []. rewrite app_nil_r. split; [reflexivity|]. expose. simpl. lia.
      * injection Eg as <-. exists []. rewrite app_nil_r. split; [reflexivity|]. expose. simpl. lia.
      * injection Eg as <-. exists []. rewrite app_nil_r. split; [reflexivity|]. expose. simpl. lia.
      * injection Eg as <-. exists []. rewrite app_nil_r. split; [reflexivity|]. expose. rewrite Hb. simpl. lia.
      * injection Eg as <-. exists []. rewrite app_nil_r. split; [reflexivity|]. expose. rewrite Hb. simpl. lia.
      * destruct (d_now s - d_last s <? i); injection Eg as <-.
        -- eexists. split; [reflexivity|]. expose. simpl. lia.
        -- exists []. rewrite app_nil_r. split; [reflexivity|]. expose. simpl. lia.
      * destruct (d_event s); [|discriminate]. injection Eg as <-. exists []. rewrite app_nil_r. split; [reflexivity|]. expose. simpl. lia.
      * injection Eg as <-. exists []. rewrite app_nil_r. split; [reflexivity|]. expose. simpl. lia.
      * injection Eg as <-. exists []. rewrite app_nil_r. destruct f; (split; [reflexivity|]); expose; simpl; lia.
      * injection Eg as <-. exists []. rewrite app_nil_r. split; [reflexivity|]. expose. rewrite Hb. simpl. lia.
      * injection Eg as <-. eexists. split; [reflexivity|]. expose. simpl. discriminate.
      * injection Eg as <-. eexists. split; [reflexivity|]. expose. simpl. lia.
      * injection Eg as <-. eexists. split; [reflexivity|]. expose. simpl. lia.
      * injection Eg as <-. exists []. rewrite app_nil_r. split; [reflexivity|]. expose. simpl. lia.
      * discriminate.
    + unfold go_timeout in Eg. destruct (d_pc s) eqn:E; try discriminate. injection Eg as <-. exists []. rewrite app_nil_r. split; [reflexivity|]. expose. simpl. lia.
    + unfold go_raise in Eg. destruct (d_pc s) eqn:E; try discriminate. injection Eg as <-. eexists. split; [reflexivity|]. expose. simpl. lia.
    + unfold go_client in Eg. destruct (d_cl s t) eqn:E; try discriminate.
      * destruct (d_lock s); [discriminate|]. injection Eg as <-. exists []. rewrite app_nil_r. split; [reflexivity|]. expose. simpl. lia.
      * injection Eg as <-. eexists. split; [reflexivity|]. expose. simpl. lia.
      * injection Eg as <-. eexists. split; [reflexivity|]. expose. simpl. lia.
      * injection Eg as <-. exists []. rewrite app_nil_r. split; [reflexivity|]. expose. simpl. lia.
      * destruct (d_done s); injection Eg as <-; [eexists; split; [reflexivity|]; expose; simpl; lia|exists []; rewrite app_nil_r; split; [reflexivity|]; expose; simpl; lia].
      * injection Eg as <-. eexists. split; [reflexivity|]. expose. simpl. lia.
      * destruct (d_lock s); [discriminate|]. injection Eg as <-. exists []. rewrite app_nil_r. split; [reflexivity|]. expose. simpl. lia.
      * injection Eg as <-. expose. discriminate.
      * injection Eg as <-. exists []. rewrite app_nil_r. split; [reflexivity|]. expose. simpl. lia.
      * injection Eg as <-. exists []. rewrite app_nil_r. split; [reflexivity|]. expose. simpl. lia.
      * destruct (d_thread s); injection Eg as <-; [exists []; rewrite app_nil_r; split; [reflexivity|]; expose; simpl; lia|eexists; split; [reflexivity|]; expose; simpl; lia].
      * destruct (d_pc s) eqn:Ep; try discriminate. injection Eg as <-. exists []. rewrite app_nil_r. split; [reflexivity|]. expose. rewrite Ep. simpl. lia.
      * injection Eg as <-. eexists. split; [reflexivity|]. expose. simpl. lia.
Qed.
Lemma break_mono i s s' : stepped i s s' -> d_break s = true -> d_break s' = true.
Proof. intros H Hb. all_steps H; expose; auto. destruct f; exact Hb. Qed.
Lemma run_break i l : forall s, d_break s = true -> d_break (run i l s) = true.
Proof. induction l as [|a l IH]; intros s H; [exact H|]. cbn. apply IH. eapply break_mono; [apply step_stepped|exact H]. Qed.
Lemma run_rank i l : forall s, d_break (run i l s) = false ->
  exists l', d_log (run i l s) = d_log s ++ l' /\ (count is_start l' = 0 -> rank (d_pc (run i l s)) + disp_steps i l s <= rank (d_pc s) + 4 * count is_early l').
Proof.
  induction l as [|a l IH]; intros s Hb.
  - exists []. rewrite app_nil_r. split; [reflexivity|]. simpl. lia.
  - change (run i (a :: l) s) with (run i l (step i s a)) in *.
    assert (Hb1 : d_break (step i s a) = false). { destruct (d_break (step i s a)) eqn:E; [|reflexivity]. rewrite (run_break i l _ E) in Hb. discriminate. }
    destruct (step_rank i s a Hb1) as (l1 & E1 & R1). destruct (IH _ Hb) as (l2 & E2 & R2). exists (l1 ++ l2).
    split; [rewrite E2, E1, app_assoc; reflexivity|]. intros H0. rewrite count_app in H0. rewrite count_app. cbn [disp_steps]. fold (disp_step i s a).
    specialize (R1 ltac:(lia)). specialize (R2 ltac:(lia)). lia.
Qed.

(** ** once the break flag is set *)
Definition dw (c : dpc) : nat :=
  match c with
  | DEnd => 0 | DTest2 | DTest1 => 1 | DAfter _ | DUnlock => 2 | DLoop _ | DClear => 3 | DClear2 _ | DLock => 4 | DSleep _ | DWait => 5
  | DElapsed _ | DLast => 6 | DOk => 7 | DRunning => 8 | DStart => 9
  end.
Definition cw (c : cpc) : nat :=
  match c with
  | Idle => 0 | WWoken | XNone => 1 | WBlocked | XJoin => 2 | WCheck | XRead => 3 | WUnlock | XUnlock => 4 | WSet | XSet => 5 | WClear | XBreak => 6 | WLock | XLock => 7
  end.
Definition total (T : list nat) (s : disp) : nat := dw (d_pc s) + list_sum (map (fun u => cw (d_cl s u)) T).
Definition within (T : list nat) (s : disp) : Prop := forall u, ~ In u T -> d_cl s u = Idle.
Lemma sum_upd T f g t : NoDup T -> In t T -> (forall u : nat, u <> t -> g u = f u) -> list_sum (map g T) + f t = list_sum (map f T) + g t.
Proof.
  induction T as [|u T IH]; intros HN Hin Hg; [destruct Hin|]. inversion HN as [|? ? Hu HN']; subst. simpl. destruct (Nat.eq_dec u t) as [->|Hne].
  - assert (E : list_sum (map g T) = list_sum (map f T)); [|lia]. f_equal. apply map_ext_in. intros v Hv. apply Hg. intros ->. contradiction.
  - destruct Hin as [->|Hin]; [contradiction|]. specialize (IH HN' Hin Hg). rewrite (Hg u Hne). lia.
Qed.
Lemma sum_le T (f g : nat -> nat) : (forall u, g u <= f u) -> list_sum (map g T) <= list_sum (map f T).
Proof. intros H. induction T as [|u T IH]; simpl; [lia|]. specialize (H u). lia. Qed.
Lemma cl_total T s s' t c : NoDup T -> within T s -> d_cl s t <> Idle -> d_cl s' = upd (d_cl s) t c -> d_pc s' = d_pc s -> cw c < cw (d_cl s t) ->
  total T s' < total T s /\ within T s'.
Proof.
  intros HN HT Ht Ec Ep Hw. assert (Hin : In t T). { destruct (in_dec Nat.eq_dec t T) as [|Hn]; [assumption|]. destruct (Ht (HT t Hn)). }
  split.
  - unfold total. rewrite Ep. assert (H := sum_upd T (fun u => cw (d_cl s u)) (fun u => cw (d_cl s' u)) t HN Hin). cbv beta in H.
    specialize (H ltac:(intros u Hu; rewrite Ec, upd_other by exact Hu; reflexivity)). assert (Ect : d_cl s' t = c) by (rewrite Ec; apply upd_same). rewrite Ect in H. lia.
  - intros u Hu. rewrite Ec, upd_other; [exact (HT u Hu)|]. intros ->. contradiction.
Qed.
Lemma pc_total T s s' : within T s -> d_cl s' = d_cl s -> dw (d_pc s') < dw (d_pc s) -> total T s' < total T s /\ within T s'.
Proof. intros HT Ec Hw. unfold total, within. rewrite Ec. split; [lia|exact HT]. Qed.
Lemma go_total i T m s s' : NoDup T -> within T s -> d_break s = true -> go i m s = Some s' -> total T s' < total T s /\ within T s'.
Proof.
  intros HN HT Hb H. apply go_moved in H. destruct H.
  all: try (apply pc_total; [exact HT|reflexivity|]; expose; try rewrite H; simpl; lia).
  all: try (eapply (cl_total T s _ t); [exact HN|exact HT|rewrite H; discriminate|reflexivity|reflexivity|rewrite H; simpl; lia]).
  - apply pc_total; [exact HT|reflexivity|]. expose. rewrite H0, Hb, H. simpl. lia.
  - apply pc_total; [exact HT|reflexivity|]. expose. rewrite H0, Hb, H. simpl. lia.
  - destruct f; (apply pc_total; [exact HT|reflexivity|]; expose; rewrite H; simpl; lia).
  - apply pc_total; [exact HT|reflexivity|]. expose. rewrite H0, Hb, H. simpl. lia.
  - split.
    + unfold total. expose. rewrite H. assert (G : list_sum (map (fun u => cw (wake (d_cl s u))) T) <= list_sum (map (fun u => cw (d_cl s u)) T)) by (apply sum_le; intros u; destruct (d_cl s u); simpl; lia).
      simpl. lia.
    + intros u Hu. expose. rewrite (HT u Hu). reflexivity.
Qed.
Lemma finite i now l : exists T, NoDup T /\ within T (run i l (disp_make now)).
Proof.
  rewrite <- (rev_involutive l). induction (rev l) as [|a l' (T & HN & HT)]; [exists []; split; [constructor|intros u _; reflexivity]|].
  cbn [rev]. unfold run. rewrite fold_left_app. cbn [fold_left]. fold (run i (rev l') (disp_make now)). set (s := run i (rev l') (disp_make now)) in *. clearbody s.
  assert (Hadd : forall t s', (forall u, u <> t -> d_cl s u = Idle -> d_cl s' u = Idle) -> exists T, NoDup T /\ within T s').
  { intros t s' Hs. destruct (in_dec Nat.eq_dec t T) as [Hin|Hn].
    - exists T. split; [exact HN|]. intros u Hu. apply Hs; [intros ->; contradiction|exact (HT u Hu)].
    - exists (t :: T). split; [constructor; assumption|]. intros u Hu. apply Hs; [intros ->; apply Hu; left; reflexivity|apply HT; intros H; apply Hu; right; exact H]. }
  assert (H := step_stepped i s a). destruct H as [|t|t Ht|t Ht|n|m s' H]; [| | | | |apply go_moved in H; destruct H].
  all: try (apply (Hadd 0); expose; auto; fail).
  all: try (apply (Hadd t); expose; intros u Hu Hi; rewrite upd_other by exact Hu; exact Hi).
  - destruct f; (apply (Hadd 0); expose; auto).
  - apply (Hadd 0). expose. intros u _ ->. reflexivity.
Qed.
Definition back (t : nat) (s : disp) : Prop :=
  closing (d_cl s t) = true \/ d_cl s t = Idle /\ (In (CloseRet t) (d_log s) \/ In (CloseErr t) (d_log s) /\ exists u, In (CloseRet u) (d_log s)).
Lemma in_keep i s s' e : stepped i s s' -> In e (d_log s) -> In e (d_log s').
Proof. intros H Hin. destruct (step_log _ _ _ H) as [->|(x & ->)]; [exact Hin|]. apply in_or_app. auto. Qed.
Lemma go_back i m s s' t : sound i s -> go i m s = Some s' -> back t s -> back t s'.
Proof.
  intros HS H HB. assert (Hst := SMove i s m s' H). assert (Hk := fun e => in_keep i s s' e Hst). assert (H' := H). apply go_moved in H'.
  destruct HB as [Hc|[Hi Hl]].
  - assert (Hsame : d_cl s' t = d_cl s t -> back t s') by (intros E; left; rewrite E; exact Hc).
    destruct H'.
    all: try (apply Hsame; reflexivity).
    all: try (destruct (Nat.eq_dec t t0) as [<-|Hne]; [|apply Hsame; expose; apply upd_other; exact Hne]).
    all: try (rewrite H0 in Hc; discriminate).
    all: try (left; expose; rewrite upd_same; reflexivity).
    + destruct f; apply Hsame; reflexivity.
    + left. expose. destruct (d_cl s t); try discriminate; reflexivity.
    + right. split; [expose; apply upd_same|right]. split; [expose; apply in_snoc; auto|]. destruct HS as (_ & _ & _ & (_ & _ & H3 & _) & _).
      destruct (proj1 H3 H1) as [u Hu]. exists u. apply Hk. exact Hu.
    + right. split; [expose; apply upd_same|left]. expose. apply in_snoc. auto.
  - right. split; [|destruct Hl as [Hl|[Hl [u Hu]]]; [left|right; split; [|exists u]]; apply Hk; assumption].
    destruct H'; expose; try exact Hi; try (unfold upd; destruct (Nat.eqb_spec t t0) as [->|]; [congruence|exact Hi]).
    + destruct f; exact Hi.
    + rewrite Hi. reflexivity.
Qed.
Lemma all_stuck i s t : sound i s -> back t s -> (forall m, go i m s = None) ->
  d_cl s t = Idle /\ (In (CloseRet t) (d_log s) \/ In (CloseErr t) (d_log s) /\ exists u, In (CloseRet u) (d_log s)).
Proof.
  intros (HL & _ & HB & (_ & _ & _ & H4 & _) & _) [Hc|H] Hs; [|exact H]. exfalso. assert (Hbr := H4 t Hc).
  assert (Hnx : forall u, d_cl s u <> XSet). { intros u Hu. specialize (Hs (GoClient u)). cbn [go] in Hs. unfold go_client in Hs. rewrite Hu in Hs. discriminate. }
  assert (Hend : d_pc s = DEnd).
  { assert (G := Hs GoDisp). assert (G2 := Hs Timeout). cbn [go] in G, G2. unfold go_disp in G. unfold go_timeout in G2. destruct (d_pc s) eqn:E; try discriminate; [| |reflexivity].
    - destruct (d_event s) eqn:Ee; [discriminate|]. destruct (HB Hbr) as [G3|[G3|[u Hu]]]; [congruence|rewrite E in G3; discriminate|destruct (Hnx u Hu)].
    - destruct (d_lock s) as [[|u]|] eqn:El; [| |discriminate].
      + apply HL in El. rewrite E in El. discriminate.
      + destruct (holder_goes i s u HL El) as [s' G3]. rewrite (Hs (GoClient u)) in G3. discriminate. }
  specialize (Hs (GoClient t)). cbn [go] in Hs. unfold go_client in Hs. destruct (d_cl s t); try discriminate. rewrite Hend in Hs. discriminate.
Qed.
Lemma moves_sound i ms : forall s s', moves i ms s s' -> sound i s -> forall T t, NoDup T -> within T s -> back t s -> d_break s = true ->
  sound i s' /\ length ms + total T s' <= total T s /\ back t s'.
Proof.
  induction ms as [|m ms IH]; intros s s' H HS T t HN HT Hb Hbr.
  - simpl in H. subst s'. simpl. split; [exact HS|]. split; [lia|exact Hb].
  - simpl in H. destruct (go i m s) as [s1|] eqn:Eg; [|destruct H]. destruct (go_total i T m s s1 HN HT Hbr Eg) as [Hlt HT1].
    assert (Hst := SMove i s m s1 Eg). assert (HS1 := step_sound _ _ _ Hst HS).
    destruct (IH s1 s' H HS1 T t HN HT1 (go_back _ _ _ _ _ HS Eg Hb) (break_mono _ _ _ Hst Hbr)) as (G1 & G2 & G3). split; [exact G1|]. split; [simpl; lia|exact G3].
Qed.
Lemma close_comes_back i now l t : closing (d_cl (run i l (disp_make now)) t) = true ->
  exists N, forall ms s', moves i ms (run i l (disp_make now)) s' -> length ms <= N /\
    ((forall m, go i m s' = None) -> d_cl s' t = Idle /\ (In (CloseRet t) (d_log s') \/ In (CloseErr t) (d_log s') /\ exists u, In (CloseRet u) (d_log s'))).
Proof.
  intros Hc. destruct (finite i now l) as (T & HN & HT). exists (total T (run i l (disp_make now))). intros ms s' H.
  assert (HS := run_sound i now l). assert (Hbr : d_break (run i l (disp_make now)) = true) by (destruct HS as (_ & _ & _ & (_ & _ & _ & H4 & _) & _); exact (H4 t Hc)).
  destruct (moves_sound i ms _ _ H HS T t HN HT (or_introl Hc) Hbr) as (G1 & G2 & G3). split; [lia|]. intros Hs. exact (all_stuck i s' t G1 G3 Hs).
Qed.

(** ** who waits for nothing *)
Definition is_ok (e : event) : bool := match e with EndOk _ => true | _ => false end.
Lemma blocked_step i s s' t : stepped i s s' -> d_cl s t = WBlocked -> d_pc s <> DOk -> count is_ok (d_log s') = count is_ok (d_log s) -> d_cl s' t = WBlocked /\ d_pc s' <> DOk.
Proof.
  intros H Hw Hp Hc. destruct H as [|u|u Hu|u Hu|n|m s' H]; [| | | | |apply go_moved in H; destruct H]; expose;
    try (split; [exact Hw|solve [exact Hp|discriminate|congruence]]);
    try (split; [unfold upd; destruct (Nat.eqb_spec t u) as [->|]; [congruence|exact Hw]|exact Hp]);
    try (split; [unfold upd; destruct (Nat.eqb_spec t t0) as [->|]; [congruence|exact Hw]|exact Hp]).
  - split; [exact Hw|]. rewrite H0. destruct (d_break s); discriminate.
  - split; [exact Hw|]. rewrite H0. destruct (d_break s); discriminate.
  - destruct f; (split; [exact Hw|discriminate]).
  - split; [exact Hw|]. rewrite H0. destruct (d_break s); discriminate.
  - rewrite one_event in Hc. simpl in Hc. lia.
  - contradiction.
Qed.
Lemma count_mono i s s' f : stepped i s s' -> count f (d_log s) <= count f (d_log s').
Proof. intros H. destruct (step_log _ _ _ H) as [->|(e & ->)]; [lia|]. rewrite one_event. lia. Qed.
Lemma run_count i f l : forall s, count f (d_log s) <= count f (d_log (run i l s)).
Proof. induction l as [|a l IH]; intros s; [cbn; lia|]. cbn. eapply Nat.le_trans; [eapply count_mono; apply step_stepped|apply IH]. Qed.
Lemma blocked_run i t l : forall s, d_cl s t = WBlocked -> d_pc s <> DOk -> count is_ok (d_log (run i l s)) = count is_ok (d_log s) -> d_cl (run i l s) t = WBlocked.
Proof.
  induction l as [|a l IH]; intros s Hw Hp Hc; [exact Hw|]. change (run i (a :: l) s) with (run i l (step i s a)) in *.
  assert (Hst := step_stepped i s a). assert (H1 := count_mono i s _ is_ok Hst). assert (H2 := run_count i is_ok l (step i s a)).
  destruct (blocked_step i s _ t Hst Hw Hp ltac:(lia)) as [G1 G2]. apply IH; [exact G1|exact G2|lia].
Qed.
Lemma end_step i s s' t : stepped i s s' -> d_cl s t = WBlocked -> d_pc s = DEnd -> d_cl s' t = WBlocked /\ d_pc s' = DEnd.
Proof.
  intros H Hw Hp. destruct H as [|u|u Hu|u Hu|n|m s' H]; [| | | | |apply go_moved in H; destruct H]; expose;
    try congruence; try (split; [exact Hw|exact Hp]);
    try (split; [unfold upd; destruct (Nat.eqb_spec t u) as [->|]; [congruence|exact Hw]|exact Hp]);
    try (split; [unfold upd; destruct (Nat.eqb_spec t t0) as [->|]; [congruence|exact Hw]|exact Hp]).
Qed.
Lemma end_run i t l : forall s, d_cl s t = WBlocked -> d_pc s = DEnd -> d_cl (run i l s) t = WBlocked.
Proof.
  induction l as [|a l IH]; intros s Hw Hp; [exact Hw|]. unfold run. cbn [fold_left]. fold (run i l (step i s a)).
  destruct (end_step i s _ t (step_stepped i s a) Hw Hp) as [G1 G2]. apply IH; assumption.
Qed.
