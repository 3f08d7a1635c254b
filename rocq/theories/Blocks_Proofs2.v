(** Executions in which handlers do nothing of their own, and no list hangs on itself. *)
From Coq Require Import ZArith Bool List Arith Lia.
From Verif Require Import Blocks_Model Blocks_Spec Blocks_Proofs.
Import ListNotations.
Open Scope Z_scope.

Definition who (t : task) : nat := match t with Notify r _ => r_who r | Inc j => j end.

Section Quiet.
  Variable mapped : nat -> bool.
  Notation turn := (turn mapped).
  Notation go_on := (go_on mapped).
  Notation b_step := (b_step mapped).
  Notation b_run := (b_run mapped).

  Definition incs (j : nat) (l : list task) : nat :=
    length (filter (fun t => match t with Inc i => Nat.eqb i j | _ => false end) l).
  Lemma incs_app j l l' : incs j (l ++ l') = (incs j l + incs j l')%nat.
  Proof. unfold incs. now rewrite filter_app, app_length. Qed.
  Lemma incs_notify j m l : incs j (map (fun r => Notify r m) l) = 0%nat.
  Proof. induction l as [|r l IH]; [reflexivity|exact IH]. Qed.
  Lemma incs_zero j l : (forall t, In t l -> t <> Inc j) -> incs j l = 0%nat.
  Proof.
    induction l as [|t l IH]; intros H; [reflexivity|]. unfold incs. cbn [filter].
    destruct t as [r m|i]; [apply IH; intros u Hu; apply H; now right|].
    destruct (Nat.eqb_spec i j) as [->|E]; [exfalso; apply (H (Inc j)); [now left|reflexivity]|].
    apply IH. intros u Hu. apply H. now right.
  Qed.

  (** lists that are to count stand below what is pending *)
  Fixpoint ordered (rank : nat -> nat) (l : list task) : Prop :=
    match l with
    | [] => True
    | t :: l' => (forall i, In (Inc i) l' -> (rank i < rank (who t))%nat) /\ ordered rank l'
    end.
  Definition ranked (rank : nat -> nat) (s : blk) : Prop := forall r, In r (b_regs s) -> (rank (r_src r) < rank (r_who r))%nat.
  Lemma ranked_of rank s : wf s -> (forall j k, container s j = Some k -> (rank k < rank j)%nat) -> ranked rank s.
  Proof. intros H Hc r Hr. apply Hc. now apply container_in. Qed.

  Definition tells (s : blk) (j : nat) : Prop :=
    alternating (events j (b_out s)) /\
    (0 < b_level s j + Z.of_nat (incs j (b_stack s)) <-> exists l, events j (b_out s) = Begin :: l) /\
    (incs j (b_stack s) = 0%nat \/ incs j (b_stack s) = 1%nat /\ b_level s j = 0).

  Definition fine (rank : nat -> nat) (s : blk) : Prop :=
    wf s /\ ranked rank s /\ ordered rank (b_stack s) /\ forall j, mapped j = true -> tells s j.

  Lemma events_cons j i m out : events j ((i, m) :: out) = if Nat.eqb i j then m :: events j out else events j out.
  Proof. unfold events. cbn. now destruct (Nat.eqb i j). Qed.

  Lemma ordered_push rank s j m rest : (forall i, In (Inc i) rest -> (rank i <= rank j)%nat) -> ordered rank rest ->
    ranked rank s -> forall l, incl l (b_regs s) ->
    ordered rank (map (fun r => Notify r m) (filter (fun r => Nat.eqb (r_src r) j) l) ++ rest).
  Proof.
    intros Hi Ho Hr. induction l as [|r l IH]; intros Hl; [exact Ho|].
    assert (Hl' : incl l (b_regs s)) by (intros y Hy; apply Hl; now right). cbn [filter].
    destruct (Nat.eqb_spec (r_src r) j) as [E|E]; [|now apply IH]. cbn [map app ordered who]. split; [|now apply IH].
    intros i Hin. apply in_app_or in Hin as [Hin|Hin].
    - apply in_map_iff in Hin as (r' & E' & _). discriminate E'.
    - pose proof (Hr r (Hl r (or_introl eq_refl))) as Hlt. rewrite E in Hlt. pose proof (Hi i Hin). lia.
  Qed.

  Lemma tells_other s s' i : events i (b_out s') = events i (b_out s) -> b_level s' i = b_level s i ->
    incs i (b_stack s') = incs i (b_stack s) -> tells s i -> tells s' i.
  Proof. unfold tells. intros -> -> ->. easy. Qed.

  Lemma fine_turn rank s j m : fine rank s -> (forall i, In (Inc i) (b_stack s) -> (rank i < rank j)%nat) -> fine rank (turn j m s).
  Proof.
    intros (H & Hr & Ho & Ht) Hb.
    assert (Hz : incs j (b_stack s) = 0%nat).
    { apply incs_zero. intros t Hin ->. specialize (Hb j Hin). lia. }
    pose proof (turn_regs mapped s j m) as [Hregs _].
    split; [unfold wf; now rewrite Hregs|]. split; [unfold ranked; now rewrite Hregs|].
    unfold Blocks_Model.turn. destruct (mapped j) eqn:Ej.
    - specialize (Ht j Ej) as Hj. destruct Hj as (Ha & Hiff & _). rewrite Hz in Hiff. destruct m.
      + unfold begin_change. destruct (Z.eqb_spec (b_level s j) 0) as [E|E].
        * split.
          -- unfold emit. cbn [b_stack]. apply (ordered_push rank s j Begin); [|split; [exact Hb|exact Ho]|exact Hr|apply incl_refl].
             cbn. intros i [[= <-]|Hi]; [lia|]. specialize (Hb i Hi). lia.
          -- intros i Hi. destruct (Nat.eq_dec j i) as [<-|Hne].
             ++ unfold tells, emit. cbn [b_stack b_out b_level]. rewrite !incs_app, incs_notify, Hz, events_cons, Nat.eqb_refl.
                replace (incs j [Inc j]) with 1%nat by (unfold incs; cbn; now rewrite Nat.eqb_refl).
                assert (Hn : ~ exists l, events j (b_out s) = Begin :: l) by (rewrite <- Hiff; lia).
                split; [|split; [split; [intros _; eexists; reflexivity|lia]|right; split; [reflexivity|exact E]]].
                cbn. split; [|exact Ha]. destruct (events j (b_out s)) as [|[|] l]; try exact I. apply Hn. eexists; reflexivity.
             ++ apply (tells_other s); [| |unfold emit; cbn [b_stack]|now apply Ht].
                ** unfold emit. cbn [b_out]. rewrite events_cons. now apply Nat.eqb_neq in Hne as ->.
                ** reflexivity.
                ** rewrite !incs_app, incs_notify. unfold incs at 1. cbn. now apply Nat.eqb_neq in Hne as ->.
        * split; [exact Ho|]. intros i Hi. destruct (Nat.eq_dec j i) as [<-|Hne].
          -- unfold tells, put_level, set_level. cbn [b_stack b_out b_level]. rewrite Nat.eqb_refl, Hz. split; [exact Ha|].
             split; [|now left]. rewrite <- Hiff. split; lia.
          -- apply (tells_other s); try reflexivity; [|now apply Ht]. unfold put_level, set_level. cbn [b_level].
             destruct (Nat.eqb_spec i j); [congruence|reflexivity].
      + unfold end_change.
        assert (E0 : b_level (put_level j (b_level s j - 1) s) j = b_level s j - 1).
        { unfold put_level, set_level. cbn [b_level]. now rewrite Nat.eqb_refl. }
        rewrite E0. destruct (Z.eqb_spec (b_level s j - 1) 0) as [E|E].
        * split.
          -- unfold emit. cbn [b_stack]. apply (ordered_push rank s j End); [|exact Ho|exact Hr|apply incl_refl].
             cbn. intros i Hi. specialize (Hb i Hi). lia.
          -- intros i Hi. destruct (Nat.eq_dec j i) as [<-|Hne].
             ++ unfold tells, emit. cbn [b_stack b_out b_level]. rewrite E0, !incs_app, incs_notify. change (incs j []) with 0%nat.
                cbn [put_level b_stack b_out]. rewrite Hz, events_cons, Nat.eqb_refl.
                assert (Hy : exists l, events j (b_out s) = Begin :: l) by (rewrite <- Hiff; lia).
                split; [|split; [split; [cbn; lia|intros [l El]; discriminate El]|left; reflexivity]].
                destruct Hy as [l El]. rewrite El in *. split; [exact I|exact Ha].
             ++ apply (tells_other s); [| |unfold emit; cbn [b_stack]|now apply Ht].
                ** unfold emit. cbn [b_out put_level]. rewrite events_cons. now apply Nat.eqb_neq in Hne as ->.
                ** unfold emit, put_level, set_level. cbn [b_level]. destruct (Nat.eqb_spec i j); [congruence|reflexivity].
                ** rewrite !incs_app, incs_notify. reflexivity.
        * split; [exact Ho|]. intros i Hi. destruct (Nat.eq_dec j i) as [<-|Hne].
          -- unfold tells. rewrite E0. unfold put_level. cbn [b_stack b_out]. rewrite Hz. split; [exact Ha|].
             split; [|now left]. rewrite <- Hiff. split; lia.
          -- apply (tells_other s); try reflexivity; [|now apply Ht]. unfold put_level, set_level. cbn [b_level].
             destruct (Nat.eqb_spec i j); [congruence|reflexivity].
    - split.
      + unfold emit. cbn [b_stack app]. apply (ordered_push rank s j m); [|exact Ho|exact Hr|apply incl_refl].
        intros i Hi. specialize (Hb i Hi). lia.
      + intros i Hi. assert (Hne : j <> i) by congruence.
        apply (tells_other s); [| |unfold emit; cbn [b_stack app]|now apply Ht].
        * unfold emit. cbn [b_out]. rewrite events_cons. now apply Nat.eqb_neq in Hne as ->.
        * reflexivity.
        * rewrite !incs_app, incs_notify. reflexivity.
  Qed.

  Lemma fine_go_on rank s : fine rank s -> fine rank (go_on s).
  Proof.
    intros Hf. pose proof Hf as (H & Hr & Ho & Ht). unfold Blocks_Model.go_on. destruct (b_stack s) as [|t rest] eqn:Es; [exact Hf|].
    cbn [ordered] in Ho. destruct Ho as [Hb Ho].
    destruct t as [r m|j].
    - assert (Hf1 : fine rank (Blk (b_regs s) (b_next s) (b_level s) rest (b_out s))).
      { split; [exact H|]. split; [exact Hr|]. split; [exact Ho|]. intros i Hi. specialize (Ht i Hi).
        revert Ht. unfold tells. rewrite Es. cbn [b_out b_level b_stack]. unfold incs. cbn [filter]. tauto. }
      destruct (open r s); [|exact Hf1]. apply fine_turn; [exact Hf1|exact Hb].
    - cbn [who] in Hb. split; [exact H|]. split; [exact Hr|]. split; [exact Ho|]. intros i Hi. specialize (Ht i Hi).
      destruct (Nat.eq_dec j i) as [<-|Hne].
      + assert (Hz : incs j rest = 0%nat) by (apply incs_zero; intros t Hin ->; specialize (Hb j Hin); lia).
        revert Ht. unfold tells, put_level, set_level. rewrite Es. cbn [b_out b_level b_stack].
        assert (E1 : incs j (Inc j :: rest) = S (incs j rest)) by (unfold incs; cbn [filter]; rewrite Nat.eqb_refl; reflexivity).
        rewrite E1, Nat.eqb_refl, Hz. intros (Ha & Hiff & _). split; [exact Ha|]. split; [rewrite <- Hiff; lia|now left].
      + revert Ht. unfold tells, put_level, set_level. rewrite Es. cbn [b_out b_level b_stack].
        assert (E1 : incs i (Inc j :: rest) = incs i rest) by (unfold incs; cbn [filter]; apply Nat.eqb_neq in Hne as ->; reflexivity).
        rewrite E1. destruct (Nat.eqb_spec i j); [congruence|]. easy.
  Qed.

  Lemma fine_move rank rank' s j c : fine rank s -> quiet s -> (forall i k, container (move j c s) i = Some k -> (rank' k < rank' i)%nat) ->
    fine rank' (move j c s).
  Proof.
    intros (H & Hr & Ho & Ht) Hq Hc. pose proof (move_wf mapped s j c H) as Hw. split; [exact Hw|]. split; [now apply ranked_of|].
    assert (E1 : b_stack (move j c s) = []) by (destruct c; exact Hq). rewrite E1. split; [exact I|].
    intros i Hi. specialize (Ht i Hi). revert Ht. unfold tells. rewrite E1, Hq. now destruct c.
  Qed.

  Lemma fine_run h : forall s rank, fine rank s -> at_each mapped acts_quiet s h -> at_each mapped (moves_acyclic mapped) s h ->
    exists rank', fine rank' (b_run s h).
  Proof.
    induction h as [|a h IH]; intros s rank Hf Hq Hm; [now exists rank|].
    destruct Hq as [Hq Hqh], Hm as [Hm Hmh]. change (b_run s (a :: h)) with (b_run (b_step s a) h).
    destruct a as [j m|j c|]; cbn [Blocks_Model.b_step] in *.
    - apply (IH _ rank); [|exact Hqh|exact Hmh]. apply fine_turn; [exact Hf|]. cbn in Hq. rewrite Hq. intros i [].
    - destruct Hm as [rank' Hr']. apply (IH _ rank'); [|exact Hqh|exact Hmh]. eapply fine_move; eassumption.
    - apply (IH _ rank); [|exact Hqh|exact Hmh]. now apply fine_go_on.
  Qed.
  Lemma fine_new : fine (fun _ => 0%nat) b_new.
  Proof.
    split; [apply new_wf|]. split; [intros r []|]. split; [exact I|]. intros j _. unfold tells, events. cbn.
    split; [exact I|]. split; [|now left]. split; [lia|intros [l E]; discriminate E].
  Qed.
  Lemma acts_moves h : forall s, at_each mapped acts_quiet s h -> at_each mapped moves_quiet s h.
  Proof.
    induction h as [|a h IH]; intros s H; [exact I|]. destruct H as [H Hh]. split; [|now apply IH].
    destruct a; [exact I|exact H|exact I].
  Qed.

  Lemma told_events j out : told j out = fold_right (fun m z => sign m + z) 0 (events j out).
  Proof.
    induction out as [|[i m] out IH]; [reflexivity|]. rewrite events_cons. cbn [told]. rewrite IH.
    destruct (Nat.eqb i j); cbn [fold_right]; lia.
  Qed.
  Lemma alternating_sum l : alternating l -> fold_right (fun m z => sign m + z) 0 l = match l with Begin :: _ => 1 | _ => 0 end.
  Proof.
    induction l as [|m l IH]; [reflexivity|]. destruct m; intros [H Ha]; cbn [fold_right sign]; rewrite (IH Ha);
      destruct l as [|[|] l]; try easy.
  Qed.
  Lemma tells_told s j : quiet s -> tells s j -> told j (b_out s) = if 0 <? b_level s j then 1 else 0.
  Proof.
    intros Hq (Ha & Hiff & _). rewrite Hq in Hiff. cbn in Hiff. rewrite told_events, (alternating_sum _ Ha).
    destruct (Z.ltb_spec 0 (b_level s j)) as [E|E].
    - destruct (proj1 Hiff) as [l El]; [lia|]. now rewrite El.
    - destruct (events j (b_out s)) as [|[|] l]; try reflexivity.
      exfalso. assert (0 < b_level s j + 0); [apply Hiff; eexists; reflexivity|lia].
  Qed.

  Lemma told_run h j : at_each mapped acts_quiet b_new h -> at_each mapped (moves_acyclic mapped) b_new h ->
    quiet (b_run b_new h) ->
    let s := b_run b_new h in
    told j (b_out s) = announced mapped j (own j h + debt mapped j b_new h + told_by (container s j) (b_out s)).
  Proof.
    intros Hq Hm Hs s. destruct (fine_run h b_new _ fine_new Hq Hm) as (rank & _ & _ & _ & Ht). fold s in Ht.
    pose proof (count_run mapped h j (acts_moves h _ Hq) Hs) as Hc. fold s in Hc. unfold count in Hc. unfold announced.
    destruct (mapped j) eqn:Ej; [|exact Hc]. rewrite <- Hc. now apply tells_told, Ht.
  Qed.

  (** ** the calls in progress come to an end *)
  Definition upto (s : blk) (n : nat) : blk := Nat.iter n go_on s.
  Definition pops (s : blk) (l rest : list task) : Prop :=
    b_stack s = l ++ rest -> exists n, b_stack (upto s n) = rest /\ b_regs (upto s n) = b_regs s.

  Lemma upto_add s n k : upto s (n + k) = upto (upto s k) n.
  Proof.
    induction n as [|n IH]; [reflexivity|]. change (go_on (upto s (n + k)) = go_on (upto (upto s k) n)). now rewrite IH.
  Qed.

  Lemma pops_list regs (l rest : list task) :
    (forall t, In t l -> forall s rest, b_regs s = regs -> pops s [t] rest) -> forall s, b_regs s = regs -> pops s l rest.
  Proof.
    induction l as [|t l IH]; intros H s Hr Hs; [now exists 0%nat|].
    destruct (H t (or_introl eq_refl) s (l ++ rest) Hr Hs) as (n & Hn & Hg).
    assert (Hr' : b_regs (upto s n) = regs) by congruence.
    destruct (IH (fun u Hu => H u (or_intror Hu)) (upto s n) Hr' Hn) as (k & Hk & Hgk).
    exists (k + n)%nat. rewrite upto_add. split; [exact Hk|congruence].
  Qed.
  Lemma pops_inc s j rest : pops s [Inc j] rest.
  Proof. intros Hs. exists 1%nat. cbn [upto Nat.iter nat_rect]. unfold upto. cbn. unfold Blocks_Model.go_on. rewrite Hs. split; reflexivity. Qed.

  Lemma turn_pushes s j m : exists l, b_stack (turn j m s) = l ++ b_stack s /\
    forall t, In t l -> t = Inc j \/ exists r m', t = Notify r m' /\ In r (b_regs s) /\ r_src r = j.
  Proof.
    assert (He : forall s' m' after, b_regs s' = b_regs s -> b_stack s' = b_stack s -> (forall t, In t after -> t = Inc j) ->
      exists l, b_stack (emit j m' after s') = l ++ b_stack s /\
      forall t, In t l -> t = Inc j \/ exists r m', t = Notify r m' /\ In r (b_regs s) /\ r_src r = j).
    { intros s' m' after Hr Hs Ha. eexists. split.
      - unfold emit. cbn [b_stack]. rewrite Hs, app_assoc. reflexivity.
      - intros t Hin. apply in_app_or in Hin as [Hin|Hin]; [|left; now apply Ha]. right.
        apply in_map_iff in Hin as (r & <- & Hin). apply filter_In in Hin as [Hin E]. rewrite Hr in Hin.
        apply Nat.eqb_eq in E. exists r, m'. tauto. }
    assert (Hn : exists l, b_stack s = l ++ b_stack s /\
      forall t, In t l -> t = Inc j \/ exists r m', t = Notify r m' /\ In r (b_regs s) /\ r_src r = j).
    { exists []. split; [reflexivity|intros t []]. }
    unfold Blocks_Model.turn. destruct (mapped j).
    - destruct m.
      + unfold begin_change. destruct (b_level s j =? 0); [|exact Hn].
        apply He; try reflexivity. intros t [<-|[]]. reflexivity.
      + unfold end_change. destruct (b_level _ j =? 0); [|exact Hn]. apply He; try reflexivity. intros t [].
    - apply He; try reflexivity. intros t [].
  Qed.

  Lemma pops_notify rank regs M : (forall r, In r regs -> (rank (r_src r) < rank (r_who r) <= M)%nat) ->
    forall n r m s rest, b_regs s = regs -> (M < n + rank (r_who r))%nat -> pops s [Notify r m] rest.
  Proof.
    intros HM. induction n as [|n IH]; intros r m s rest Hr Hn Hs.
    - exists 1%nat. unfold upto. cbn. unfold Blocks_Model.go_on. rewrite Hs. cbn [app].
      destruct (open r s) eqn:Eo; [|split; reflexivity].
      apply open_in in Eo. rewrite Hr in Eo. specialize (HM r Eo). lia.
    - set (s1 := Blk (b_regs s) (b_next s) (b_level s) rest (b_out s)).
      assert (E : go_on s = if open r s then turn (r_who r) m s1 else s1).
      { unfold Blocks_Model.go_on. rewrite Hs. reflexivity. }
      destruct (open r s) eqn:Eo.
      + destruct (turn_pushes s1 (r_who r) m) as (l & Hl & Hin). rewrite <- E in Hl. change (b_stack s1) with rest in Hl.
        assert (Hg : b_regs (go_on s) = regs) by (rewrite go_on_regs; exact Hr).
        destruct (pops_list regs l rest) with (s := go_on s) as (k & Hk & Hgk); [|exact Hg|exact Hl|].
        * intros t Ht s' rest' Hr'. destruct (Hin t Ht) as [->|(r' & m' & -> & Hr1 & Hsrc)]; [apply pops_inc|].
          apply IH; [exact Hr'|]. cbn [s1 b_regs] in Hr1. rewrite Hr in Hr1. pose proof (HM r' Hr1). rewrite Hsrc in H.
          lia.
        * exists (k + 1)%nat. rewrite upto_add. split; [exact Hk|]. change (upto s 1) with (go_on s). rewrite Hgk. apply go_on_regs.
      + exists 1%nat. change (upto s 1) with (go_on s). rewrite E. split; reflexivity.
  Qed.

  Lemma bound (rank : nat -> nat) (l : list reg) : exists M, forall r, In r l -> (rank (r_who r) <= M)%nat.
  Proof.
    induction l as [|r l [M HM]]; [exists 0%nat; intros r []|]. exists (Nat.max M (rank (r_who r))).
    intros r' [->|Hr]; [lia|]. specialize (HM r' Hr). lia.
  Qed.
  Lemma run_repeat s n : b_run s (repeat GoOn n) = upto s n.
  Proof.
    revert s. induction n as [|n IH]; intros s; [reflexivity|]. change (b_run s (repeat GoOn (S n))) with (b_run (go_on s) (repeat GoOn n)).
    rewrite IH. replace (S n) with (n + 1)%nat by lia. now rewrite upto_add.
  Qed.
  Lemma ends s : wf s -> acyclic s -> exists n, quiet (b_run s (repeat GoOn n)).
  Proof.
    intros H [rank Hr]. pose proof (ranked_of rank s H Hr) as Hk. destruct (bound rank (b_regs s)) as [M HM].
    destruct (pops_list (b_regs s) (b_stack s) []) with (s := s) as (n & Hn & _); [|reflexivity|now rewrite app_nil_r|].
    - intros t _ s' rest Hs'. destruct t as [r m|j]; [|apply pops_inc].
      apply (pops_notify rank (b_regs s) M) with (n := S M); [|exact Hs'|lia].
      intros r' Hr'. split; [now apply Hk|now apply HM].
    - exists n. now rewrite run_repeat.
  Qed.
  Lemma run_wf h : forall s, wf s -> wf (b_run s h).
  Proof. induction h as [|a h IH]; intros s H; [exact H|]. apply IH. now apply step_wf. Qed.

  (** ** no debts *)
  Lemma no_debt h : forall s j, at_each mapped moves_closed s h -> debt mapped j s h = 0.
  Proof.
    induction h as [|a h IH]; intros s j H; [reflexivity|]. destruct H as [H Hh]. cbn [debt]. rewrite (IH _ j Hh).
    destruct a as [i m|i c|]; try lia. destruct H as [H1 H2]. destruct (Nat.eqb_spec i j) as [->|]; lia.
  Qed.
End Quiet.
