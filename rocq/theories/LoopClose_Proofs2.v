From Coq Require Import Arith Bool List Lia.
From Verif Require Import PyBase LoopClose_Model LoopClose_Spec LoopClose_Proofs.
Import ListNotations.

(** ** tasks stay, and so do what has ended and what is watched *)
Definition keeps (s s' : loop) : Prop :=
  (forall t k, nth_error (tasks s) t = Some k -> exists k', nth_error (tasks s') t = Some k' /\ watched k' = watched k /\ (rest k = None -> rest k' = None)) /\
  (forall t k', nth_error (tasks s') t = Some k' -> watched k' = true -> exists k, nth_error (tasks s) t = Some k /\ watched k = true).
Lemma keeps_refl s : keeps s s.
Proof. split; [intros t k H; exists k; auto|intros t k H W; exists k; auto]. Qed.
Lemma keeps_trans s1 s2 s3 : keeps s1 s2 -> keeps s2 s3 -> keeps s1 s3.
Proof.
  intros [A1 B1] [A2 B2]. split.
  - intros t k H. destruct (A1 t k H) as (k2 & H2 & W2 & R2). destruct (A2 t k2 H2) as (k3 & H3 & W3 & R3). exists k3. intuition congruence.
  - intros t k H W. destruct (B2 t k H W) as (k2 & H2 & W2). exact (B1 t k2 H2 W2).
Qed.
Lemma keeps_same s s' : tasks s' = tasks s -> keeps s s'.
Proof. intros E. split; intros t k; rewrite E; [intros H; exists k; auto|intros H W; exists k; auto]. Qed.
Lemma keeps_upd s s' t p sl w x creates : nth_error (tasks s) t = Some (Task (Some p) sl w) -> watched x = w ->
  tasks s' = upd t x (tasks s) ++ map (fun p => Task (Some p) false false) creates -> keeps s s'.
Proof.
  intros E W Et. split; intros u k; rewrite Et, (step_tasks _ _ _ _ _ _ E).
  - intros H. destruct (Nat.eqb_spec u t) as [->|N].
    + exists x. rewrite E in H. injection H as <-. simpl. split; [reflexivity|]. split; [exact W|discriminate].
    + destruct (Nat.ltb_spec u (length (tasks s))) as [L|L]; [exists k; auto|]. apply nth_error_None in L. congruence.
  - destruct (Nat.eqb_spec u t) as [->|N]; [intros [= <-] Wk; exists (Task (Some p) sl w); split; [exact E|simpl; congruence]|].
    destruct (Nat.ltb_spec u (length (tasks s))) as [L|L]; [intros H Wk; exists k; auto|].
    intros H Wk. exfalso. apply nth_error_In in H. apply in_map_iff in H. destruct H as (q & <- & _). discriminate.
Qed.
Lemma exec_keeps s h : keeps s (exec s h).
Proof.
  destruct h as [t| |]; simpl; [|apply keeps_same; reflexivity|apply keeps_same; reflexivity].
  destruct (nth_error (tasks s) t) as [[[[creates after]|] sl w]|] eqn:E; try apply keeps_refl.
  destruct after as [|p|p]; (eapply keeps_upd; [exact E| |reflexivity]); reflexivity.
Qed.
Lemma wake_keeps s t : keeps s (wake s t).
Proof.
  unfold wake. destruct (nth_error (tasks s) t) as [[[p|] [|] w]|] eqn:E; try apply keeps_refl.
  apply (keeps_upd s _ t p true w (Task (Some p) false w) []); auto. simpl. rewrite app_nil_r. reflexivity.
Qed.
Lemma execs_keeps hs s : keeps s (fold_left exec hs s).
Proof. revert s. induction hs as [|h hs IH]; intros s; [apply keeps_refl|]. simpl. eapply keeps_trans; [apply exec_keeps|apply IH]. Qed.
Lemma wakes_keeps l s : keeps s (fold_left wake l s).
Proof. revert s. induction l as [|h hs IH]; intros s; [apply keeps_refl|]. simpl. eapply keeps_trans; [apply wake_keeps|apply IH]. Qed.
Lemma round_keeps come s : keeps s (round come s).
Proof.
  unfold round. eapply keeps_trans; [apply (wakes_keeps come)|]. eapply keeps_trans; [|apply execs_keeps]. apply keeps_same. reflexivity.
Qed.
Lemma rounds_keeps env n s : keeps s (rounds env n s).
Proof. induction n as [|n IH]; [apply keeps_refl|]. simpl. eapply keeps_trans; [exact IH|apply round_keeps]. Qed.

(** ** how a round counts down *)
Lemma exec_open h hs s : inv (h :: hs) s ->
  cnt is_gather (ready (exec s h)) + cnt open_ (tasks (exec s h)) = cnt is_gather (ready s) + cnt open_ (tasks s).
Proof.
  intros I. destruct h as [t| |].
  - assert (A : awake (nth_error (tasks s) t) <> 0).
    { rewrite <- (i_step _ _ I). cbn [app]. rewrite cnt_cons. simpl. rewrite Nat.eqb_refl. discriminate. }
    simpl. destruct (nth_error (tasks s) t) as [[[[creates after]|] sl w]|] eqn:E; simpl in A; try contradiction.
    assert (C := fun x => cnt_upd open_ (tasks s) t _ x E). unfold open_ at 2 in C. simpl in C.
    destruct after as [|p|p]; cbn [ready tasks].
    + specialize (C (Task None false w)). unfold open_ at 3 in C. simpl in C. rewrite cnt_app, open_new.
      destruct w; rewrite ?cnt_app, steps_gather; simpl in C; [unfold cnt at 2; simpl|]; lia.
    + specialize (C (Task (Some p) false w)). unfold open_ at 3 in C. simpl in C. rewrite !cnt_app, open_new, steps_gather. unfold cnt at 2. simpl.
      destruct w; simpl in C; lia.
    + specialize (C (Task (Some p) true w)). unfold open_ at 3 in C. simpl in C. rewrite !cnt_app, open_new, steps_gather.
      destruct w; simpl in C; lia.
  - simpl. destruct (missing s =? 1); [rewrite cnt_app; unfold cnt at 2; simpl; lia|lia].
  - reflexivity.
Qed.
Lemma execs_open hs s : inv hs s ->
  cnt is_gather (ready (fold_left exec hs s)) + cnt open_ (tasks (fold_left exec hs s)) = cnt is_gather (ready s) + cnt open_ (tasks s).
Proof.
  revert s. induction hs as [|h hs IH]; intros s I; [reflexivity|]. simpl. rewrite IH by (apply exec_inv; exact I). apply (exec_open h hs). exact I.
Qed.
Lemma wake_open s t : cnt open_ (tasks (wake s t)) = cnt open_ (tasks s) /\ missing (wake s t) = missing s /\ stopping (wake s t) = stopping s.
Proof.
  unfold wake. destruct (nth_error (tasks s) t) as [[[p|] [|] w]|] eqn:E; auto. simpl. split; auto.
  assert (C := cnt_upd open_ (tasks s) t _ (Task (Some p) false w) E). unfold open_ at 2 4 in C. simpl in C. destruct w; simpl in C; lia.
Qed.
Lemma wakes_open l s : cnt open_ (tasks (fold_left wake l s)) = cnt open_ (tasks s) /\ missing (fold_left wake l s) = missing s /\ stopping (fold_left wake l s) = stopping s.
Proof.
  revert s. induction l as [|t l IH]; intros s; [auto|]. simpl. destruct (IH (wake s t)) as (A & B & C). destruct (wake_open s t) as (A' & B' & C').
  rewrite A, B, C. auto.
Qed.
(** after a round gather waits for as many tasks as had not ended before it *)
Lemma round_missing come s : inv [] s -> missing (round come s) = cnt open_ (tasks s).
Proof.
  intros I. rewrite (i_miss _ _ (round_inv come s I)). simpl. unfold round.
  assert (J := emptied_inv _ (wakes_inv come s I)). fold (emptied (fold_left wake come s)). rewrite (execs_open _ _ J). simpl.
  apply (wakes_open come s).
Qed.
Lemma execs_stopping hs s : stopping (fold_left exec hs s) = stopping s || existsb is_stop hs.
Proof.
  revert s. induction hs as [|h hs IH]; intros s; simpl; [rewrite orb_false_r; reflexivity|]. rewrite IH. rewrite orb_assoc. f_equal.
  destruct h as [t| |]; simpl; rewrite ?orb_false_r, ?orb_true_r; try reflexivity.
  destruct (nth_error (tasks s) t) as [[[[creates [|p|p]]|] sl w]|]; reflexivity.
Qed.
Lemma existsb_cnt {A} (f : A -> bool) l : existsb f l = negb (cnt f l =? 0).
Proof. induction l as [|x l IH]; [reflexivity|]. simpl. rewrite cnt_cons, IH. destruct (f x); reflexivity. Qed.
Lemma round_stopping come s : inv [] s -> stopping (round come s) = (missing s =? 0).
Proof.
  intros I. unfold round. rewrite execs_stopping, existsb_cnt. simpl. assert (J := wakes_inv come s I). destruct (wakes_open come s) as (_ & M & P).
  assert (Q := i_stop _ _ J). simpl in Q. rewrite M in Q. destruct (stopping (fold_left wake come s)); destruct (missing s =? 0); simpl;
    destruct (cnt is_stop (ready (fold_left wake come s))); simpl; auto; lia.
Qed.

Lemma rounds_stopping env n s : inv [] s -> stopping (rounds env (S (S n)) s) = (cnt open_ (tasks (rounds env n s)) =? 0).
Proof.
  intros I. simpl. rewrite round_stopping by (apply round_inv; apply rounds_inv; exact I). rewrite round_missing by (apply rounds_inv; exact I). reflexivity.
Qed.
Lemma first_stopping env s : inv [] s -> stopping (rounds env 1 s) = (missing s =? 0).
Proof. intros I. simpl. apply round_stopping. exact I. Qed.

(** ** the tasks that gather waits for *)
Lemma gather_task s t k : nth_error (tasks (gather s)) t = Some k <->
  exists k', nth_error (tasks s) t = Some k' /\ k = Task (rest k') (asleep k') (unfinished k').
Proof.
  unfold gather. simpl. rewrite nth_error_map. destruct (nth_error (tasks s) t) as [k'|]; simpl.
  - split; [intros [= <-]; exists k'; auto|intros (k2 & [= <-] & ->); reflexivity].
  - split; [discriminate|intros (k2 & H & _); discriminate].
Qed.
Lemma open_zero s : cnt open_ (tasks s) = 0 <-> forall t k, nth_error (tasks s) t = Some k -> watched k = true -> rest k = None.
Proof.
  split.
  - intros H t k E W. assert (Z := cnt_zero open_ _ H k (nth_error_In _ _ E)). unfold open_, unfinished in Z. rewrite W in Z.
    destruct (rest k); [discriminate|reflexivity].
  - intros H. apply cnt_none. intros k Hk. apply In_nth_error in Hk. destruct Hk as [t E]. unfold open_, unfinished.
    destruct (watched k) eqn:W; [rewrite (H t k E W); reflexivity|apply andb_false_r].
Qed.
Lemma ended_open s s' : keeps (gather s) s' -> (all_ended s s' <-> cnt open_ (tasks s') = 0).
Proof.
  intros [K1 K2]. rewrite open_zero. split.
  - intros H t k E W. destruct (K2 t k E W) as (k0 & E0 & W0). apply gather_task in E0. destruct E0 as (k1 & E1 & ->). simpl in W0.
    unfold unfinished in W0. destruct (rest k1) as [p|] eqn:R; [|discriminate].
    destruct (H t) as (k2 & E2 & R2); [exists k1, p; auto|]. congruence.
  - intros H t (k & p & E & R). destruct (K1 t (Task (rest k) (asleep k) (unfinished k))) as (k' & E' & W' & _).
    + apply gather_task. exists k. auto.
    + exists k'. split; [exact E'|]. apply (H t k' E'). rewrite W'. simpl. unfold unfinished. rewrite R. reflexivity.
Qed.

(** ** every step makes the rest shorter *)
Fixpoint psize (p : prog) : nat :=
  match p with Act creates after => S (list_sum (map psize creates) + match after with Ends => 0 | Soon q | Waits q => psize q end) end.
Definition tsize (k : task) : nat := match rest k with Some p => psize p | None => 0 end.
Definition total (s : loop) : nat := list_sum (map tsize (tasks s)).
Lemma sum_upd l t k x : nth_error l t = Some k -> list_sum (map tsize (upd t x l)) + tsize k = list_sum (map tsize l) + tsize x.
Proof.
  revert t. induction l as [|y l IH]; intros [|t] E; try discriminate; simpl in E |- *.
  - injection E as ->. lia.
  - specialize (IH t E). lia.
Qed.
Lemma sum_new creates : list_sum (map tsize (map (fun p => Task (Some p) false false) creates)) = list_sum (map psize creates).
Proof. rewrite map_map. reflexivity. Qed.
Lemma exec_total h hs s : inv (h :: hs) s ->
  match h with HStep _ => total (exec s h) < total s | _ => tasks (exec s h) = tasks s end.
Proof.
  intros I. destruct h as [t| |]; [|reflexivity|reflexivity].
  assert (A : awake (nth_error (tasks s) t) <> 0).
  { rewrite <- (i_step _ _ I). cbn [app]. rewrite cnt_cons. simpl. rewrite Nat.eqb_refl. discriminate. }
  simpl. destruct (nth_error (tasks s) t) as [[[[creates after]|] sl w]|] eqn:E; simpl in A; try contradiction.
  assert (C := fun x => sum_upd (tasks s) t _ x E). unfold tsize at 2 in C. simpl in C.
  destruct after as [|p|p]; unfold total; cbn [tasks]; rewrite map_app, list_sum_app, sum_new.
  - specialize (C (Task None false w)). unfold tsize at 3 in C. simpl in C. lia.
  - specialize (C (Task (Some p) false w)). unfold tsize at 3 in C. simpl in C. lia.
  - specialize (C (Task (Some p) true w)). unfold tsize at 3 in C. simpl in C. lia.
Qed.
Lemma execs_total hs s : inv hs s -> total (fold_left exec hs s) < total s \/
  (tasks (fold_left exec hs s) = tasks s /\ forall t, ~ In (HStep t) hs).
Proof.
  revert s. induction hs as [|h hs IH]; intros s I; [right; auto|]. simpl. assert (T := exec_total h hs s I). destruct (IH (exec s h) (exec_inv h hs s I)) as [L|[L N]].
  - left. destruct h; [lia| |]; unfold total in *; rewrite T in L; exact L.
  - destruct h as [t| |].
    + left. unfold total in *. rewrite L. exact T.
    + right. split; [congruence|]. intros t [H|H]; [discriminate|exact (N t H)].
    + right. split; [congruence|]. intros t [H|H]; [discriminate|exact (N t H)].
Qed.
Lemma wake_total s t : total (wake s t) = total s.
Proof.
  unfold wake. destruct (nth_error (tasks s) t) as [[[p|] [|] w]|] eqn:E; auto. unfold total. simpl.
  assert (C := sum_upd (tasks s) t _ (Task (Some p) false w) E). unfold tsize at 2 4 in C. simpl in C. lia.
Qed.
Lemma wakes_total l s : total (fold_left wake l s) = total s.
Proof. revert s. induction l as [|t l IH]; intros s; [reflexivity|]. simpl. rewrite IH. apply wake_total. Qed.
Lemma wake_ready s t : (exists m, ready (wake s t) = ready s ++ m) .
Proof. unfold wake. destruct (nth_error (tasks s) t) as [[[p|] [|] w]|]; simpl; eauto; exists []; rewrite app_nil_r; reflexivity. Qed.
Lemma wakes_ready l s : exists m, ready (fold_left wake l s) = ready s ++ m.
Proof.
  revert s. induction l as [|t l IH]; intros s; simpl; [exists []; rewrite app_nil_r; reflexivity|]. destruct (IH (wake s t)) as [m E]. destruct (wake_ready s t) as [m' E'].
  exists (m' ++ m). rewrite E, E', app_assoc. reflexivity.
Qed.
(** without a step in the queue nothing has come *)
Lemma wakes_none l s : (forall t, ~ In (HStep t) (ready (fold_left wake l s))) ->
  fold_left wake l s = s /\ forall t, In t l -> ~ waiting s t \/ ended s t.
Proof.
  revert s. induction l as [|t l IH]; intros s H; [split; [reflexivity|intros t []]|]. simpl in *. destruct (IH (wake s t) H) as [E N]. 
  destruct (wakes_ready l (wake s t)) as [m Em].
  assert (W : wake s t = s).
  { unfold wake in *. destruct (nth_error (tasks s) t) as [[[p|] [|] w]|] eqn:Et; auto. exfalso. simpl in Em. apply (H t). rewrite Em.
    apply in_or_app. left. apply in_or_app. right. left. reflexivity. }
  rewrite W in E, N. split; [rewrite W; exact E|]. intros u [<-|Hu]; [|exact (N u Hu)].
  destruct (nth_error (tasks s) t) as [[[p|] [|] w]|] eqn:Et.
  - exfalso. unfold wake in W. rewrite Et in W. apply (f_equal (fun s => length (ready s))) in W. simpl in W. rewrite app_length in W. simpl in W. lia.
  - left. intros (k & Ek & Ak). rewrite Et in Ek. injection Ek as <-. discriminate.
  - right. exists (Task None true w). auto.
  - left. intros (k & Ek & Ak). rewrite Et in Ek. injection Ek as <-. discriminate.
  - left. intros (k & Ek & Ak). congruence.
Qed.
Lemma round_total come s : inv [] s -> total (round come s) < total s \/
  (tasks (round come s) = tasks s /\ (forall t, ~ In (HStep t) (ready s)) /\ forall t, In t come -> ~ waiting s t).
Proof.
  intros I. unfold round. assert (J := wakes_inv come s I). fold (emptied (fold_left wake come s)).
  destruct (execs_total _ _ (emptied_inv _ J)) as [L|[L N]].
  - left. unfold emptied in L at 2. unfold total in *. simpl in L. assert (T := wakes_total come s). unfold total in T. lia.
  - right. destruct (wakes_none come s N) as [E W]. rewrite L. simpl. rewrite E in *. split; [reflexivity|]. split; [exact N|].
    intros t Ht. destruct (W t Ht) as [H|(k & Ek & Rk)]; [exact H|]. intros (k2 & E2 & A2). rewrite Ek in E2. injection E2 as <-.
    rewrite (i_sleep _ _ I k (nth_error_In _ _ Ek) Rk) in A2. discriminate.
Qed.
Lemma stuck_waiting s t k p : inv [] s -> (forall t, ~ In (HStep t) (ready s)) -> nth_error (tasks s) t = Some k -> rest k = Some p -> waiting s t.
Proof.
  intros I N E R. exists k. split; [exact E|]. destruct k as [r a w]. simpl in R. subst r. destruct a; [reflexivity|]. exfalso.
  assert (Q := i_step _ _ I t). rewrite E in Q. simpl in Q. destruct (cnt_pos (is_step t) (ready s)) as (h & Hh & Eh); [lia|].
  destruct h as [u| |]; try discriminate. exact (N u Hh).
Qed.

Lemma all_end env s : inv [] s -> fair env s -> exists k, cnt open_ (tasks (rounds env k s)) = 0.
Proof.
  intros I F. assert (G : forall m i, total (rounds env i s) = m -> exists k, cnt open_ (tasks (rounds env k s)) = 0); [|exact (G _ 0 eq_refl)].
  induction m as [m IH] using lt_wf_ind. intros i Em.
  destruct (Nat.eq_dec (cnt open_ (tasks (rounds env i s))) 0) as [Z|Z]; [exists i; exact Z|].
  assert (Ii := rounds_inv env i s I).
  destruct (round_total (env i) _ Ii) as [L|(Et & N & W)]; [apply (IH (total (rounds env (S i) s))) with (i := S i); [simpl; lia|reflexivity]|].
  destruct (cnt_pos open_ (tasks (rounds env i s))) as (k & Hk & Ok); [lia|]. apply In_nth_error in Hk. destruct Hk as [t Ek].
  unfold open_, unfinished in Ok. destruct (rest k) as [p|] eqn:R; [|discriminate].
  assert (Wt := stuck_waiting _ t k p Ii N Ek R). destruct (F i t Wt) as (j & Hj & Hin).
  (* from round i on either the rest gets shorter or nothing happens until round j *)
  assert (H : forall d, i + d <= j -> (exists i', total (rounds env i' s) < m) \/ tasks (rounds env (i + d) s) = tasks (rounds env i s)).
  { induction d as [|d IHd]; intros Hd; [right; rewrite Nat.add_0_r; reflexivity|]. destruct (IHd ltac:(lia)) as [D|D]; [left; exact D|].
    rewrite Nat.add_succ_r. simpl. destruct (round_total (env (i + d)) _ (rounds_inv env (i + d) s I)) as [L|(Et' & _)].
    - left. exists (S (i + d)). simpl. replace (total (rounds env (i + d) s)) with m in L by (unfold total; rewrite D; symmetry; exact Em). exact L.
    - right. rewrite Et'. exact D. }
  destruct (H (j - i) ltac:(lia)) as [[i' L]|D]; [exact (IH _ L i' eq_refl)|]. replace (i + (j - i)) with j in D by lia.
  destruct (round_total (env j) _ (rounds_inv env j s I)) as [L|(_ & _ & W')].
  - apply (IH (total (rounds env (S j) s))) with (i := S j); [|reflexivity]. simpl.
    replace (total (rounds env j s)) with m in L by (unfold total; rewrite D; symmetry; exact Em). exact L.
  - exfalso. apply (W' t Hin). destruct Wt as (k2 & E2 & A2). exists k2. rewrite D. auto.
Qed.

(** ** tasks that create no tasks *)
Definition quiet (s : loop) : Prop := forall k p, In k (tasks s) -> rest k = Some p -> creates_none p.
Lemma exec_quiet s h : quiet s -> quiet (exec s h) /\ length (tasks (exec s h)) = length (tasks s).
Proof.
  intros Q. destruct h as [t| |]; simpl; auto.
  destruct (nth_error (tasks s) t) as [[[[creates after]|] sl w]|] eqn:E; auto.
  destruct (Q _ _ (nth_error_In _ _ E) eq_refl) as [-> Hq]. simpl.
  destruct after as [|p|p]; simpl; rewrite app_nil_r, upd_len; (split; [|reflexivity]); intros k q Hk; simpl in Hk; rewrite ?app_nil_r in Hk;
    apply In_upd in Hk; (destruct Hk as [->|Hk]; [simpl; intros [= <-]; exact Hq || discriminate|exact (Q k q Hk)]).
Qed.
Lemma execs_quiet hs s : quiet s -> quiet (fold_left exec hs s) /\ length (tasks (fold_left exec hs s)) = length (tasks s).
Proof.
  revert s. induction hs as [|h hs IH]; intros s Q; [auto|]. simpl. destruct (exec_quiet s h Q) as [Q' E]. destruct (IH _ Q') as [Q2 E2]. split; [exact Q2|congruence].
Qed.
Lemma wake_quiet s t : quiet s -> quiet (wake s t) /\ length (tasks (wake s t)) = length (tasks s).
Proof.
  intros Q. unfold wake. destruct (nth_error (tasks s) t) as [[[p|] [|] w]|] eqn:E; auto. simpl. rewrite upd_len. split; [|reflexivity].
  intros k q Hk. simpl in Hk. apply In_upd in Hk. destruct Hk as [->|Hk]; [|exact (Q k q Hk)]. simpl. intros [= <-].
  exact (Q _ _ (nth_error_In _ _ E) eq_refl).
Qed.
Lemma wakes_quiet l s : quiet s -> quiet (fold_left wake l s) /\ length (tasks (fold_left wake l s)) = length (tasks s).
Proof.
  revert s. induction l as [|h hs IH]; intros s Q; [auto|]. simpl. destruct (wake_quiet s h Q) as [Q' E]. destruct (IH _ Q') as [Q2 E2]. split; [exact Q2|congruence].
Qed.
Lemma rounds_quiet env n s : quiet s -> quiet (rounds env n s) /\ length (tasks (rounds env n s)) = length (tasks s).
Proof.
  intros Q. induction n as [|n [Qn En]]; [auto|]. simpl. unfold round. destruct (wakes_quiet (env n) _ Qn) as [Q1 E1].
  destruct (execs_quiet (ready (fold_left wake (env n) (rounds env n s))) (emptied (fold_left wake (env n) (rounds env n s)))) as [Q2 E2]; [exact Q1|].
  unfold emptied in *. split; [exact Q2|]. rewrite E2. simpl. congruence.
Qed.

(** ** the first round *)
Definition as_stopped (s : loop) : loop := Loop (tasks s) (ready s) 0 true.
Lemma as_stopped_inv s : loop_ok s -> inv [] (as_stopped s).
Proof.
  intros (Hs & Hh & Hc & Hl). split; simpl.
  - exact Hc.
  - rewrite (cnt_none is_gather); [|intros h H; destruct (Hh h H) as [t ->]; reflexivity].
    rewrite (cnt_none open_); [reflexivity|]. intros k Hk. unfold open_. rewrite (proj1 (Hl k Hk)). apply andb_false_r.
  - rewrite (cnt_none is_stop); [reflexivity|intros h H; destruct (Hh h H) as [t ->]; reflexivity].
  - intros k Hk. apply (Hl k Hk).
Qed.
Definition like (s s' : loop) : Prop := tasks s' = tasks s /\ ready s' = ready s.
Lemma exec_like s s' t : like s s' -> like (exec s (HStep t)) (exec s' (HStep t)) /\ stopping (exec s (HStep t)) = stopping s.
Proof.
  intros [E1 E2]. unfold like, exec. rewrite E1. destruct (nth_error (tasks s) t) as [[[[creates [|p|p]]|] sl w]|]; simpl; rewrite ?E1, ?E2; auto.
Qed.
Lemma execs_like hs s s' : (forall h, In h hs -> exists t, h = HStep t) -> like s s' ->
  like (fold_left exec hs s) (fold_left exec hs s') /\ stopping (fold_left exec hs s) = stopping s.
Proof.
  revert s s'. induction hs as [|h hs IH]; intros s s' H L; [auto|]. simpl. destruct (H h (or_introl eq_refl)) as [t ->].
  destruct (exec_like s s' t L) as [L' E]. destruct (IH (exec s (HStep t)) (exec s' (HStep t))) as [L2 E2]; auto.
  - intros h' Hh. apply H. right. exact Hh.
  - split; [exact L2|congruence].
Qed.
Lemma wakes_like l s s' : like s s' -> like (fold_left wake l s) (fold_left wake l s').
Proof.
  revert s s'. induction l as [|t l IH]; intros s s' L; [exact L|]. simpl. apply IH. destruct L as [E1 E2]. unfold like, wake. rewrite E1.
  destruct (nth_error (tasks s) t) as [[[p|] [|] w]|]; simpl; rewrite ?E1, ?E2; auto.
Qed.
Lemma all_steps s : inv [] s -> missing s = 0 -> stopping s = true -> forall h, In h (ready s) -> exists t, h = HStep t.
Proof.
  intros [IS IM IP IL] M P h Hh. simpl in *. destruct h as [t| |]; [eauto| |].
  - rewrite M in IM. assert (Z := cnt_zero is_gather (ready s) ltac:(lia) _ Hh). discriminate.
  - rewrite M, P in IP. simpl in IP. assert (Z := cnt_zero is_stop (ready s) ltac:(lia) _ Hh). discriminate.
Qed.
Lemma one_chance_ok come s : loop_ok s -> loop_ok (one_chance come s).
Proof.
  intros H. assert (I := as_stopped_inv s H). assert (Hl := H). destruct Hl as (Hs & Hh & Hc & Hl). unfold one_chance.
  assert (J := round_inv come _ I).
  assert (L := wakes_like come s (as_stopped s) (conj eq_refl eq_refl)).
  destruct (wakes_open come (as_stopped s)) as (Wo & Wm & Ws).
  assert (Steps := all_steps _ (wakes_inv come _ I) Wm Ws).
  assert (K := round_keeps come s).
  assert (M : missing (round come (as_stopped s)) = 0).
  { rewrite (round_missing come _ I). simpl. apply open_zero. intros t k E W. simpl in E. rewrite (proj1 (Hl k (nth_error_In _ _ E))) in W. discriminate. }
  assert (P : stopping (round come (as_stopped s)) = true) by (rewrite (round_stopping come _ I); reflexivity).
  assert (L2 : like (round come s) (round come (as_stopped s)) /\ stopping (round come s) = stopping s).
  { unfold round. destruct L as [E1 E2]. rewrite E2 in *. destruct (wakes_open come s) as (_ & _ & Ws').
    destruct (execs_like (ready (fold_left wake come s)) (emptied (fold_left wake come s)) (emptied (fold_left wake come (as_stopped s)))) as [X Y].
    - exact Steps.
    - split; simpl; auto.
    - unfold emptied in *. split; [exact X|]. rewrite Y. simpl. exact Ws'. }
  destruct L2 as [[E1 E2] E3]. split; [congruence|]. rewrite <- E1, <- E2. split; [exact (all_steps _ J M P)|]. split; [exact (i_step _ _ J)|].
  intros k Hk. split; [|exact (i_sleep _ _ J k Hk)]. rewrite E1 in Hk. apply In_nth_error in Hk. destruct Hk as [t Et].
  destruct (watched k) eqn:W; [|reflexivity]. destruct (proj2 K t k Et W) as (k0 & E0 & W0). rewrite (proj1 (Hl k0 (nth_error_In _ _ E0))) in W0. discriminate.
Qed.
