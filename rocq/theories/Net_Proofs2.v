From Coq Require Import List Arith Bool Lia.
From Verif Require Import PyBase Net_Model Net_Spec Net_Proofs.
Import ListNotations.

Section NetPaths.
  Context {V : Type} (neq : V -> V -> bool).
  Local Notation net := (net V).
  Local Notation fire := (fire neq).
  Local Notation handle_with := (handle_with neq).

  Lemma sum_ext {X} (f g : X -> nat) l : (forall x, In x l -> f x = g x) -> list_sum (map f l) = list_sum (map g l).
  Proof. intros H. f_equal. now apply map_ext_in. Qed.
  Lemma sum_add {X} (f g : X -> nat) l : list_sum (map (fun x => f x + g x) l) = list_sum (map f l) + list_sum (map g l).
  Proof. induction l as [|x l IH]; cbn; [reflexivity|]. unfold list_sum in *. cbn. lia. Qed.
  Lemma sum_zero {X} (l : list X) : list_sum (map (fun _ => 0) l) = 0.
  Proof. induction l; cbn; auto. Qed.
  Lemma sum_swap {X Y} (f : X -> Y -> nat) (l : list X) (m : list Y) :
    list_sum (map (fun x => list_sum (map (f x) m)) l) = list_sum (map (fun y => list_sum (map (fun x => f x y) l)) m).
  Proof.
    induction l as [|x l IH].
    - cbn. now rewrite sum_zero.
    - cbn [map]. change (list_sum (?a :: ?b)) with (a + list_sum b). rewrite IH.
      change (fun y => list_sum (map (fun x0 => f x0 y) (x :: l)))
        with (fun y => f x y + list_sum (map (fun x0 => f x0 y) l)).
      now rewrite sum_add.
  Qed.

  Lemma inputs_lt (s : net) k p : wfn s -> In p (inputs s k) -> p < k.
  Proof.
    intros W. unfold inputs. destruct (nth_error s k) as [[d x ins]|] eqn:E; [|intros []].
    pose proof (W k _ E) as W1. destruct d as [|i f|l f]; cbn in W1; [intros []| |].
    - intros [<-|[]]. exact W1.
    - apply W1.
  Qed.
  Lemma inputs_defs (s s' : net) k : map n_def s = map n_def s' -> inputs s k = inputs s' k.
  Proof.
    intros H. assert (G : nth_error (map n_def s) k = nth_error (map n_def s') k) by now rewrite H.
    rewrite !nth_error_map in G. unfold inputs.
    destruct (nth_error s k) as [[d x ins]|], (nth_error s' k) as [[d' x' ins']|]; cbn in G; try discriminate; auto.
    injection G as <-. reflexivity.
  Qed.
  Lemma paths_upto_defs (s s' : net) i : map n_def s = map n_def s' ->
    forall n k, paths_upto n s i k = paths_upto n s' i k.
  Proof.
    intros H. induction n as [|n IH]; intros k; cbn; [reflexivity|]. rewrite (inputs_defs s s' k H). f_equal.
    apply sum_ext. auto.
  Qed.
  Lemma paths_defs (s s' : net) i k : map n_def s = map n_def s' -> paths s i k = paths s' i k.
  Proof. intros H. now apply paths_upto_defs. Qed.

  Lemma paths_upto_enough (s : net) i : wfn s -> forall n m k, k < n -> k < m -> paths_upto n s i k = paths_upto m s i k.
  Proof.
    intros W. induction n as [|n IH]; intros [|m] k Hn Hm; try lia. cbn. f_equal. apply sum_ext. intros p Hp.
    apply (inputs_lt s k p W) in Hp. apply IH; lia.
  Qed.
  (** one step from the end *)
  Lemma paths_end (s : net) i k : wfn s ->
    paths s i k = (if i =? k then 1 else 0) + list_sum (map (paths s i) (inputs s k)).
  Proof.
    intros W. unfold paths at 1. cbn [paths_upto]. f_equal. apply sum_ext. intros p Hp.
    apply (inputs_lt s k p W) in Hp. apply paths_upto_enough; auto.
  Qed.

  Lemma positions_length i k : forall l p,
    list_sum (map (fun e : nat * nat => if fst e =? k then 1 else 0) (map (pair k) (positions i p l))) =
    list_sum (map (fun a => if i =? a then 1 else 0) l).
  Proof.
    induction l as [|x l IH]; intros p; cbn; [reflexivity|]. rewrite (Nat.eqb_sym i x).
    destruct (x =? i); cbn; rewrite IH; [rewrite Nat.eqb_refl|]; reflexivity.
  Qed.
  Lemma other_zero j k (l : list nat) : j <> k ->
    list_sum (map (fun e : nat * nat => if fst e =? k then 1 else 0) (map (pair j) l)) = 0.
  Proof.
    intros H. apply Nat.eqb_neq in H. induction l as [|x l IH]; cbn; [reflexivity|]. rewrite H. exact IH.
  Qed.
  Lemma slots_count i k d x ins :
    list_sum (map (fun e : nat * nat => if fst e =? k then 1 else 0) (map (pair k) (slots i d))) =
    list_sum (map (fun a => if i =? a then 1 else 0) (inputs [Node d x ins : node V] 0)).
  Proof.
    destruct d as [|p f|l f]; cbn; [reflexivity| |apply positions_length].
    rewrite (Nat.eqb_sym i p). destruct (p =? i); cbn; [rewrite Nat.eqb_refl|]; reflexivity.
  Qed.
  Lemma subs_from_count i k : forall (s : net) j,
    list_sum (map (fun e => if fst e =? k then 1 else 0) (subs_from i j s)) =
    if j <=? k then list_sum (map (fun a => if i =? a then 1 else 0) (inputs s (k - j))) else 0.
  Proof.
    induction s as [|nd s IH]; intros j.
    - cbn. unfold inputs. replace (nth_error (@nil (node V)) (k - j)) with (@None (node V)) by (destruct (k - j); reflexivity).
      cbn. destruct (j <=? k); reflexivity.
    - cbn [subs_from]. rewrite map_app, list_sum_app, IH. destruct (lt_eq_lt_dec j k) as [[L|E]|L].
      + rewrite other_zero by lia. rewrite (proj2 (Nat.leb_le j k)) by lia. rewrite (proj2 (Nat.leb_le (S j) k)) by lia.
        replace (k - j) with (S (k - S j)) by lia. reflexivity.
      + subst j. rewrite (proj2 (Nat.leb_le k k)) by lia. rewrite (proj2 (Nat.leb_nle (S k) k)) by lia.
        rewrite Nat.sub_diag, Nat.add_0_r. destruct nd as [d x ins]. exact (slots_count i k d x ins).
      + rewrite other_zero by lia. rewrite (proj2 (Nat.leb_nle j k)) by lia. rewrite (proj2 (Nat.leb_nle (S j) k)) by lia.
        reflexivity.
  Qed.
  Lemma subs_count (s : net) i k :
    list_sum (map (fun e => if fst e =? k then 1 else 0) (subs s i)) =
    list_sum (map (fun a => if i =? a then 1 else 0) (inputs s k)).
  Proof. unfold subs. rewrite subs_from_count. cbn. now rewrite Nat.sub_0_r. Qed.

  (** one step from the start *)
  Lemma paths_start (s : net) i : wfn s -> forall n k, k < n ->
    paths s i k = (if i =? k then 1 else 0) + list_sum (map (fun e => paths s (fst e) k) (subs s i)).
  Proof.
    intros W. induction n as [|n IH]; intros k L; [lia|]. rewrite paths_end by assumption. f_equal.
    transitivity (list_sum (map (fun p => (if i =? p then 1 else 0) + list_sum (map (fun e => paths s (fst e) p) (subs s i))) (inputs s k))).
    { apply sum_ext. intros p Hp. apply (inputs_lt s k p W) in Hp. apply IH. lia. }
    rewrite sum_add, <- subs_count, sum_swap, <- sum_add. apply sum_ext. intros e _.
    rewrite (paths_end s (fst e) k W). reflexivity.
  Qed.
  Lemma paths_step (s : net) i k : wfn s ->
    paths s i k = (if i =? k then 1 else 0) + list_sum (map (fun e => paths s (fst e) k) (subs s i)).
  Proof. intros W. apply (paths_start s i W (S k) k). lia. Qed.

  Definition times (k : nat) (t : list (nat * V)) : nat := length (fired k t).
  Lemma times_app k t1 t2 : times k (t1 ++ t2) = times k t1 + times k t2.
  Proof. unfold times. now rewrite fired_app, app_length. Qed.
  Lemma times_cons k i (v : V) t : times k ((i, v) :: t) = (if i =? k then 1 else 0) + times k t.
  Proof. unfold times, fired. cbn. destruct (i =? k); reflexivity. Qed.

  (** ** at most as many firings as paths; none and no change if there is no path *)
  Definition bounded (k : nat) (s s' : net) (t : list (nat * V)) (n : nat) : Prop :=
    times k t <= n /\ (n = 0 -> nth_error s' k = nth_error s k).

  Lemma handle_bounded k (F : net -> nat -> V -> net * list (nat * V)) v s j q :
    (forall s j w, wfn s -> bounded k s (fst (F s j w)) (snd (F s j w)) (paths s j k)) ->
    wfn s ->
    bounded k s (fst (fst (handle_with F v s j q))) (snd (fst (handle_with F v s j q))) (paths s j k).
  Proof.
    intros HF W. unfold Net_Model.handle_with.
    assert (B0 : bounded k s s [] (paths s j k)) by (split; [cbn; lia|auto]).
    destruct (nth_error s j) as [[d x ins]|] eqn:E; [|exact B0].
    pose proof (W j _ E) as W1. cbn [n_def n_val n_ins] in *.
    assert (NE : paths s j k = 0 -> k <> j).
    { rewrite paths_end by assumption. destruct (j =? k) eqn:F1; [lia|]. apply Nat.eqb_neq in F1. auto. }
    assert (G : forall nd', wf1 j nd' -> n_def nd' = d ->
              let r := F (put j nd' s) j (n_val nd') in bounded k s (fst r) (snd r) (paths s j k)).
    { intros nd' W' D'. cbn. destruct (HF (put j nd' s) j (n_val nd')) as [A B]; [now apply put_wf|].
      rewrite (paths_defs (put j nd' s) s j k) in A, B by (eapply put_map; eauto).
      split; [exact A|]. intros Z. rewrite (B Z). apply put_other. auto. }
    destruct d as [|p f|l f]; [exact B0| |].
    - destruct (f v) as [w|e]; [|exact B0]. destruct (neq w x); [|exact B0].
      specialize (G (Node (DMap p f) w ins) W1 eq_refl). cbn in G.
      destruct (F (put j (Node (DMap p f) w ins) s) j w) as [s1 t1]. exact G.
    - assert (W2 : forall w, wf1 j (Node (DComb l f) w (put q v ins))) by (intros w; cbn; rewrite put_length; exact W1).
      destruct (f (put q v ins)) as [w|e].
      + specialize (G _ (W2 w) eq_refl). cbn in G.
        destruct (F (put j (Node (DComb l f) w (put q v ins)) s) j w) as [s1 t1]. exact G.
      + split; [cbn; lia|]. cbn. intros Z. apply put_other. auto.
  Qed.

  Lemma calls_bounded k fuel v i :
    (forall s j w, wfn s -> bounded k s (fst (fire fuel s j w)) (snd (fire fuel s j w)) (paths s j k)) ->
    forall l s, wfn s -> (forall j q, In (j, q) l -> i < j) ->
    bounded k s (fst (calls (handle_with (fire fuel) v) l s)) (snd (calls (handle_with (fire fuel) v) l s))
            (list_sum (map (fun e => paths s (fst e) k) l)).
  Proof.
    intros HF. induction l as [|[j q] l IH]; intros s W HL; cbn [calls]; [split; cbn; auto|].
    assert (Lij : i < j) by (apply (HL j q); now left).
    destruct (handle_bounded k (fire fuel) v s j q HF W) as [A B].
    destruct (handle_keeps neq (fire fuel) v s i j q (fire_keeps neq fuel) W Lij) as [W' K'].
    cbn [map fst]. change (list_sum (?a :: ?b)) with (a + list_sum b).
    destruct (handle_with (fire fuel) v s j q) as [[s1 t1] [e|]]; cbn [fst snd] in A, B, W', K'.
    - cbn [fst snd]. split; [lia|]. intros Z. apply B. lia.
    - destruct (IH s1 W' (fun j0 q0 H => HL j0 q0 (or_intror H))) as [A2 B2].
      destruct (calls (handle_with (fire fuel) v) l s1) as [s2 t2]. cbn [fst snd] in *.
      assert (E : list_sum (map (fun e => paths s1 (fst e) k) l) = list_sum (map (fun e => paths s (fst e) k) l))
        by (apply sum_ext; intros; apply paths_defs; apply K').
      rewrite E in A2, B2. split; [rewrite times_app; lia|]. intros Z. rewrite B2, B by lia. reflexivity.
  Qed.

  Lemma fire_bounded k : forall fuel s i v, wfn s ->
    bounded k s (fst (fire fuel s i v)) (snd (fire fuel s i v)) (paths s i k).
  Proof.
    induction fuel as [|fuel IH]; intros s i v W; cbn [Net_Model.fire]; [split; [cbn; lia|auto]|].
    destruct (calls_bounded k fuel v i IH (subs s i) s W (fun j q H => slot_source s i j q W H)) as [A B].
    rewrite paths_step by assumption.
    destruct (calls (handle_with (fire fuel) v) (subs s i) s) as [s1 t1]. cbn [fst snd] in *.
    split; [rewrite times_cons; lia|]. intros Z. apply B. lia.
  Qed.

  (** ** exactly as many firings as paths *)
  Definition plain (s : net) : Prop := all_combined s /\ forall k, safe_to s k.
  Lemma plain_defs s s' : map n_def s' = map n_def s -> plain s -> plain s'.
  Proof.
    intros E [A B]. assert (G : forall j nd, nth_error s' j = Some nd -> exists nd0, nth_error s j = Some nd0 /\ n_def nd0 = n_def nd).
    { intros j nd H. assert (M : nth_error (map n_def s) j = Some (n_def nd)) by (rewrite <- E; now apply map_nth_error).
      rewrite nth_error_map in M. destruct (nth_error s j) as [nd0|]; [|discriminate]. injection M as M. eauto. }
    split.
    - intros j nd H. destruct (G j nd H) as (nd0 & H0 & <-). eapply A; eauto.
    - intros k j nd Hj H. destruct (G j nd H) as (nd0 & H0 & <-). eapply B; eauto.
  Qed.

  Definition fire_exact (k fuel : nat) : Prop := forall s i v, wfn s -> plain s -> length s - i <= fuel -> i < length s ->
    times k (snd (fire fuel s i v)) = paths s i k.

  Lemma handle_exact k fuel v s i j q : fire_exact k fuel -> wfn s -> plain s -> length s - i <= S fuel ->
    In (j, q) (subs s i) ->
    times k (snd (fst (handle_with (fire fuel) v s j q))) = paths s j k /\ snd (handle_with (fire fuel) v s j q) = None.
  Proof.
    intros HF W P L Hin. pose proof (slot_source s i j q W Hin) as Lij.
    apply subs_in in Hin. destruct Hin as (nd & E & Hq). pose proof (nth_lt _ _ _ E) as Lj.
    pose proof (W j nd E) as W1. unfold Net_Model.handle_with. rewrite E. destruct nd as [d x ins].
    cbn [n_def n_val n_ins] in *. destruct d as [|p f|l f].
    - destruct Hq.
    - destruct P as [P _]. specialize (P j _ E). cbn in P. contradiction.
    - pose proof (proj2 P j j _ (le_n j) E) as SF. cbn in SF. destruct (SF (put q v ins)) as (w & ->).
      assert (DE : map n_def (put j (Node (DComb l f) w (put q v ins)) s) = map n_def s) by (eapply put_map; eauto).
      pose proof (HF (put j (Node (DComb l f) w (put q v ins)) s) j w) as X.
      destruct (fire fuel (put j (Node (DComb l f) w (put q v ins)) s) j w) as [s1 t1]. cbn [fst snd] in *. split; [|reflexivity].
      rewrite X.
      + now apply paths_defs.
      + apply put_wf; auto. cbn. now rewrite put_length.
      + exact (plain_defs _ _ DE P).
      + rewrite put_length. lia.
      + now rewrite put_length.
  Qed.

  Lemma calls_exact k fuel v i : fire_exact k fuel -> forall l s, wfn s -> plain s -> length s - i <= S fuel ->
    (forall e, In e l -> In e (subs s i)) ->
    times k (snd (calls (handle_with (fire fuel) v) l s)) = list_sum (map (fun e => paths s (fst e) k) l).
  Proof.
    intros HF. induction l as [|[j q] l IH]; intros s W P L HL; cbn [calls]; [reflexivity|].
    assert (Hin : In (j, q) (subs s i)) by (apply HL; now left).
    pose proof (slot_source s i j q W Hin) as Lij.
    destruct (handle_exact k fuel v s i j q HF W P L Hin) as [A B].
    destruct (handle_keeps neq (fire fuel) v s i j q (fire_keeps neq fuel) W Lij) as [W' K'].
    cbn [map fst]. change (list_sum (?a :: ?b)) with (a + list_sum b).
    destruct (handle_with (fire fuel) v s j q) as [[s1 t1] e]. cbn [fst snd] in A, B, W', K'. subst e.
    pose proof (keeps_length _ _ _ K') as KL. destruct K' as [KE _].
    specialize (IH s1 W' (plain_defs _ _ KE P)). rewrite KL, (subs_defs s1 s i KE) in IH.
    specialize (IH L (fun e H => HL e (or_intror H))).
    destruct (calls (handle_with (fire fuel) v) l s1) as [s2 t2]. cbn [fst snd] in *.
    rewrite times_app, A, IH. f_equal. apply sum_ext. intros. now apply paths_defs.
  Qed.

  Lemma fire_exactly k : forall fuel, fire_exact k fuel.
  Proof.
    induction fuel as [|fuel IH]; intros s i v W P L Li; [lia|]. cbn [Net_Model.fire].
    pose proof (calls_exact k fuel v i IH (subs s i) s W P L (fun _ H => H)) as C.
    rewrite paths_step by assumption.
    destruct (calls (handle_with (fire fuel) v) (subs s i) s) as [s1 t1]. cbn [fst snd] in *. rewrite times_cons. lia.
  Qed.
End NetPaths.
