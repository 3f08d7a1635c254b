(** Properties of networks of ValueStream, MapStream and CombineLatestStream. *)
From Coq Require Import List Arith Bool Lia.
From Verif Require Import PyBase Net_Model Net_Spec Net_Proofs Net_Proofs2.
Import ListNotations.

Section NetProps.
  Context {V : Type} (neq : V -> V -> bool) (none : V).
  Local Notation reached s := (exists h t, n_run neq none [] h = (s, t)).

  Lemma reached_wf (s : net V) : reached s -> wfn s.
  Proof.
    intros (h & t & H). pose proof (wf_run neq none h [] (fun j nd E => match j as j0 return nth_error [] j0 = Some nd -> _ with
      | 0 => fun E' => ltac:(discriminate E') | S _ => fun E' => ltac:(discriminate E') end E)) as W.
    rewrite H in W. exact W.
  Qed.

  (** After any history every stream holds the value it should: its function of what its inputs should hold, for all
      streams before the first one whose function ever raises. *)
  Theorem net_consistent (neq_eq : forall a b : V, neq a b = false -> a = b) h s t k v :
    n_run neq none [] h = (s, t) -> safe_to s k -> value s k = Some v ->
    means s k v /\ forall v', means s k v' -> v' = v.
  Proof.
    intros H S Hv. pose proof (inv_run neq none neq_eq h [] inv_new) as I. rewrite H in I.
    pose proof (consistent s I (Datatypes.S k) k v (le_n _) S Hv) as M. split; [exact M|].
    intros v' M'. eapply means_fun; eauto.
  Qed.

  (** A ValueStream holds what was assigned last. *)
  Theorem net_source (neq_eq : forall a b : V, neq a b = false -> a = b) s i old ins o s' t :
    reached s -> nth_error s i = Some (Node DVal old ins) -> n_step neq none s o = (s', t) ->
    value s' i = Some (match o with SetVal j v => if j =? i then v else old | _ => old end).
  Proof.
    intros R E H. pose proof (reached_wf s R) as W. pose proof (nth_lt _ _ _ E) as Li.
    assert (G : forall nd, value (s ++ [nd]) i = Some old).
    { intros nd. unfold value. rewrite nth_error_app1 by assumption. now rewrite E. }
    assert (G0 : value s i = Some old) by (unfold value; now rewrite E).
    destruct o as [v|a f|l f|j v]; cbn in H.
    - injection H as <- <-. apply G.
    - destruct (nth_error s a); [|injection H as <- <-; exact G0]. destruct (f (n_val n)) as [w|e]; [|injection H as <- <-; exact G0].
      destruct (neq w none); injection H as <- <-; apply G.
    - destruct (values_of s l) as [vs|]; [|injection H as <- <-; exact G0].
      destruct (f vs) as [w|e]; injection H as <- <-; [apply G|exact G0].
    - destruct (Nat.eq_dec j i) as [->|N].
      + rewrite Nat.eqb_refl, E in *. destruct (neq old v) eqn:Q.
        * assert (W2 : wfn (put i (Node DVal v ins) s)) by (apply put_wf; cbn; auto).
          destruct (fire_keeps neq (length s - i) (put i (Node DVal v ins) s) i v W2) as [_ [_ K]].
          rewrite H in K. cbn in K. unfold value. rewrite K, put_same by auto. reflexivity.
        * injection H as <- <-. rewrite G0. f_equal. now apply neq_eq.
      + rewrite (proj2 (Nat.eqb_neq j i) N).
        destruct (nth_error s j) as [[d x ins']|] eqn:Ej; [|injection H as <- <-; exact G0].
        destruct d; try (injection H as <- <-; exact G0). destruct (neq x v); [|injection H as <- <-; exact G0].
        assert (W2 : wfn (put j (Node DVal v ins') s)) by (apply put_wf; cbn; auto).
        destruct (fire_bounded neq i (length s - j) (put j (Node DVal v ins') s) j v W2) as [_ B].
        rewrite H in B. cbn [fst] in B. unfold value. rewrite B.
        * rewrite put_other by auto. now rewrite E.
        * rewrite paths_end by assumption. rewrite (proj2 (Nat.eqb_neq j i) N). unfold inputs.
          rewrite put_other by auto. rewrite E. reflexivity.
  Qed.

  (** Every change of a stream's value is announced: the value is the one fired last. *)
  Theorem net_announced s h s' t k d :
    reached s -> n_run neq none s h = (s', t) -> value s k = Some d -> value s' k = Some (last (fired k t) d).
  Proof.
    intros R H Hd. pose proof (run_tracks neq none k h s (reached_wf s R) d Hd) as T. rewrite H in T. exact T.
  Qed.

  Lemma set_bounded s i v s' t k : reached s -> n_step neq none s (SetVal i v) = (s', t) ->
    bounded k s s' t (paths s i k).
  Proof.
    intros R H. pose proof (reached_wf s R) as W. cbn in H.
    assert (B0 : bounded k s s [] (paths s i k)) by (split; [cbn; lia|auto]).
    destruct (nth_error s i) as [[d x ins]|] eqn:E; [|injection H as <- <-; exact B0].
    destruct d; try (injection H as <- <-; exact B0). destruct (neq x v); [|injection H as <- <-; exact B0].
    assert (W2 : wfn (put i (Node DVal v ins) s)) by (apply put_wf; cbn; auto).
    destruct (fire_bounded neq k (length s - i) (put i (Node DVal v ins) s) i v W2) as [A B].
    rewrite H in A, B. cbn [fst snd] in A, B. rewrite (paths_defs (put i (Node DVal v ins) s) s i k) in A, B by (eapply put_map; eauto).
    split; [exact A|]. intros Z. rewrite (B Z). apply put_other. intros ->.
    rewrite paths_end, Nat.eqb_refl in Z by assumption. lia.
  Qed.

  (** An assignment makes a stream fire at most as often as there are paths to it, also when functions raise. *)
  Theorem net_fires_at_most s i v s' t k :
    reached s -> n_step neq none s (SetVal i v) = (s', t) -> length (fired k t) <= paths s i k.
  Proof. intros R H. apply (set_bounded s i v s' t k R H). Qed.

  (** Streams to which no path leads are not touched. *)
  Theorem net_unreached s i v s' t k :
    reached s -> n_step neq none s (SetVal i v) = (s', t) -> paths s i k = 0 ->
    fired k t = [] /\ nth_error s' k = nth_error s k.
  Proof.
    intros R H Z. destruct (set_bounded s i v s' t k R H) as [A B]. split; [|auto].
    unfold times in A. rewrite Z in A. destruct (fired k t); [reflexivity|]. cbn in A. lia.
  Qed.

  (** Where a single path leads, a stream fires at most once, and then the value it ends up with: no mixture of old and new
      inputs is ever seen. *)
  Theorem net_single_path s i v s' t k :
    reached s -> n_step neq none s (SetVal i v) = (s', t) -> k < length s -> paths s i k = 1 ->
    fired k t = [] \/ exists w, fired k t = [w] /\ value s' k = Some w.
  Proof.
    intros R H L Z. pose proof (net_fires_at_most s i v s' t k R H) as A. rewrite Z in A.
    assert (X : exists d, value s k = Some d).
    { unfold value. destruct (nth_error s k) eqn:E; [eauto|]. apply nth_error_None in E. lia. }
    destruct X as [d Hd]. pose proof (step_tracks neq none k s (SetVal i v) (reached_wf s R) d Hd) as T.
    rewrite H in T. cbn [fst snd] in T. destruct (fired k t) as [|w [|w' l]]; cbn in A; [auto| |lia].
    right. exists w. split; [reflexivity|]. exact T.
  Qed.

  (** In a network of CombineLatestStreams whose functions do not raise, a change fires every stream once for every path. *)
  Theorem net_fires_exactly s i old ins v s' t k :
    reached s -> all_combined s -> (forall n, safe_to s n) -> nth_error s i = Some (Node DVal old ins) ->
    neq old v = true -> n_step neq none s (SetVal i v) = (s', t) -> length (fired k t) = paths s i k.
  Proof.
    intros R A S E N H. pose proof (reached_wf s R) as W. cbn in H. rewrite E, N in H.
    pose proof (nth_lt _ _ _ E) as Li.
    assert (D : map n_def (put i (Node DVal v ins) s) = map n_def s) by (eapply put_map; eauto).
    pose proof (fire_exactly neq k (length s - i) (put i (Node DVal v ins) s) i v) as X.
    rewrite H in X. cbn [snd] in X. unfold times in X. rewrite X.
    - now apply paths_defs.
    - apply put_wf; cbn; auto.
    - eapply plain_defs; eauto. split; auto.
    - rewrite put_length. lia.
    - now rewrite put_length.
  Qed.

  (** Assigning an equal value does nothing. *)
  Theorem net_same_value s i old ins v :
    nth_error s i = Some (Node DVal old ins) -> neq old v = false -> n_step neq none s (SetVal i v) = (s, []).
  Proof. intros E N. cbn. now rewrite E, N. Qed.

  (** A chain of [n] streams each combining its predecessor with itself. *)
  Definition ladder (v0 : V) (g : list V -> V) (n : nat) : list (nop V) :=
    MakeVal v0 :: map (fun k => MakeComb [k; k] (fun vs => Ok (g vs))) (seq 0 n).

  Lemma run_app h1 : forall s h2, fst (n_run neq none s (h1 ++ h2)) = fst (n_run neq none (fst (n_run neq none s h1)) h2).
  Proof.
    induction h1 as [|o h1 IH]; intros s h2; [reflexivity|]. cbn [app n_run].
    destruct (n_step neq none s o) as [s1 t1]. specialize (IH s1 h2).
    destruct (n_run neq none s1 (h1 ++ h2)) as [s2 t2], (n_run neq none s1 h1) as [s3 t3]. exact IH.
  Qed.

  Definition rung (g : list V -> V) (k : nat) (d : ndef V) : Prop :=
    match k with 0 => d = DVal | S k' => d = DComb [k'; k'] (fun vs => Ok (g vs)) end.
  Lemma ladder_shape v0 g n : let s := fst (n_run neq none [] (ladder v0 g n)) in
    length s = S n /\ (forall k nd, nth_error s k = Some nd -> rung g k (n_def nd)) /\ value s 0 = Some v0.
  Proof.
    cbn zeta. induction n as [|n IH].
    - cbn. repeat split. intros [|[|k]] nd H; cbn in H; try discriminate. injection H as <-. reflexivity.
    - unfold ladder in *. rewrite seq_S, map_app. rewrite app_comm_cons, run_app.
      set (s := fst (n_run neq none [] (MakeVal v0 :: map (fun k => MakeComb [k; k] (fun vs => Ok (g vs))) (seq 0 n)))) in *.
      destruct IH as (L & HK & H0).
      destruct (nth_error s n) as [nd|] eqn:E; [|apply nth_error_None in E; lia].
      cbn [map n_run Nat.add]. cbn [n_step values_of]. rewrite E. cbn [fst]. repeat split.
      + rewrite app_length, L. cbn. lia.
      + intros k x H. apply nth_snoc in H. destruct H as [[_ H]|[-> ->]]; [now apply HK|]. rewrite L. reflexivity.
      + unfold value in *. rewrite nth_error_app1 by lia. exact H0.
  Qed.

  (** The work is exponential: in that chain one assignment fires the [n]-th stream 2^n times. *)
  Theorem net_exponential v0 v1 g n s s' t t' :
    neq v0 v1 = true -> n_run neq none [] (ladder v0 g n) = (s, t) -> n_step neq none s (SetVal 0 v1) = (s', t') ->
    length (fired n t') = 2 ^ n.
  Proof.
    intros N H H'. destruct (ladder_shape v0 g n) as (L & HK & H0). rewrite H in *. cbn [fst] in *.
    assert (R : reached s) by eauto. pose proof (reached_wf s R) as W.
    unfold value in H0. destruct (nth_error s 0) as [[d x ins]|] eqn:E; [|discriminate].
    pose proof (HK 0 _ E) as D. cbn in D, H0. injection H0 as ->. subst d.
    rewrite (net_fires_exactly s 0 v0 ins v1 s' t' n); auto.
    - assert (P : forall k, k <= n -> paths s 0 k = 2 ^ k).
      { induction k as [|k IH]; intros Lk; rewrite paths_end by assumption.
        - unfold inputs. rewrite E. reflexivity.
        - destruct (nth_error s (S k)) as [[d x ins']|] eqn:Ek; [|apply nth_error_None in Ek; lia].
          pose proof (HK _ _ Ek) as D. cbn in D. subst d. unfold inputs. rewrite Ek.
          cbn [Nat.eqb map list_sum fold_right]. rewrite IH by lia. cbn [Nat.pow]. unfold list_sum. cbn [fold_right]. lia. }
      apply P. lia.
    - intros j nd Hj. specialize (HK j nd Hj). destruct j; cbn in HK; rewrite HK; exact I.
    - intros m j nd _ Hj. specialize (HK j nd Hj). destruct j; cbn in HK; rewrite HK; cbn; eauto.
  Qed.
End NetProps.
Print Assumptions net_consistent.
Print Assumptions net_source.
Print Assumptions net_announced.
Print Assumptions net_fires_at_most.
Print Assumptions net_unreached.
Print Assumptions net_single_path.
Print Assumptions net_fires_exactly.
Print Assumptions net_same_value.
Print Assumptions net_exponential.

Definition nneq (a b : nat) : bool := negb (a =? b).
Lemma nneq_eq a b : nneq a b = false -> a = b.
Proof. unfold nneq. destruct (a =? b) eqn:E; [|discriminate]. intros _. now apply Nat.eqb_eq. Qed.

(** x, x + 1, 2 x, and the sum of the last two *)
Definition diamond : list (nop nat) :=
  [MakeVal 3; MakeMap 0 (fun x => Ok (x + 1)); MakeMap 0 (fun x => Ok (2 * x)); MakeComb [1; 2] (fun l => Ok (list_sum l))].

Example net_consistent_ex : exists s t, n_run nneq 0 [] (diamond ++ [SetVal 0 5]) = (s, t) /\
  map n_val s = [5; 6; 10; 16] /\ fired 3 t = [10; 12; 16] /\ paths s 0 3 = 2 /\ means s 3 16.
Proof.
  eexists. eexists. split; [vm_compute; reflexivity|]. repeat split.
  match goal with |- means ?s 3 16 => assert (H : n_run nneq 0 [] (diamond ++ [SetVal 0 5]) = (s, [(1, 4); (2, 6); (3, 10); (0, 5); (1, 6); (3, 12); (2, 10); (3, 16)])) by (vm_compute; reflexivity);
    refine (proj1 (net_consistent nneq 0 nneq_eq _ _ _ 3 16 H _ _)) end.
  - intros [|[|[|[|j]]]] nd _ E; cbn in E; try (injection E as <-; cbn; eauto); try discriminate. destruct j; discriminate.
  - reflexivity.
Qed.
Example net_single_path_ex : let s := fst (n_run nneq 0 [] diamond) in
  paths s 0 1 = 1 /\ fired 1 (snd (n_step nneq 0 s (SetVal 0 5))) = [6] /\ fired 1 (snd (n_step nneq 0 s (SetVal 0 3))) = [].
Proof. repeat split. Qed.
Example net_fires_exactly_ex :
  length (fired 3 (snd (n_step nneq 0 (fst (n_run nneq 0 [] (ladder 0 list_sum 3))) (SetVal 0 1)))) = 8.
Proof. vm_compute. reflexivity. Qed.
Example net_unreached_ex : let s := fst (n_run nneq 0 [] (diamond ++ [MakeVal 8; MakeComb [4; 4] (fun l => Ok (list_sum l))])) in
  paths s 0 5 = 0 /\ paths s 4 5 = 2 /\ fired 5 (snd (n_step nneq 0 s (SetVal 0 5))) = [].
Proof. repeat split. Qed.

(** Where two paths meet a mixture of old and new inputs is fired: whatever the source holds the last stream should hold 0,
    but it fires 1 in between. *)
Theorem net_glitch_refuted : exists (h : list (nop nat)) s t,
  n_run nneq 7 [] h = (s, t) /\
  (forall v w ins, means (put 0 (Node DVal v ins) s) 3 w -> w = 0) /\ In 1 (fired 3 t).
Proof.
  exists [MakeVal 3; MakeMap 0 (fun x => Ok (x + 1)); MakeMap 0 (fun x => Ok (x + 2));
          MakeComb [1; 2] (fun l => Ok (if nth 1 l 0 =? nth 0 l 0 + 1 then 0 else 1)); SetVal 0 5].
  exists [Node DVal 5 []; Node (DMap 0 (fun x => Ok (x + 1))) 6 []; Node (DMap 0 (fun x => Ok (x + 2))) 7 [];
          Node (DComb [1; 2] (fun l => Ok (if nth 1 l 0 =? nth 0 l 0 + 1 then 0 else 1))) 0 [6; 7]],
         [(1, 4); (2, 5); (3, 0); (0, 5); (1, 6); (3, 1); (2, 7); (3, 0)].
  split; [reflexivity|]. split; [|vm_compute; auto].
  intros v w ins M. inversion M as [? ? ? E|? ? ? ? ? ? ? E M1 F|? ? ? ? ? ? ? E M1 F]; subst; cbn in E; try discriminate.
  injection E as <- <- _ _. inversion M1 as [|? ? a ? Ma M2]; subst. inversion M2 as [|? ? b ? Mb M3]; subst. inversion M3; subst.
  inversion Ma as [? ? ? E|? ? ? ? ? a0 ? E Ma0 Fa|? ? ? ? ? ? ? E _ _]; subst; cbn in E; try discriminate. injection E as <- <- _ _.
  inversion Mb as [? ? ? E|? ? ? ? ? b0 ? E Mb0 Fb|? ? ? ? ? ? ? E _ _]; subst; cbn in E; try discriminate. injection E as <- <- _ _.
  inversion Ma0 as [? ? ? E|? ? ? ? ? ? ? E _ _|? ? ? ? ? ? ? E _ _]; subst; cbn in E; try discriminate. injection E as -> _.
  inversion Mb0 as [? ? ? E|? ? ? ? ? ? ? E _ _|? ? ? ? ? ? ? E _ _]; subst; cbn in E; try discriminate. injection E as -> _.
  injection Fa as <-. injection Fb as <-. cbn [nth] in F.
  replace (b0 + 2 =? b0 + 1 + 1) with true in F by (symmetry; apply Nat.eqb_eq; lia). congruence.
Qed.
Print Assumptions net_glitch_refuted.

(** A function that raises stops the streams made later on the same input: stream 2 keeps the image of 1 though its input is
    2 and its own function never raises; the streams before it are right. *)
Theorem net_raise_refuted : exists (h : list (nop nat)) s t,
  n_run nneq 9 [] h = (s, t) /\ value s 0 = Some 2 /\ value s 2 = Some 101 /\ means s 2 102.
Proof.
  exists [MakeVal 1; MakeMap 0 (fun x => if x =? 2 then Err HandlerError else Ok x); MakeMap 0 (fun x => Ok (x + 100)); SetVal 0 2].
  eexists. eexists. split; [vm_compute; reflexivity|]. split; [reflexivity|]. split; [reflexivity|].
  eapply means_map; [reflexivity| |]; [eapply means_val; reflexivity|reflexivity].
Qed.
Print Assumptions net_raise_refuted.
