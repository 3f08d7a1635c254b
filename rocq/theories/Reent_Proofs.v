(** Lemmas about observers that change the observed object again. *)
From Coq Require Import List ZArith Bool Arith Lia Permutation.
From Verif Require Import PyBase ListModel_Model ListModel_Spec Reent_Model Reent_Spec.
Import ListNotations.
Open Scope nat_scope.

Section Tree.
  Context {Op : Type} (P : tree Op -> Prop).
  Hypothesis H : forall o react, Forall (Forall P) react -> P (Node o react).
  Fixpoint tree_ind' (t : tree Op) : P t :=
    match t with
    | Node o react =>
        H o react ((fix go (rs : list (list (tree Op))) : Forall (Forall P) rs :=
                      match rs with
                      | [] => Forall_nil _
                      | r :: rs' => Forall_cons r ((fix go' (ts : list (tree Op)) : Forall P ts :=
                                                      match ts with
                                                      | [] => Forall_nil _
                                                      | t' :: ts' => Forall_cons t' (tree_ind' t') (go' ts')
                                                      end) r) (go rs')
                      end) react)
    end.
End Tree.

Section Reent.
  Context {St Op Note : Type} (step : St -> Op -> option (St * Note)) (n : nat).
  Notation run := (r_run step n).
  Notation evs := (list (rnev St Note)).

  Fixpoint r_go (x : Note) (j : nat) (rs : list (list (tree Op))) (w : St * evs) {struct rs} : St * evs :=
    match rs with
    | [] => fold_left (fun w j => r_call j x w) (seq j (n - j)) w
    | r :: rs' => if Nat.ltb j n then r_go x (S j) rs' (fold_left (fun w t => run t w) r (r_call j x w)) else w
    end.
  Lemma r_run_node o react w : run (Node o react) w =
    match step (fst w) o with None => w | Some (s', x) => r_go x 0 react (s', snd w ++ [EEdit x s']) end.
  Proof. cbn [r_run]. destruct (step (fst w) o) as [[s' x]|]; [|reflexivity]. generalize (s', snd w ++ [EEdit x s']), 0. induction react as [|r react IH]; intros w' j; [reflexivity|]; cbn [r_go]. destruct (Nat.ltb j n); [apply IH|reflexivity]. Qed.

  Section Ind.
    Variable q : nat.
    Variable P : St -> evs -> St -> Prop.
    Variable Q : nat -> Note -> St -> evs -> St -> Prop.
    Hypothesis P_nil : forall s, P s [] s.
    Hypothesis P_app : forall s d1 s1 d2 s2, P s d1 s1 -> P s1 d2 s2 -> P s (d1 ++ d2) s2.
    Hypothesis P_edit : forall s o s1 x d s', step s o = Some (s1, x) -> Q 0 x s1 d s' -> P s (EEdit x s1 :: d) s'.
    Hypothesis Q_end : forall j x s, n <= j -> Q j x s [] s.
    Hypothesis Q_call : forall j x s d1 s1 d2 s2, j < n -> P s d1 s1 -> (j < q -> d1 = [] /\ s1 = s) -> Q (S j) x s1 d2 s2 ->
      Q j x s (ECall j x s :: d1 ++ d2) s2.

    Lemma forest_ind ts : Forall (fun t => quiet q t -> forall s log, exists d s', run t (s, log) = (s', log ++ d) /\ P s d s') ts ->
      Forall (quiet q) ts -> forall s log, exists d s', fold_left (fun w t => run t w) ts (s, log) = (s', log ++ d) /\ P s d s'.
    Proof.
      induction 1 as [|t ts H _ IH]; intros F s log; cbn.
      - exists [], s. rewrite app_nil_r. auto.
      - inversion F as [|? ? F1 F2]; subst. destruct (H F1 s log) as (d1 & s1 & -> & H1).
        destruct (IH F2 s1 (log ++ d1)) as (d2 & s2 & -> & H2). exists (d1 ++ d2), s2. rewrite app_assoc. eauto.
    Qed.
    Lemma pad_ind x k : forall j s log, n - j = k -> exists d s', fold_left (fun w j => r_call j x w) (seq j k) (s, log) = (s', log ++ d) /\ Q j x s d s'.
    Proof.
      induction k as [|k IH]; intros j s log E; cbn.
      - exists [], s. rewrite app_nil_r. split; [reflexivity|]. apply Q_end. lia.
      - unfold r_call at 2. cbn [fst snd]. destruct (IH (S j) s (log ++ [ECall j x s]) ltac:(lia)) as (d & s' & -> & H).
        exists (ECall j x s :: [] ++ d), s'. rewrite <- app_assoc. split; [reflexivity|]. eapply Q_call; eauto. lia.
    Qed.
    Lemma go_ind x rs : Forall (Forall (fun t => quiet q t -> forall s log, exists d s', run t (s, log) = (s', log ++ d) /\ P s d s')) rs ->
      forall j, (forall k r, j + k < q -> nth_error rs k = Some r -> r = []) -> Forall (Forall (quiet q)) rs ->
      forall s log, exists d s', r_go x j rs (s, log) = (s', log ++ d) /\ Q j x s d s'.
    Proof.
      induction 1 as [|r rs H _ IH]; intros j Z F s log; cbn [r_go].
      - now apply pad_ind.
      - inversion F as [|? ? F1 F2]; subst. destruct (Nat.ltb_spec j n) as [L|L].
        + unfold r_call. cbn [fst snd]. destruct (forest_ind r H F1 s (log ++ [ECall j x s])) as (d1 & s1 & E1 & H1).
          rewrite E1. destruct (IH (S j) ltac:(intros k r0 K; apply (Z (S k)); lia) F2 s1 ((log ++ [ECall j x s]) ++ d1)) as (d2 & s2 & -> & H2).
          exists (ECall j x s :: d1 ++ d2), s2. rewrite <- !app_assoc. split; [reflexivity|]. eapply Q_call; eauto.
          intros K. assert (X : r = []) by (apply (Z 0); [lia|reflexivity]). subst r. cbn in E1. injection E1 as -> E1.
          rewrite <- (app_nil_r (log ++ [_])) in E1 at 1. apply app_inv_head in E1. auto.
        + exists [], s. rewrite app_nil_r. auto.
    Qed.
    Lemma run_ind t : quiet q t -> forall s log, exists d s', run t (s, log) = (s', log ++ d) /\ P s d s'.
    Proof.
      induction t as [o react IH] using tree_ind'. intros Z s log. rewrite r_run_node. cbn [fst snd].
      destruct (step s o) as [[s1 x]|] eqn:E.
      - inversion Z as [? ? Z1 Z2]; subst. destruct (go_ind x react IH 0 Z1) with (s := s1) (log := log ++ [EEdit x s1]) as (d & s' & -> & H).
        + apply Forall_forall. intros r R. apply Forall_forall. intros t T. eapply Z2; eauto.
        + exists (EEdit x s1 :: d), s'. rewrite <- app_assoc. split; [reflexivity|]. eauto.
      - exists [], s. rewrite app_nil_r. auto.
    Qed.
    Lemma runs_ind ts s : Forall (quiet q) ts -> P s (snd (r_runs step n ts s)) (fst (r_runs step n ts s)).
    Proof.
      intros F. destruct (forest_ind ts) with (s := s) (log := @nil (rnev St Note)) as (d & s' & E & H); auto.
      - apply Forall_forall. intros t _. apply run_ind.
      - unfold r_runs. rewrite E. exact H.
    Qed.
  End Ind.
  Lemma quiet_0 (t : tree Op) : quiet 0 t.
  Proof.
    induction t as [o react IH] using tree_ind'. constructor; [intros; lia|]. intros r t R T.
    rewrite Forall_forall in IH. specialize (IH r R). rewrite Forall_forall in IH. auto.
  Qed.
  Lemma quiet_0_all (ts : list (tree Op)) : Forall (quiet 0) ts.
  Proof. apply Forall_forall. intros. apply quiet_0. Qed.

  Lemma edits_app (a b : evs) : edits (a ++ b) = edits a ++ edits b.
  Proof. induction a as [|[] a IH]; cbn; auto. now rewrite IH. Qed.
  Lemma told_app j (a b : evs) : told j (a ++ b) = told j a ++ told j b.
  Proof. induction a as [|[] a IH]; cbn; auto. destruct (Nat.eqb _ _); cbn; now rewrite IH. Qed.

  (** every listener is told everything once *)
  Lemma runs_once j ts s : j < n -> Permutation (edits (snd (r_runs step n ts s))) (told j (snd (r_runs step n ts s))).
  Proof.
    intros J. pattern s, (snd (r_runs step n ts s)), (fst (r_runs step n ts s)).
    refine (runs_ind 0 (fun _ d _ => Permutation (edits d) (told j d))
             (fun k x _ d _ => Permutation (if Nat.leb k j then x :: edits d else edits d) (told j d)) _ _ _ _ _ ts s (quiet_0_all ts)).
    - constructor.
    - intros. rewrite edits_app, told_app. now apply Permutation_app.
    - intros s0 o s1 x d s' _ H. cbn. assumption.
    - intros k x s0 K. destruct (Nat.leb_spec k j); [lia|constructor].
    - intros k x s0 d1 s1 d2 s2 K H1 _ H2. cbn [edits told]. rewrite edits_app, told_app.
      destruct (Nat.leb_spec k j) as [L|L], (Nat.leb_spec (S k) j) as [L'|L'], (Nat.eqb_spec k j) as [E|E]; try lia.
      + rewrite Permutation_middle. now apply Permutation_app.
      + constructor. now apply Permutation_app.
      + now apply Permutation_app.
  Qed.

  (** ** the last call *)
  Definition mentions (j : nat) (d : evs) : Prop := exists x s, In (ECall j x s) d.
  Definition last_right (j : nat) (s' : St) (d : evs) : Prop := exists a x b, d = a ++ ECall j x s' :: b /\ ~ mentions j b.
  Lemma mentions_app j a b : mentions j (a ++ b) <-> mentions j a \/ mentions j b.
  Proof. unfold mentions. split; [intros (x & s & H); apply in_app_iff in H as [H|H]; eauto|intros [(x & s & H)|(x & s & H)]; exists x, s; apply in_or_app; auto]. Qed.
  Lemma last_right_app j s' a d : last_right j s' d -> last_right j s' (a ++ d).
  Proof. intros (a1 & x & b & -> & H). exists (a ++ a1), x, b. rewrite <- app_assoc. auto. Qed.
  Lemma last_right_tail j s' d b : last_right j s' d -> ~ mentions j b -> last_right j s' (d ++ b).
  Proof. intros (a1 & x & c & -> & H) N. exists a1, x, (c ++ b). rewrite <- app_assoc. split; [reflexivity|]. rewrite mentions_app. tauto. Qed.
  Lemma runs_last j ts s : j < n -> let w := r_runs step n ts s in (snd w = [] /\ fst w = s) \/ last_right j (fst w) (snd w).
  Proof.
    intros J. cbn zeta.
    refine (runs_ind 0 (fun s d s' => (d = [] /\ s' = s) \/ last_right j s' d)
             (fun k x s d s' => last_right j s' d \/ (j < k /\ s' = s /\ ~ mentions j d)) _ _ _ _ _ ts s (quiet_0_all ts)).
    - auto.
    - intros s0 d1 s1 d2 s2 H1 [(-> & ->)|H2]; [rewrite app_nil_r; assumption|]. right. now apply last_right_app.
    - intros s0 o s1 x d s' _ [H|(H & _)]; [|lia]. right. apply (last_right_app j s' [_]). assumption.
    - intros k x s0 K. right. split; [lia|]. split; [reflexivity|]. intros (? & ? & []).
    - intros k x s0 d1 s1 d2 s2 K H1 _ [H2|(L & -> & N)].
      + left. apply (last_right_app j s2 (_ :: d1)). assumption.
      + destruct H1 as [(-> & ->)|H1]; [|left; apply (last_right_app j s1 [_]); now apply last_right_tail].
        destruct (Nat.eq_dec k j) as [->|E].
        * left. exists [], x, d2. auto.
        * right. split; [lia|]. split; [reflexivity|]. cbn. intros (y & z & [H|H]); [congruence|]. apply N. exists y, z. assumption.
  Qed.

  (** ** a listener behind quiet ones *)
  Inductive phase (j : nat) : St -> evs -> St -> Prop :=
  | ph_nil s : phase j s [] s
  | ph_other k x s0 s d s' : k <> j -> phase j s d s' -> phase j s (ECall k x s0 :: d) s'
  | ph_edit s o s1 x c d s' : step s o = Some (s1, x) -> ~ mentions j c -> edits c = [] -> phase j s1 d s' ->
      phase j s (EEdit x s1 :: c ++ ECall j x s1 :: d) s'.
  Lemma phase_app j s d1 s1 d2 s2 : phase j s d1 s1 -> phase j s1 d2 s2 -> phase j s (d1 ++ d2) s2.
  Proof.
    induction 1 as [| |s o s1 x c d s' E M C H IH]; intros K; cbn; auto; [constructor; auto|].
    rewrite <- app_assoc. cbn. eapply ph_edit; eauto.
  Qed.
  Lemma runs_phase j ts s : j < n -> Forall (quiet j) ts -> phase j s (snd (r_runs step n ts s)) (fst (r_runs step n ts s)).
  Proof.
    intros J F. refine (runs_ind j (phase j)
      (fun k x s d s' => (k <= j /\ exists c d', d = c ++ ECall j x s :: d' /\ ~ mentions j c /\ edits c = [] /\ phase j s d' s') \/ (j < k /\ phase j s d s')) _ _ _ _ _ ts s F).
    - constructor.
    - intros. eapply phase_app; eauto.
    - intros s0 o s1 x d s' E [(_ & c & d' & -> & M & C & H)|(H & _)]; [|lia]. eapply ph_edit; eauto.
    - intros k x s0 K. right. split; [lia|constructor].
    - intros k x s0 d1 s1 d2 s2 K H1 Z H2. destruct (lt_eq_lt_dec k j) as [[L|L]|L].
      + destruct (Z L) as (-> & ->). destruct H2 as [(_ & c & d' & -> & M & C & H)|(H & _)]; [|lia]. left. split; [lia|].
        exists (ECall k x s0 :: c), d'. repeat split; auto. intros (y & z & [Y|Y]); [injection Y as Y; lia|]. apply M. exists y, z. assumption.
      + subst k. left. split; [lia|]. destruct H2 as [(H & _)|(_ & H)]; [lia|]. exists [], (d1 ++ d2). repeat split; auto.
        * intros (y & z & []).
        * eapply phase_app; eauto.
      + right. split; [assumption|]. destruct H2 as [(H & _)|(_ & H)]; [lia|]. constructor; [lia|]. eapply phase_app; eauto.
  Qed.
  Lemma not_mentions_told j c : ~ mentions j c -> told j c = [].
  Proof.
    induction c as [|[x s|k x s] c IH]; intros M; cbn; auto.
    - apply IH. intros (y & z & H). apply M. exists y, z. now right.
    - destruct (Nat.eqb_spec k j) as [->|E]; [exfalso; apply M; exists x, s; now left|]. apply IH. intros (y & z & H). apply M. exists y, z. now right.
  Qed.
  Section Tracks.
    Variable apply : St -> Note -> St -> Prop.
    Hypothesis apply_ok : forall s o s1 x, step s o = Some (s1, x) -> apply s x s1.
    Lemma phase_tracks j s d s' : phase j s d s' -> tracks apply s (told j d) s' /\ told j d = edits d.
    Proof.
      induction 1 as [| k x s0 s d s' E H IH|s o s1 x c d s' E M C H (IH1 & IH2)].
      - split; constructor.
      - cbn. destruct (Nat.eqb_spec k j); [contradiction|]. assumption.
      - cbn. rewrite told_app, edits_app, (not_mentions_told j c M), C. cbn. rewrite Nat.eqb_refl. split; [econstructor; eauto|now rewrite IH2].
    Qed.
    Lemma phase_split j s d s' : phase j s d s' -> forall a x s1 b, d = a ++ ECall j x s1 :: b ->
      tracks apply s (told j a ++ [x]) s1 /\ told j a ++ [x] = edits a.
    Proof.
      induction 1 as [| k y s0 s d s' E H IH|s o s2 y c d s' E M C H IH]; intros a x s1 b X.
      - destruct a; discriminate.
      - destruct a as [|e a]; [injection X as X _ _; congruence|]. injection X as <- X. cbn. destruct (Nat.eqb_spec k j); [contradiction|]. eauto.
      - destruct a as [|e a]; [discriminate|]. injection X as <- X. cbn. revert M C.
        revert a X. induction c as [|e c IHc]; intros a X M C.
        + cbn in X. destruct a as [|e a].
          * injection X as <- <- <-. cbn. split; [|reflexivity]. econstructor; [eauto|constructor].
          * injection X as <- X. cbn. rewrite Nat.eqb_refl. destruct (IH a x s1 b X) as (H1 & H2). split; [econstructor; eauto|]. now rewrite <- H2.
        + destruct a as [|e' a].
          * injection X as -> X. exfalso. apply M. exists x, s1. now left.
          * injection X as <- X. destruct e as [z t|k z t]; [discriminate|]. cbn. destruct (Nat.eqb_spec k j) as [->|E'].
            -- exfalso. apply M. exists z, t. now left.
            -- apply IHc; auto. intros (z' & t' & Y). apply M. exists z', t'. now right.
    Qed.
  End Tracks.
End Reent.
