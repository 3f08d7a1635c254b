From Coq Require Import List ZArith Bool Arith Permutation Lia.
From Verif Require Import PyBase Mapped_Model Mapped_Spec.
Import ListNotations.

Lemma py_del_both {A B} (l : list A) (m : list B) i : length l = length m ->
  (py_del l i = Err IndexError /\ py_del m i = Err IndexError /\ py_get m i = Err IndexError) \/
  exists l1 x l2 m1 y m2, l = l1 ++ x :: l2 /\ m = m1 ++ y :: m2 /\ length l1 = length m1 /\
    py_index (length l) i = Some (length l1) /\
    py_del l i = Ok (l1 ++ l2) /\ py_del m i = Ok (m1 ++ m2) /\ py_get m i = Ok y.
Proof.
  intros H. unfold py_del, py_get. rewrite <- H. destruct (py_index (length l) i) as [k|] eqn:E; [|auto].
  right. apply py_index_lt in E as Hk.
  destruct (nth_error l k) as [x|] eqn:E1; [|apply nth_error_None in E1; lia].
  destruct (nth_error m k) as [y|] eqn:E2; [|apply nth_error_None in E2; lia].
  apply nth_error_split in E1 as (l1 & l2 & -> & H1). apply nth_error_split in E2 as (m1 & m2 & -> & H2).
  exists l1, x, l2, m1, y, m2. subst k. rewrite delete_at_app, <- H2, delete_at_app.
  repeat split; congruence.
Qed.

Lemma py_insert_both {A B} (l : list A) (m : list B) i x y : length l = length m ->
  exists l1 l2 m1 m2, l = l1 ++ l2 /\ m = m1 ++ m2 /\ length l1 = length m1 /\ py_insert_pos (length l) i = length l1 /\
    py_insert i x l = l1 ++ x :: l2 /\ py_insert i y m = m1 ++ y :: m2.
Proof.
  intros H. unfold py_insert. rewrite <- H. pose proof (py_insert_pos_le (length l) i) as Hk.
  set (k := py_insert_pos (length l) i) in *.
  destruct (split_at l k Hk) as (l1 & l2 & -> & H1). destruct (split_at m k ltac:(lia)) as (m1 & m2 & -> & H2).
  exists l1, l2, m1, m2. rewrite <- H1, insert_at_app. rewrite H1, <- H2, insert_at_app. repeat split; congruence.
Qed.

Lemma Forall2_app_inv_len {A B} (R : A -> B -> Prop) l1 l2 m1 m2 :
  length l1 = length m1 -> Forall2 R (l1 ++ l2) (m1 ++ m2) -> Forall2 R l1 m1 /\ Forall2 R l2 m2.
Proof.
  revert m1. induction l1 as [|a l1 IH]; intros [|b m1] Hl H; simpl in *; try discriminate; [auto|].
  inversion H; subst. destruct (IH m1) as [H1 H2]; [lia|assumption|]. auto.
Qed.

Lemma Forall2_weaken {A B} (R S : A -> B -> Prop) l m : (forall a b, R a b -> S a b) -> Forall2 R l m -> Forall2 S l m.
Proof. intros H. induction 1; constructor; auto. Qed.

Lemma last_index' n : py_index (S n) (Z.of_nat (S n) - 1) = Some n.
Proof. replace (Z.of_nat (S n) - 1)%Z with (Z.of_nat n) by lia. apply py_index_nat. lia. Qed.

Section M.
  Context {A B : Type} (mapf : nat -> A -> B).
  Notation mstate := (mstate A B).
  Notation mev := (mev A B).

  Lemma m_observes_app (t1 t2 : list mev) l l1 l2 : m_observes l t1 l1 -> m_observes l1 t2 l2 -> m_observes l (t1 ++ t2) l2.
  Proof.
    revert l. induction t1 as [|e t1 IH]; simpl; intros l H1 H2; [subst; exact H2|].
    destruct e; try (apply IH; assumption). destruct H1 as (Hg & l0 & Hd & H1). split; [exact Hg|]. exists l0. auto.
  Qed.
  Lemma map_calls_app (t1 t2 : list mev) : map_calls (t1 ++ t2) = map_calls t1 ++ map_calls t2.
  Proof. induction t1 as [|e t1 IH]; simpl; [reflexivity|]. destruct e; simpl; rewrite IH; reflexivity. Qed.
  Lemma unmapped_app (t1 t2 : list mev) : unmapped (t1 ++ t2) = unmapped t1 ++ unmapped t2.
  Proof. induction t1 as [|e t1 IH]; simpl; [reflexivity|]. destruct e; simpl; rewrite IH; reflexivity. Qed.
  Lemma m_removed_values_app (t1 t2 : list mev) : m_removed_values (t1 ++ t2) = m_removed_values t1 ++ m_removed_values t2.
  Proof. induction t1 as [|e t1 IH]; simpl; [reflexivity|]. destruct e; simpl; rewrite IH; reflexivity. Qed.
  Lemma alternating_app (t1 t2 : list mev) b b1 : alternating b t1 = Some b1 -> alternating b (t1 ++ t2) = alternating b1 t2.
  Proof.
    revert b. induction t1 as [|e t1 IH]; simpl; intros b H; [congruence|].
    destruct e; try (apply IH; assumption); destruct b; try discriminate; apply IH; assumption.
  Qed.

  (** Facts about a stretch of execution from items l with n calls made, to l' with n' calls *)
  Record stretch (l : list B) (n : nat) (tr : list mev) (l' : list B) (n' : nat) (ins : list A) : Prop := {
    st_obs : m_observes l tr l';
    st_calls : map_calls tr = combine (combine (seq n (length ins)) ins) (map (fun p => mapf (fst p) (snd p)) (combine (seq n (length ins)) ins));
    st_n : n' = n + length ins;
    st_bal : Permutation (l ++ map snd (map_calls tr)) (l' ++ unmapped tr);
    st_un : unmapped tr = m_removed_values tr
  }.

  Lemma stretch_nil l n : stretch l n [] l n [].
  Proof. split; simpl; auto. all: rewrite ?app_nil_r; auto. Qed.

  Lemma combine_app {X Y} (a1 a2 : list X) (b1 b2 : list Y) : length a1 = length b1 ->
    combine (a1 ++ a2) (b1 ++ b2) = combine a1 b1 ++ combine a2 b2.
  Proof. revert b1. induction a1 as [|x a1 IH]; intros [|y b1] H; simpl in *; try discriminate; [reflexivity|]. rewrite IH by lia. reflexivity. Qed.

  Lemma stretch_app l n t1 l1 n1 i1 t2 l2 n2 i2 :
    stretch l n t1 l1 n1 i1 -> stretch l1 n1 t2 l2 n2 i2 -> stretch l n (t1 ++ t2) l2 n2 (i1 ++ i2).
  Proof.
    intros [O1 C1 N1 B1 U1] [O2 C2 N2 B2 U2]. split.
    - eapply m_observes_app; eassumption.
    - rewrite map_calls_app, C1, C2, N1. rewrite app_length, seq_app.
      rewrite (combine_app (seq n (length i1))) by (rewrite seq_length; reflexivity).
      rewrite map_app. symmetry. apply combine_app. rewrite map_length. reflexivity.
    - rewrite app_length. lia.
    - rewrite map_calls_app, map_app, unmapped_app. rewrite app_assoc, B1.
      rewrite <- app_assoc. rewrite (Permutation_app_comm (unmapped t1)). rewrite app_assoc, B2, <- app_assoc.
      apply Permutation_app_head. apply Permutation_app_comm.
    - rewrite unmapped_app, m_removed_values_app. congruence.
  Qed.

  Definition quiet (tr : list mev) : Prop := forall b, alternating b tr = Some b.
  Lemma quiet_app t1 t2 : quiet t1 -> quiet t2 -> quiet (t1 ++ t2).
  Proof. intros H1 H2 b. rewrite (alternating_app _ _ _ b) by apply H1. apply H2. Qed.

  Lemma m_inserted_stretch (s : mstate) x i s' tr :
    m_inserted mapf s x i = (s', tr) ->
    stretch (ms_items s) (ms_calls s) tr (ms_items s') (ms_calls s') [x] /\ quiet tr /\
    ms_cont s' = ms_cont s /\ ms_level s' = ms_level s /\
    ms_items s' = py_insert i (mapf (ms_calls s) x) (ms_items s).
  Proof.
    unfold m_inserted. intros [= <- <-]. simpl. split; [|repeat split].
    split; simpl; auto; [lia|].
    destruct (py_insert_both (ms_items s) (ms_items s) i (mapf (ms_calls s) x) (mapf (ms_calls s) x) eq_refl) as (l1 & l2 & _ & _ & E & _ & _ & _ & -> & _).
    rewrite E, app_nil_r, <- app_assoc. apply Permutation_app_head. symmetry. apply Permutation_cons_append.
  Qed.

  Lemma m_removed_stretch (s : mstate) i l1 b l2 s' tr e :
    m_removed s i = (s', tr, e) -> ms_items s = l1 ++ b :: l2 -> py_index (length (ms_items s)) i = Some (length l1) ->
    e = None /\ stretch (ms_items s) (ms_calls s) tr (ms_items s') (ms_calls s') [] /\ quiet tr /\
    ms_cont s' = ms_cont s /\ ms_level s' = ms_level s /\ ms_items s' = l1 ++ l2 /\ tr = [MUnmap b; MRem b i; MSelRem i].
  Proof.
    unfold m_removed. intros E Ei Hi.
    assert (Hg : py_get (ms_items s) i = Ok b).
    { unfold py_get. rewrite Hi, Ei, nth_error_app2, Nat.sub_diag by lia. reflexivity. }
    assert (Hd : py_del (ms_items s) i = Ok (l1 ++ l2)).
    { unfold py_del. rewrite Hi, Ei, delete_at_app. reflexivity. }
    rewrite Hg, Hd in E. injection E as <- <- <-. simpl. split; [reflexivity|]. split; [|repeat split].
    split; simpl; auto.
    - split; [exact Hg|]. exists (l1 ++ l2). auto.
    - rewrite app_nil_r, Ei, <- app_assoc. apply Permutation_app_head. apply Permutation_cons_append.
  Qed.

  Lemma m_remove_loop_stretch xs : forall (s : mstate) s' tr e,
    m_remove_loop xs s = (s', tr, e) -> length (ms_items s) = length xs ->
    e = None /\ stretch (ms_items s) (ms_calls s) tr [] (ms_calls s') [] /\ quiet tr /\ ms_items s' = [] /\
    ms_cont s' = ms_cont s /\ ms_level s' = ms_level s.
  Proof.
    induction xs as [|x xs IH]; intros s s' tr e; cbn [m_remove_loop].
    - intros [= <- <- <-] Hl. destruct (ms_items s); [|discriminate]. repeat split; auto. all: simpl; auto.
    - intros E Hl. assert (Hne : ms_items s <> []) by (intros H; rewrite H in Hl; discriminate).
      destruct (exists_last Hne) as (l1 & b & Eb).
      destruct (m_removed s _) as [[s1 t1] e1] eqn:E1.
      destruct (m_removed_stretch s _ l1 b [] _ _ _ E1 Eb) as (-> & S1 & Q1 & C1 & L1 & I1 & _).
      { rewrite Eb, app_length. simpl. rewrite Nat.add_1_r. apply last_index'. }
      destruct (m_remove_loop xs s1) as [[s2 t2] e2] eqn:E2. injection E as <- <- <-.
      rewrite app_nil_r in I1. destruct (IH _ _ _ _ E2) as (-> & S2 & Q2 & I2 & C2 & L2).
      { rewrite Eb, app_length in Hl. simpl in Hl. rewrite I1. lia. }
      split; [reflexivity|]. split; [eapply (stretch_app _ _ _ _ _ [] _ _ _ []); eassumption|].
      split; [apply quiet_app; assumption|]. split; [exact I2|]. split; congruence.
  Qed.

  Lemma m_insert_loop_stretch xs : forall idx (s : mstate) s' tr,
    m_insert_loop mapf xs idx s = (s', tr) -> length (ms_items s) = idx ->
    stretch (ms_items s) (ms_calls s) tr (ms_items s') (ms_calls s') xs /\ quiet tr /\
    ms_cont s' = ms_cont s /\ ms_level s' = ms_level s /\
    ms_items s' = ms_items s ++ map (fun p => mapf (fst p) (snd p)) (combine (seq (ms_calls s) (length xs)) xs).
  Proof.
    induction xs as [|x xs IH]; intros idx s s' tr; cbn [m_insert_loop].
    - intros [= <- <-] _. simpl. rewrite app_nil_r. split; [apply stretch_nil|]. repeat split.
    - intros E Hl. destruct (m_inserted mapf s x (Z.of_nat idx)) as [s1 t1] eqn:E1.
      destruct (m_inserted_stretch _ _ _ _ _ E1) as (S1 & Q1 & C1 & L1 & I1).
      assert (I1' : ms_items s1 = ms_items s ++ [mapf (ms_calls s) x]).
      { rewrite I1. unfold py_insert. rewrite py_insert_pos_nat by lia. rewrite <- Hl.
        rewrite <- (app_nil_r (ms_items s)) at 2. rewrite insert_at_app. reflexivity. }
      destruct (m_insert_loop mapf xs (S idx) s1) as [s2 t2] eqn:E2. injection E as <- <-.
      destruct (IH _ _ _ _ E2) as (S2 & Q2 & C2 & L2 & I2).
      { rewrite I1', app_length. simpl. lia. }
      split; [apply (stretch_app _ _ _ _ _ [x] _ _ _ xs S1 S2)|].
      split; [apply quiet_app; assumption|]. split; [congruence|]. split; [congruence|].
      destruct S1 as [_ _ N1 _ _]. rewrite I2, I1', N1, <- app_assoc. simpl. rewrite Nat.add_1_r. reflexivity.
  Qed.

  (** the invariant: the item at each position was made by a map call on the container item there *)
  Definition made (calls : list (nat * A * B)) (a : A) (b : B) : Prop := exists n, In (n, a, b) calls.

  Lemma made_mono c1 c2 a b : made c1 a b -> made (c1 ++ c2) a b.
  Proof. intros [n H]. exists n. apply in_app_iff. auto. Qed.

  Lemma combine_map_in {X Y} (f : X -> Y) l x y : In (x, y) (combine l (map f l)) -> y = f x.
  Proof. induction l as [|a l IH]; simpl; [tauto|]. intros [[= <- <-]|H]; auto. Qed.

  Lemma m_step_lemma (s : mstate) o s' tr e :
    m_step mapf s o = (s', tr, e) -> length (m_contents s) = length (ms_items s) ->
    length (m_contents s') = length (ms_items s') /\
    (exists ins, stretch (ms_items s) (ms_calls s) tr (ms_items s') (ms_calls s') ins /\
       forall h, entered (ms_cont s) (o :: h) = ins ++ entered (ms_cont s') h) /\
    (forall calls, Forall2 (made calls) (m_contents s) (ms_items s) ->
       Forall2 (made (calls ++ map_calls tr)) (m_contents s') (ms_items s')) /\
    (o <> MBeginChange -> o <> MEndChange -> quiet tr /\ ms_level s' = ms_level s).
  Proof.
    intros E Hl.
    assert (Same : s' = s -> tr = [] -> (forall h, entered (ms_cont s) (o :: h) = entered (ms_cont s) h) ->
      length (m_contents s') = length (ms_items s') /\
      (exists ins, stretch (ms_items s) (ms_calls s) tr (ms_items s') (ms_calls s') ins /\
         forall h, entered (ms_cont s) (o :: h) = ins ++ entered (ms_cont s') h) /\
      (forall calls, Forall2 (made calls) (m_contents s) (ms_items s) ->
         Forall2 (made (calls ++ map_calls tr)) (m_contents s') (ms_items s')) /\
      (o <> MBeginChange -> o <> MEndChange -> quiet tr /\ ms_level s' = ms_level s)).
    { intros -> -> He. split; [exact Hl|]. split; [exists []; split; [apply stretch_nil|exact He]|].
      split; [intros calls H; simpl; rewrite app_nil_r; exact H|]. intros _ _. split; [intros b; reflexivity|reflexivity]. }
    destruct o as [i x|i|c| |]; cbn [m_step] in E.
    - destruct (ms_cont s) as [l|] eqn:Ec; [|injection E as <- <- <-; apply Same; auto; rewrite Ec; reflexivity].
      destruct (m_inserted mapf _ x i) as [s1 t1] eqn:E1. injection E as <- <- <-.
      destruct (m_inserted_stretch _ _ _ _ _ E1) as (S1 & Q1 & C1 & L1 & I1). cbn [ms_items ms_calls ms_cont ms_level] in *.
      unfold m_contents in *. rewrite Ec, C1 in *.
      destruct (py_insert_both l (ms_items s) i x (mapf (ms_calls s) x) Hl) as (l1 & l2 & m1 & m2 & El & Em & Hlen & _ & P1 & P2).
      rewrite P1, I1, P2. rewrite El, Em, !app_length in Hl. rewrite !app_length. simpl.
      split; [lia|]. split; [exists [x]; rewrite P2 in I1; rewrite I1 in S1; split; [exact S1|intros h; simpl; rewrite P1; reflexivity]|].
      split; [|intros _ _; split; [exact Q1|exact L1]].
      intros calls H. rewrite El, Em in H. apply Forall2_app_inv_len in H as [H1 H2]; [|exact Hlen].
      apply Forall2_app; [eapply Forall2_weaken; [|exact H1]; intros; apply made_mono; assumption|].
      constructor; [|eapply Forall2_weaken; [|exact H2]; intros; apply made_mono; assumption].
      exists (ms_calls s). apply in_app_iff. right. destruct S1 as [_ -> _ _ _]. left. reflexivity.
    - destruct (ms_cont s) as [l|] eqn:Ec; [|injection E as <- <- <-; apply Same; auto; rewrite Ec; reflexivity].
      unfold m_contents in Hl. rewrite Ec in Hl.
      destruct (py_del_both l (ms_items s) i Hl) as [(D1 & D2 & D3)|(l1 & x & l2 & m1 & b & m2 & El & Em & Hlen & Hidx & D1 & D2 & D3)].
      + rewrite D1 in E. injection E as <- <- <-. apply Same; auto. intros h. simpl. rewrite D1. reflexivity.
      + rewrite D1 in E. rewrite Hl, Hlen in Hidx.
        destruct (m_removed_stretch _ _ m1 b m2 _ _ _ E Em Hidx) as (-> & S1 & Q1 & C1 & L1 & I1 & _).
        cbn [ms_items ms_calls ms_cont ms_level] in *. unfold m_contents. rewrite Ec, C1, I1.
        rewrite El, Em, !app_length in Hl. simpl in Hl. rewrite !app_length. split; [lia|].
        split; [exists []; rewrite I1 in S1; split; [exact S1|intros h; simpl; rewrite D1; reflexivity]|].
        split; [|intros _ _; split; [exact Q1|exact L1]].
        intros calls H. rewrite El, Em in H. apply Forall2_app_inv_len in H as [H1 H2]; [|exact Hlen].
        inversion H2; subst. apply Forall2_app; (eapply Forall2_weaken; [|eassumption]; intros; apply made_mono; assumption).
    - unfold m_set_container in E.
      assert (At : forall s0 s1 t1, m_attach mapf s0 c = (s1, t1) -> ms_items s0 = [] ->
        length (m_contents s1) = length (ms_items s1) /\
        stretch [] (ms_calls s0) t1 (ms_items s1) (ms_calls s1) (match c with Some l => l | None => [] end) /\ quiet t1 /\
        ms_cont s1 = c /\ ms_level s1 = ms_level s0 /\
        (forall calls, Forall2 (made (calls ++ map_calls t1)) (m_contents s1) (ms_items s1))).
      { intros s0 s1 t1 Ea Hi. unfold m_attach in Ea. destruct c as [l|].
        - destruct (m_insert_loop_stretch _ _ _ _ _ Ea) as (S1 & Q1 & C1 & L1 & I1); [simpl; rewrite Hi; reflexivity|].
          cbn [ms_items ms_calls ms_cont ms_level] in *. unfold m_contents. rewrite C1. rewrite Hi in *.
          split; [rewrite I1; simpl; rewrite map_length, combine_length, seq_length; lia|].
          split; [exact S1|]. split; [exact Q1|]. split; [reflexivity|]. split; [exact L1|].
          intros calls. destruct S1 as [_ Cl _ _ _]. rewrite Cl, I1. simpl. clear.
          revert calls. generalize (ms_calls s0) as n. induction l as [|x l IH]; intros n calls; simpl; constructor.
          + exists n. apply in_app_iff. right. left. reflexivity.
          + specialize (IH (S n) (calls ++ [(n, x, mapf n x)])). rewrite <- app_assoc in IH. exact IH.
        - injection Ea as <- <-. simpl. rewrite Hi. split; [reflexivity|]. split; [apply stretch_nil|].
          split; [intros b; reflexivity|]. repeat split. intros calls. constructor. }
      destruct (ms_cont s) as [old|] eqn:Ec.
      + unfold m_contents in Hl. rewrite Ec in Hl.
        destruct (m_remove_loop (rev old) s) as [[s1 t1] e1] eqn:E1.
        destruct (m_remove_loop_stretch _ _ _ _ _ E1) as (-> & S1 & Q1 & I1 & C1 & L1); [rewrite rev_length; auto|].
        destruct (m_attach mapf s1 c) as [s2 t2] eqn:E2. injection E as <- <- <-.
        destruct (At _ _ _ E2 I1) as (G1 & G2 & G3 & G4 & G5 & G6).
        split; [exact G1|]. split.
        * eexists. split; [eapply (stretch_app _ _ _ _ _ []); eassumption|]. intros h. simpl. rewrite G4. reflexivity.
        * split; [intros calls _; rewrite map_calls_app, app_assoc; apply G6|]. intros _ _. split; [apply quiet_app; assumption|congruence].
      + unfold m_contents in Hl. rewrite Ec in Hl. assert (Hi : ms_items s = []) by (destruct (ms_items s); [reflexivity|discriminate]).
        destruct (m_attach mapf s c) as [s1 t1] eqn:E1. injection E as <- <- <-.
        destruct (At _ _ _ E1 Hi) as (G1 & G2 & G3 & G4 & G5 & G6).
        split; [exact G1|]. split; [eexists; split; [rewrite Hi; exact G2|intros h; simpl; rewrite G4; reflexivity]|].
        split; [intros calls _; apply G6|]. intros _ _. split; assumption.
    - injection E as <- <- <-. split; [exact Hl|]. split; [exists []|].
      + split; [|intros h; reflexivity]. destruct (ms_level s =? 0)%Z; split; simpl; auto. all: rewrite ?app_nil_r; auto.
      + split; [|congruence]. intros calls H. replace (map_calls _) with (@nil (nat * A * B)) by (destruct (ms_level s =? 0)%Z; reflexivity).
        rewrite app_nil_r. exact H.
    - injection E as <- <- <-. split; [exact Hl|]. split; [exists []|].
      + split; [|intros h; reflexivity]. destruct (ms_level s - 1 =? 0)%Z; split; simpl; auto. all: rewrite ?app_nil_r; auto.
      + split; [|congruence]. intros calls H. replace (map_calls _) with (@nil (nat * A * B)) by (destruct (ms_level s - 1 =? 0)%Z; reflexivity).
        rewrite app_nil_r. exact H.
  Qed.

  Lemma m_run_lemma h : forall (s : mstate) calls,
    length (m_contents s) = length (ms_items s) -> Forall2 (made calls) (m_contents s) (ms_items s) ->
    let '(s', tr) := m_run mapf s h in
    stretch (ms_items s) (ms_calls s) tr (ms_items s') (ms_calls s') (entered (ms_cont s) h) /\
    Forall2 (made (calls ++ map_calls tr)) (m_contents s') (ms_items s').
  Proof.
    induction h as [|o h IH]; intros s calls Hl HF; cbn [m_run].
    - split; [apply stretch_nil|]. simpl. rewrite app_nil_r. exact HF.
    - destruct (m_step mapf s o) as [[s1 t1] e1] eqn:E.
      destruct (m_step_lemma _ _ _ _ _ E Hl) as (Hl1 & (ins & S1 & He) & HF1 & _).
      specialize (IH s1 (calls ++ map_calls t1) Hl1 (HF1 _ HF)). destruct (m_run mapf s1 h) as [s2 t2].
      destruct IH as [S2 HF2]. split; [rewrite (He h); eapply stretch_app; eassumption|].
      rewrite map_calls_app, app_assoc. exact HF2.
  Qed.

  Lemma m_run_alternating h : forall (s : mstate) d d',
    length (m_contents s) = length (ms_items s) -> ms_level s = Z.of_nat d -> blocks d h = Some d' ->
    alternating (0 <? d) (snd (m_run mapf s h)) = Some (0 <? d') /\ ms_level (fst (m_run mapf s h)) = Z.of_nat d'.
  Proof.
    induction h as [|o h IH]; intros s d d' Hl Hlev Hb; cbn [m_run].
    - simpl in *. injection Hb as ->. auto.
    - destruct (m_step mapf s o) as [[s1 t1] e1] eqn:E.
      destruct (m_step_lemma _ _ _ _ _ E Hl) as (Hl1 & _ & _ & Hq).
      assert (G : o <> MBeginChange -> o <> MEndChange -> blocks d h = Some d' ->
        alternating (0 <? d) (snd (let '(s2, t2) := m_run mapf s1 h in (s2, t1 ++ t2))) = Some (0 <? d') /\
        ms_level (fst (let '(s2, t2) := m_run mapf s1 h in (s2, t1 ++ t2))) = Z.of_nat d').
      { intros H1 H2 H3. destruct (Hq H1 H2) as [Q L]. specialize (IH s1 d d' Hl1 ltac:(congruence) H3).
        destruct (m_run mapf s1 h) as [s2 t2]. simpl in *. rewrite (alternating_app _ _ _ (0 <? d)) by apply Q. exact IH. }
      destruct o; try (apply G; [discriminate|discriminate|exact Hb]).
      + simpl in Hb, E. injection E as <- <- <-. specialize (IH (Ms (ms_cont s) (ms_items s) (ms_calls s) (ms_level s + 1)) (S d) d' Hl ltac:(simpl; lia) Hb).
        destruct (m_run mapf _ h) as [s2 t2]. simpl in *. destruct (Z.eqb_spec (ms_level s) 0) as [Hz|Hz].
        * assert (d = 0) as -> by lia. simpl. exact IH.
        * destruct d as [|d]; [simpl in Hlev; lia|]. simpl. exact IH.
      + simpl in Hb, E. destruct d as [|d]; [discriminate|]. injection E as <- <- <-.
        specialize (IH (Ms (ms_cont s) (ms_items s) (ms_calls s) (ms_level s - 1)) d d' Hl ltac:(simpl; lia) Hb).
        destruct (m_run mapf _ h) as [s2 t2]. simpl in *. destruct (Z.eqb_spec (ms_level s - 1) 0) as [Hz|Hz].
        * assert (d = 0) as -> by lia. simpl. exact IH.
        * destruct d as [|d]; [simpl in Hlev; lia|]. simpl. exact IH.
  Qed.

  Lemma made_pure f calls a b : (forall n x, mapf n x = f x) ->
    (forall n x y, In (n, x, y) calls -> y = mapf n x) -> made calls a b -> b = f a.
  Proof. intros Hf Hc [n H]. rewrite (Hc _ _ _ H). apply Hf. Qed.

  Lemma stretch_calls l n tr l' n' ins k x y :
    stretch l n tr l' n' ins -> In (k, x, y) (map_calls tr) -> y = mapf k x.
  Proof.
    intros [_ Cl _ _ _] H. rewrite Cl in H. apply combine_map_in in H. exact H.
  Qed.
End M.
