(** Lemmas on making and releasing selections. *)
From stdpp Require Import gmap sets list.
From Coq Require Import Sorted Lia.
From Verif Require Import PyBase Selection_Model Selection_Spec Selection_Proofs SelRel_Model SelRel_Spec.
Local Open Scope nat_scope.

Lemma sel_eqb_spec s t : sel_eqb s t = true <-> s_indexes s = s_indexes t /\ s_anchor s = s_anchor t.
Proof. unfold sel_eqb. rewrite andb_true_iff, !bool_decide_eq_true. reflexivity. Qed.
Lemma matches_spec l i j : matches l i j = true <-> j = i \/ alike l j i.
Proof.
  unfold matches, alike. rewrite orb_true_iff, Nat.eqb_eq. destruct (l !! j) as [s|], (l !! i) as [t|]; rewrite ?sel_eqb_spec; split; intros [E|H]; auto; right.
  - exists s, t. tauto.
  - destruct H as (s' & t' & E1 & E2 & H). injection E1 as ->. injection E2 as ->. exact H.
  - discriminate.
  - destruct H as (s' & t' & E1 & E2 & H). discriminate.
  - discriminate.
  - destruct H as (s' & t' & E1 & E2 & H). discriminate.
  - discriminate.
  - destruct H as (s' & t' & E1 & E2 & H). discriminate.
Qed.
Lemma remove_first_some f l r : remove_first f l = Some r ->
  exists l1 j l2, l = l1 ++ j :: l2 /\ r = l1 ++ l2 /\ f j = true /\ (forall k, k ∈ l1 -> f k = false).
Proof.
  revert r. induction l as [|j l IH]; intros r; cbn [remove_first]; [discriminate|]. destruct (f j) eqn:F.
  - intros E. injection E as <-. exists [], j, l. repeat split; auto. intros k K. inversion K.
  - destruct (remove_first f l) as [r'|]; [|discriminate]. intros E. injection E as <-. destruct (IH r' eq_refl) as (l1 & j' & l2 & -> & -> & F' & N).
    exists (j :: l1), j', l2. repeat split; auto. intros k K. apply elem_of_cons in K as [->|K]; auto.
Qed.
Lemma remove_first_none f l : remove_first f l = None <-> forall k, k ∈ l -> f k = false.
Proof.
  induction l as [|j l IH]; cbn [remove_first]; [split; [intros _ k K; inversion K|auto]|]. destruct (f j) eqn:F.
  - split; [discriminate|]. intros H. rewrite (H j) in F; [discriminate|left].
  - destruct (remove_first f l).
    + split; [discriminate|]. intros H. exfalso. enough (Some l0 = None) by discriminate. apply IH. intros k K. apply H. right. exact K.
    + split; [|reflexivity]. intros _ k K. apply elem_of_cons in K as [->|K]; [exact F|]. apply IH; auto.
Qed.

Section A.
  Context {A : Type}.
  Implicit Types (h : list (rop A)) (st : lm) (o : rop A).

  Lemma rrun_app st h1 h2 : rrun st (h1 ++ h2) = rrun (rrun st h1) h2.
  Proof. apply fold_left_app. Qed.
  Lemma rrun_snoc st h o : rrun st (h ++ [o]) = (rstep (rrun st h) o).1.
  Proof. rewrite rrun_app. reflexivity. Qed.
  Lemma made_snoc n h o : made n (h ++ [o]) = match o with Make => S (made n h) | _ => made n h end.
  Proof. revert n. induction h as [|a h IH]; intros n; [destruct o; reflexivity|]. destruct a; cbn [app made]; apply IH. Qed.

  Lemma use_length (o : sop) l i : length (use o l i) = length l.
  Proof. apply alter_length. Qed.
  Lemma uses_length (o : sop) l is : length (fold_left (use o) is l) = length l.
  Proof. revert l. induction is as [|i is IH]; intros l; [reflexivity|]. cbn. rewrite IH. apply use_length. Qed.
  Lemma uses_lookup_out (o : sop) i is l : i ∉ is -> fold_left (use o) is l !! i = l !! i.
  Proof.
    revert l. induction is as [|j is IH]; intros l N; [reflexivity|]. apply not_elem_of_cons in N as [D N]. cbn. rewrite (IH _ N).
    apply list_lookup_alter_ne. congruence.
  Qed.
  Lemma uses_lookup_in (o : sop) i is l : NoDup is -> i ∈ is -> fold_left (use o) is l !! i = (fun s => (sel_step s o).1) <$> l !! i.
  Proof.
    revert l. induction is as [|j is IH]; intros l D M; [inversion M|]. apply NoDup_cons in D as [D1 D2]. cbn.
    destruct (decide (j = i)) as [->|E]; [rewrite (uses_lookup_out o i is _ D1); apply list_lookup_alter|].
    apply elem_of_cons in M as [M|M]; [congruence|]. rewrite (IH _ D2 M). f_equal. apply list_lookup_alter_ne. congruence.
  Qed.

  (** the list of selections is in the order they were made *)
  Definition wf st : Prop := StronglySorted lt (kept st) /\ forall i, i ∈ kept st -> i < length (objs st).
  Lemma sorted_app l1 l2 : StronglySorted lt (l1 ++ l2) <-> StronglySorted lt l1 /\ StronglySorted lt l2 /\ forall x y, x ∈ l1 -> y ∈ l2 -> x < y.
  Proof.
    induction l1 as [|a l1 IH]; cbn.
    - split; [intros H; repeat split; [constructor|exact H|intros x y X; inversion X]|tauto].
    - split.
      + intros H. apply StronglySorted_inv in H as [H F]. apply IH in H as (H1 & H2 & H3). rewrite Forall_forall in F. repeat split; [|exact H2|].
        * constructor; [exact H1|]. apply Forall_forall. intros x X. apply F. apply elem_of_app. auto.
        * intros x y X Y. apply elem_of_cons in X as [->|X]; [apply F, elem_of_app; auto|auto].
      + intros (H1 & H2 & H3). apply StronglySorted_inv in H1 as [H1 F]. rewrite Forall_forall in F. constructor.
        * apply IH. repeat split; auto. intros x y X Y. apply H3; [right; exact X|exact Y].
        * apply Forall_forall. intros x X. apply elem_of_app in X as [X|X]; [auto|apply H3; [left|exact X]].
  Qed.
  Lemma sorted_nodup l : StronglySorted lt l -> NoDup l.
  Proof.
    induction l as [|a l IH]; intros H; [constructor|]. apply StronglySorted_inv in H as [H F]. constructor; [|auto]. rewrite Forall_forall in F. intros M. apply F in M. lia.
  Qed.
  Lemma wf_nodup st : wf st -> NoDup (kept st).
  Proof. intros [H _]. apply sorted_nodup, H. Qed.
  Lemma wf_step st o : wf st -> wf (rstep st o).1.
  Proof.
    intros [S B]. destruct o as [|i|i o|e]; cbn [rstep].
    - split; cbn [fst kept objs].
      + apply sorted_app. repeat split; [exact S|repeat constructor|]. intros x y X Y. apply elem_of_list_singleton in Y as ->. apply B, X.
      + intros i M. rewrite app_length. cbn. apply elem_of_app in M as [M|M]; [apply B in M; lia|apply elem_of_list_singleton in M; lia].
    - destruct (remove_first _ _) as [r|] eqn:E; [|split; assumption]. apply remove_first_some in E as (l1 & j & l2 & E & -> & F & N). split; cbn [fst kept objs].
      + rewrite E in S. apply sorted_app in S as (S1 & S2 & S3). apply StronglySorted_inv in S2 as [S2 _]. apply sorted_app. repeat split; auto.
        intros x y X Y. apply S3; [exact X|right; exact Y].
      + intros k K. apply B. rewrite E. apply elem_of_app in K as [K|K]; apply elem_of_app; [left; exact K|right; right; exact K].
    - split; cbn [fst kept objs]; [exact S|]. rewrite use_length. exact B.
    - split; cbn [fst kept objs]; [exact S|]. rewrite uses_length. exact B.
  Qed.
  Lemma wf_run st h : wf st -> wf (rrun st h).
  Proof. revert st. induction h as [|o h IH]; intros st W; [exact W|]. apply IH, wf_step, W. Qed.
  Lemma wf_fresh given : wf (fresh given).
  Proof.
    split; cbn.
    - generalize 0 at 1. induction (length given) as [|n IH]; intros k; cbn [seq]; constructor; [apply IH|]. apply Forall_forall. intros x X. apply elem_of_seq in X. lia.
    - intros i I. apply elem_of_seq in I. lia.
  Qed.
  Lemma objs_made given h : length (objs (rrun (fresh given) h)) = made (length given) h.
  Proof.
    induction h as [|o h IH] using rev_ind; [reflexivity|]. rewrite rrun_snoc, made_snoc. destruct o as [|i|i o|e]; cbn [rstep].
    - cbn. rewrite app_length. cbn. lia.
    - destruct (remove_first _ _); exact IH.
    - cbn. rewrite use_length. exact IH.
    - cbn. rewrite uses_length. exact IH.
  Qed.

  (** what releasing a selection that follows does *)
  Lemma release_in st i : wf st -> i ∈ kept st -> exists l1 j l2,
    kept st = l1 ++ j :: l2 /\ rstep (A := A) st (Release i) = (LM (objs st) (l1 ++ l2), None) /\
    (j = i \/ j < i /\ alike (objs st) j i) /\ (forall k, k ∈ l1 -> k < i /\ ~ alike (objs st) k i).
  Proof.
    intros W M. cbn [rstep]. destruct (remove_first (matches (objs st) i) (kept st)) as [r|] eqn:E.
    - apply remove_first_some in E as (l1 & j & l2 & E & -> & F & N). exists l1, j, l2. split; [exact E|split; [reflexivity|]].
      assert (N' : forall k, k ∈ l1 -> k <> i /\ ~ alike (objs st) k i).
      { intros k K. specialize (N k K). assert (H : ~ (k = i \/ alike (objs st) k i)) by (rewrite <- matches_spec; congruence). tauto. }
      destruct W as [S _]. rewrite E in S, M. apply sorted_app in S as (S1 & S2 & S3). apply StronglySorted_inv in S2 as [S2 F2]. rewrite Forall_forall in F2.
      assert (J : i = j \/ i ∈ l2). { apply elem_of_app in M as [M|M]; [destruct (N' i M) as [X _]; congruence|]. apply elem_of_cons in M. exact M. }
      split.
      + apply matches_spec in F. destruct J as [->|J]; [auto|]. right. apply F2 in J as L. destruct F as [F|F]; [lia|]. auto.
      + intros k K. destruct (N' k K) as [_ X]. split; [|exact X]. apply S3; [exact K|]. destruct J as [->|J]; [left|right; exact J].
    - exfalso. assert (X := proj1 (remove_first_none _ _) E i M). enough (matches (objs st) i i = true) by congruence. apply matches_spec. auto.
  Qed.

  Lemma released_snoc i h o : released i (h ++ [o]) <-> released i h \/ o = Release i.
  Proof. unfold released. rewrite elem_of_app, elem_of_list_singleton. split; intros [X|X]; auto. Qed.

  Lemma kept_due given h :
    (forall h1 i h2, h = h1 ++ Release i :: h2 -> due (length given) h1 i /\
       forall j, due (length given) h1 j -> j < i -> ~ alike (objs (rrun (fresh given) h1)) j i) ->
    (forall i h1 h2, h = h1 ++ Release i :: h2 -> i < made (length given) h1) ->
    forall i, i ∈ kept (rrun (fresh given) h) <-> due (length given) h i.
  Proof.
    induction h as [|o h IH] using rev_ind; intros C U i.
    - cbn. unfold due, released. cbn. rewrite elem_of_seq, elem_of_nil. split; [intros [_ L]; split; [lia|tauto]|intros [L _]; lia].
    - assert (IH' : forall i, i ∈ kept (rrun (fresh given) h) <-> due (length given) h i).
      { apply IH.
        - intros h1 j h2 E. apply (C h1 j (h2 ++ [o])). rewrite E, <- app_assoc. reflexivity.
        - intros j h1 h2 E. apply (U j h1 (h2 ++ [o])). rewrite E, <- app_assoc. reflexivity. }
      clear IH. pose proof (wf_run _ h (wf_fresh given)) as W. rewrite rrun_snoc. unfold due. rewrite released_snoc, made_snoc. unfold due in IH'. destruct o as [|k|k o|e].
      + cbn [rstep fst kept]. rewrite elem_of_app, elem_of_list_singleton, IH', objs_made. split.
        * intros [[L N]| ->]; [split; [lia|]; intros [X|X]; [tauto|discriminate]|]. split; [lia|]. intros [X|X]; [|discriminate].
          apply elem_of_list_split in X as (h1 & h2 & X). assert (L : made (length given) h < made (length given) h1).
          { apply (U _ h1 (h2 ++ [Make])). rewrite X at 1. rewrite <- app_assoc. reflexivity. }
          assert (Mono : forall n m h', made n h' <= made n (h' ++ m)).
          { intros n m h'. revert n. induction m as [|a m IHm] using rev_ind; intros n; [rewrite app_nil_r; lia|]. rewrite app_assoc, made_snoc. specialize (IHm n). destruct a; lia. }
          specialize (Mono (length given) (Release (made (length given) h) :: h2) h1). rewrite <- X in Mono. lia.
        * intros [L N]. destruct (decide (i = made (length given) h)) as [->|D]; [right; reflexivity|left]. split; [lia|]. intros X. apply N. left. exact X.
      + destruct (C h k [] eq_refl) as [[D1 D2] D3]. assert (M : k ∈ kept (rrun (fresh given) h)) by (apply IH'; auto).
        destruct (release_in _ k W M) as (l1 & j & l2 & E & R & J & N). rewrite R. cbn [fst kept].
        assert (j = k) as ->. { destruct J as [J|[J1 J2]]; [exact J|]. exfalso. apply (D3 j); auto. apply IH'. rewrite E. apply elem_of_app. right. left. }
        pose proof (wf_nodup _ W) as ND. rewrite E in ND. apply NoDup_app in ND as (_ & ND1 & ND2). apply NoDup_cons in ND2 as [ND2 _].
        specialize (IH' i). rewrite E in IH'. rewrite elem_of_app, elem_of_cons in IH'. rewrite elem_of_app. split.
        * intros X. assert (Y : i < made (length given) h /\ ~ released i h) by (apply IH'; tauto). split; [tauto|]. intros [Z|Z]; [tauto|]. injection Z as ->.
          destruct X as [X|X]; [apply (ND1 i X); left|contradiction].
        * intros [L Z]. assert (Y : i ∈ l1 \/ i = k \/ i ∈ l2) by (apply IH'; split; [exact L|]; intros Q; apply Z; left; exact Q).
          destruct Y as [Y|[-> |Y]]; [left; exact Y|exfalso; apply Z; right; reflexivity|right; exact Y].
      + cbn [rstep fst kept]. rewrite IH'. split; intros [L N]; (split; [exact L|]); intros X; apply N; [destruct X as [X|X]; [exact X|discriminate X]|left; exact X].
      + cbn [rstep fst kept]. rewrite IH'. split; intros [L N]; (split; [exact L|]); intros X; apply N; [destruct X as [X|X]; [exact X|discriminate X]|left; exact X].
  Qed.

  (** what happens to a selection in a step *)
  Lemma step_obj st o i s : wf st -> objs st !! i = Some s -> objs (rstep st o).1 !! i =
    Some match o with
         | Use j u => if decide (j = i) then (sel_step s u).1 else s
         | Edit e => if decide (i ∈ kept st) then (sel_step s (accompany e)).1 else s
         | _ => s
         end.
  Proof.
    intros W E. destruct o as [|j|j u|e]; cbn [rstep].
    - cbn [fst objs]. apply lookup_app_l_Some, E.
    - destruct (remove_first _ _); exact E.
    - cbn [fst objs]. unfold use. destruct (decide (j = i)) as [->|D]; [rewrite list_lookup_alter, E; reflexivity|rewrite list_lookup_alter_ne by exact D; exact E].
    - cbn [fst objs]. destruct (decide (i ∈ kept st)) as [M|M].
      + rewrite (uses_lookup_in _ _ _ _ (wf_nodup _ W) M), E. reflexivity.
      + rewrite (uses_lookup_out _ _ _ _ M). exact E.
  Qed.
  Lemma throughout_cons (P : lm -> Prop) st o h : throughout P st (o :: h) -> P st /\ throughout P (rstep st o).1 h.
  Proof.
    intros T. split; [apply (T [] (o :: h) eq_refl)|]. intros h1 h2 E. apply (T (o :: h1) h2). rewrite E. reflexivity.
  Qed.
  Lemma follow_obj st h i s : wf st -> objs st !! i = Some s -> throughout (fun st => i ∈ kept st) st h -> not_used i h ->
    objs (rrun st h) !! i = Some (sel_run s (accompany <$> edits_of h)).
  Proof.
    revert st s. induction h as [|o h IH]; intros st s W E T U; [exact E|]. apply throughout_cons in T as [M T].
    pose proof (step_obj st o i s W E) as E'. assert (U' : not_used i h) by (intros u X; apply (U u); right; exact X).
    change (rrun st (o :: h)) with (rrun (rstep st o).1 h). destruct o as [|j|j u|e].
    - apply IH; auto. apply wf_step, W.
    - apply IH; auto. apply (wf_step st (Release j)), W.
    - assert (D : j <> i) by (intros ->; apply (U u); left). rewrite decide_False in E' by exact D. apply IH; auto. apply (wf_step st (Use j u)), W.
    - rewrite decide_True in E' by exact M. exact (IH _ _ (wf_step st (Edit e) W) E' T U').
  Qed.
  Lemma left_obj st h i s : wf st -> objs st !! i = Some s -> throughout (fun st => i ∉ kept st) st h -> not_used i h ->
    objs (rrun st h) !! i = Some s.
  Proof.
    revert st s. induction h as [|o h IH]; intros st s W E T U; [exact E|]. apply throughout_cons in T as [M T].
    pose proof (step_obj st o i s W E) as E'. assert (U' : not_used i h) by (intros u X; apply (U u); right; exact X).
    change (rrun st (o :: h)) with (rrun (rstep st o).1 h). apply IH; auto; [apply wf_step, W|]. rewrite E'. destruct o as [|j|j u|e]; try reflexivity.
    - rewrite decide_False; [reflexivity|]. intros ->. apply (U u). left.
    - rewrite decide_False by exact M. reflexivity.
  Qed.
End A.
