From Coq Require Import List ZArith Bool Arith Permutation Sorted Lia.
From Verif Require Import PyBase Filtered_Model Filtered_Spec Filtered_Proofs Filtered_Proofs2 Filtered_Proofs3
  FiltBlk_Model FiltBlk_Spec FiltBlk_Proofs.
Import ListNotations.

Section FB2.
  Context {A C K : Type} (A_dec : forall a b : A, {a = b} + {a <> b}) (lt : K -> K -> bool).
  Notation inb := (inb A_dec).
  Notation bst := (bst A C K).
  Notation bact := (bact A C K).
  Notation bpc := (bpc A C K).
  Notation bsh := (bsh A C K).
  Notation b_step := (b_step A_dec lt).
  Notation b_move := (b_move A_dec lt).

  Lemma put_same (t : nat) (p : bpc) l q : nth_error l t = Some q -> nth_error (b_put t p l) t = Some p.
  Proof. revert t. induction l as [|a l IH]; intros [|t]; cbn; try discriminate; [reflexivity|]. apply IH. Qed.
  Lemma put_other (t u : nat) (p : bpc) l : u <> t -> nth_error (b_put t p l) u = nth_error l u.
  Proof.
    revert t u. induction l as [|a l IH]; intros [|t] [|u] H; cbn; try reflexivity; [congruence|]. apply IH. lia.
  Qed.
  Lemma in_put (t : nat) (p p0 : bpc) l q : nth_error l t = Some p0 ->
    (In q (b_put t p l) <-> q = p \/ exists u, u <> t /\ nth_error l u = Some q).
  Proof.
    intros H. split.
    - intros Q. apply In_nth_error in Q as [u Q]. destruct (Nat.eq_dec u t) as [->|Hne].
      + rewrite (put_same _ _ _ _ H) in Q. injection Q as <-. auto.
      + rewrite put_other in Q by exact Hne. right. exists u. auto.
    - intros [->|(u & Hne & Q)].
      + eapply nth_error_In. eapply put_same. exact H.
      + apply (nth_error_In _ u). rewrite put_other; assumption.
  Qed.
  Lemma in_calls (t : nat) (p0 : bpc) l q : nth_error l t = Some p0 ->
    (In q l <-> q = p0 \/ exists u, u <> t /\ nth_error l u = Some q).
  Proof.
    intros H. split.
    - intros Q. apply In_nth_error in Q as [u Q]. destruct (Nat.eq_dec u t) as [->|Hne]; [left; congruence|right; eauto].
    - intros [->|(u & _ & Q)]; eapply nth_error_In; eassumption.
  Qed.
  Lemma filter_put (f : bpc -> bool) t p l q : nth_error l t = Some q ->
    length (filter f (b_put t p l)) + (if f q then 1 else 0) = length (filter f l) + (if f p then 1 else 0).
  Proof.
    revert t. induction l as [|a l IH]; intros [|t]; cbn; try discriminate.
    - intros [= ->]. destruct (f q), (f p); cbn; lia.
    - intros H. specialize (IH _ H). destruct (f a); cbn; lia.
  Qed.
  Lemma nth_snoc (l : list bpc) p t q : nth_error (l ++ [p]) t = Some q -> nth_error l t = Some q \/ q = p.
  Proof.
    intros H. destruct (Nat.lt_ge_cases t (length l)) as [L|L].
    - rewrite nth_error_app1 in H by exact L. auto.
    - rewrite nth_error_app2 in H by exact L. destruct (t - length l) as [|[|k]]; cbn in H; try discriminate. injection H as <-. auto.
  Qed.

  Definition touches (p : bpc) : bool := b_holds p || b_acquires p.
  Definition atflag (p : bpc) : bool := match p with BFlag => true | _ => false end.

  Lemma move_lock ord (h : bsh) (p : bpc) h1 p1 tr : b_move ord h p = (h1, p1, tr) -> b_holds p1 = true -> touches p = true.
  Proof.
    destruct p; cbn; intros E; try (intros; reflexivity); injection E as <- <- <-; cbn; auto.
  Qed.
  Lemma starts_ok (p : bpc) : b_starts p = true -> b_holds p = false /\ atflag p = false /\ in_block p = false /\ counting p = false.
  Proof. destruct p; cbn; auto; discriminate. Qed.

  (** -- the mutex -- *)
  Record linv (s : bst) : Prop := Linv {
    v_hold : forall t p, nth_error (b_calls s) t = Some p -> b_holds p = true -> b_owner s = Some t;
    v_own : forall t, b_owner s = Some t -> exists p, nth_error (b_calls s) t = Some p /\ b_holds p = true }.

  (** only the call holding the mutex holds it *)
  Lemma alone (s : bst) t p : linv s -> nth_error (b_calls s) t = Some p -> b_blocked s p = false -> touches p = true ->
    forall u q, u <> t -> nth_error (b_calls s) u = Some q -> b_holds q = false.
  Proof.
    intros V Hp Hb Ht u q Hne Hq. destruct (b_holds q) eqn:E; [|reflexivity]. exfalso.
    pose proof (v_hold s V u q Hq E) as O. unfold touches in Ht. unfold b_blocked in Hb. rewrite O in Hb.
    rewrite Hb, orb_false_r in Ht. pose proof (v_hold s V t p Hp Ht). congruence.
  Qed.
  Lemma step_linv (s : bst) a : linv s -> linv (b_step s a).
  Proof.
    intros V. destruct a as [p|t ord]; cbn [FiltBlk_Model.b_step].
    - destruct (b_starts p) eqn:Es; [|exact V]. destruct (starts_ok p Es) as (Hh & _).
      constructor; cbn.
      + intros t q Hq Hhq. destruct (nth_snoc _ _ _ _ Hq) as [Q| ->]; [exact (v_hold s V t q Q Hhq)|congruence].
      + intros t Ho. destruct (v_own s V t Ho) as (q & Hq & Hhq). exists q. split; [|exact Hhq].
        rewrite nth_error_app1; [exact Hq|]. apply nth_error_Some. congruence.
    - destruct (nth_error (b_calls s) t) as [p|] eqn:Hp; [|exact V].
      destruct (b_blocked s p) eqn:Hb; [exact V|].
      destruct (b_move ord (b_sh s) p) as [[h1 p1] tr] eqn:E.
      pose proof (fun Q => alone s t p V Hp Hb Q) as AL. fold (touches p).
      constructor; cbn.
      + intros u q Hq Hh. destruct (Nat.eq_dec u t) as [->|Hne].
        * rewrite (put_same _ _ _ _ Hp) in Hq. injection Hq as <-. rewrite Hh. reflexivity.
        * rewrite put_other in Hq by exact Hne. destruct (touches p) eqn:Et.
          -- rewrite (AL eq_refl u q Hne Hq) in Hh. discriminate.
          -- destruct (b_holds p1) eqn:E1; [rewrite (move_lock _ _ _ _ _ _ E E1) in Et; discriminate|]. exact (v_hold s V u q Hq Hh).
      + intros u Hu. destruct (b_holds p1) eqn:E1.
        * injection Hu as <-. exists p1. split; [eapply put_same; exact Hp|exact E1].
        * destruct (touches p) eqn:Et; [discriminate|]. destruct (v_own s V u Hu) as (q & Hq & Hh). exists q. split; [|exact Hh].
          rewrite put_other; [exact Hq|]. intros ->. rewrite Hp in Hq. injection Hq as <-. unfold touches in Et. rewrite Hh in Et. discriminate.
  Qed.

  (** -- the level -- *)
  Record cinv (d : Z) (s : bst) : Prop := Cinv {
    c_level : level s = (blocks s + d)%Z;
    c_read : forall p, In p (b_calls s) -> b_reads (b_sh s) p }.

  Lemma move_level ord (h : bsh) (p : bpc) h1 p1 tr : b_move ord h p = (h1, p1, tr) -> b_reads h p ->
    b_reads h1 p1 /\ (b_level h1 + Z.of_nat (if in_block p then 1 else 0) = b_level h + Z.of_nat (if in_block p1 then 1 else 0))%Z /\
    (counting p = false -> b_level h1 = b_level h).
  Proof.
    destruct p; cbn [FiltBlk_Model.b_move b_reads in_block counting]; intros E Hr.
    - destruct (inb x (b_master h)); injection E as <- <- <-; cbn; [split; [exact I|split; [lia|auto]]|].
      destruct (b_held h); cbn; (split; [exact I|split; [lia|auto]]).
    - injection E as <- <- <-. destruct (b_passes h x); cbn; (split; [exact I|split; [lia|auto]]).
    - injection E as <- <- <-. cbn. split; [exact I|split; [lia|auto]].
    - destruct (py_get (b_master h) i); [|injection E as <- <- <-; cbn; split; [exact I|split; [lia|auto]]].
      destruct (py_del (b_master h) i); [|injection E as <- <- <-; cbn; split; [exact I|split; [lia|auto]]].
      destruct (b_held h); [injection E as <- <- <-; cbn; split; [exact I|split; [lia|auto]]|].
      unfold b_drop in E. destruct (index_of _ _ _); injection E as <- <- <-; cbn; (split; [exact I|split; [lia|auto]]).
    - injection E as <- <- <-. cbn. split; [exact I|split; [lia|auto]].
    - injection E as <- <- <-. destruct (inb x (b_master h)), (b_held h); cbn; (split; [exact I|split; [lia|auto]]).
    - injection E as <- <- <-. unfold check_next. destruct (b_passes h x), (index_of _ _ _);
        try destruct (b_key h); try destruct (_ =? _); cbn; (split; [exact I|split; [lia|auto]]).
    - destruct (b_held h); [|unfold b_drop in E; destruct (index_of _ _ _)]; injection E as <- <- <-; destruct again; cbn; (split; [exact I|split; [lia|auto]]).
    - injection E as <- <- <-. destruct (b_held h); cbn; (split; [exact I|split; [lia|auto]]).
    - injection E as <- <- <-. cbn. split; [exact I|split; [lia|auto]].
    - injection E as <- <- <-. cbn. split; [exact I|split; [lia|auto]].
    - injection E as <- <- <-. cbn. split; [exact I|split; [lia|auto]].
    - injection E as <- <- <-. cbn. split; [exact I|split; [lia|auto]].
    - injection E as <- <- <-. cbn. split; [exact I|split; [lia|auto]].
    - injection E as <- <- <-. destruct (b_held h); cbn; (split; [exact I|split; [lia|auto]]).
    - injection E as <- <- <-. cbn. split; [reflexivity|split; [lia|auto]].
    - injection E as <- <- <-. cbn. split; [exact I|split; [lia|discriminate]].
    - injection E as <- <- <-. cbn. split; [exact I|split; [lia|auto]].
    - injection E as <- <- <-. cbn. split; [reflexivity|split; [lia|auto]].
    - injection E as <- <- <-. cbn. split; [exact I|split; [lia|discriminate]].
    - injection E as <- <- <-. destruct (b_level h =? 0)%Z; cbn; (split; [exact I|split; [lia|auto]]).
    - injection E as <- <- <-. destruct (b_held h); cbn; (split; [exact I|split; [lia|auto]]).
    - destruct rest; injection E as <- <- <-; cbn; (split; [exact I|split; [lia|auto]]).
    - destruct (b_apply _ _ _ _ _). injection E as <- <- <-. cbn. split; [exact I|split; [lia|auto]].
    - injection E as <- <- <-. cbn. split; [exact I|split; [lia|auto]].
    - injection E as <- <- <-. cbn. split; [exact I|split; [lia|auto]].
    - injection E as <- <- <-. cbn. split; [exact I|split; [lia|auto]].
  Qed.
  Lemma reads_same (h h1 : bsh) (q : bpc) : counting q = false \/ b_level h1 = b_level h -> b_reads h q -> b_reads h1 q.
  Proof. intros [E|E]; destruct q; cbn in *; try rewrite E; auto; discriminate. Qed.

  Lemma step_cinv d (s : bst) a : counts_apart s -> cinv d s -> cinv d (b_step s a).
  Proof.
    intros Ha [V1 V2]. destruct a as [p|t ord]; cbn [FiltBlk_Model.b_step].
    - destruct (b_starts p) eqn:Es; [|constructor; assumption]. destruct (starts_ok p Es) as (_ & _ & Hb & Hc).
      constructor; cbn.
      + unfold level, blocks in *. cbn. rewrite filter_app, app_length. cbn. rewrite Hb. cbn. rewrite Nat.add_0_r. exact V1.
      + intros q Hq. apply in_app_iff in Hq as [Hq|[<-|[]]]; [exact (V2 q Hq)|]. destruct p; cbn in *; try discriminate; exact I.
    - destruct (nth_error (b_calls s) t) as [p|] eqn:Hp; [|constructor; assumption].
      destruct (b_blocked s p) eqn:Hb; [constructor; assumption|].
      destruct (b_move ord (b_sh s) p) as [[h1 p1] tr] eqn:E.
      assert (Hin : In p (b_calls s)) by (eapply nth_error_In; exact Hp).
      destruct (move_level _ _ _ _ _ _ E (V2 p Hin)) as (M1 & M2 & M3). constructor; cbn.
      + unfold level, blocks in *. cbn. pose proof (filter_put in_block t p1 (b_calls s) p Hp) as F.
        apply (f_equal Z.of_nat) in F. rewrite !Nat2Z.inj_add in F. lia.
      + intros q Hq. apply (in_put t p1 p _ q Hp) in Hq as [->|(u & Hne & Hq)]; [exact M1|].
        apply (reads_same (b_sh s)); [|apply V2; eapply nth_error_In; exact Hq].
        destruct (counting p) eqn:Ec; [left|right; exact (M3 eq_refl)].
        destruct (counting q) eqn:Eq; [|reflexivity]. exfalso. apply Hne. exact (Ha u t q p Hq Hp Eq Ec).
  Qed.
  Lemma level_blocks (s : bst) : cinv 0 s -> level s = blocks s.
  Proof. intros V. rewrite (c_level _ _ V). lia. Qed.
  Lemma level_pos (s : bst) : cinv 0 s -> (0 <= level s)%Z.
  Proof. intros V. rewrite (level_blocks s V). unfold blocks. lia. Qed.
  Lemma level_some (s : bst) : cinv 0 s -> (0 < level s)%Z -> exists p, In p (b_calls s) /\ in_block p = true.
  Proof.
    intros V H. rewrite (level_blocks s V) in H. unfold blocks in H. destruct (filter in_block (b_calls s)) as [|p l] eqn:E; [cbn in H; lia|].
    exists p. apply filter_In. rewrite E. left. reflexivity.
  Qed.
  Lemma block_fixes (h : bsh) (p : bpc) y : in_block p = true -> fixes h p y.
  Proof. destruct p; cbn; try discriminate; auto. Qed.

  (** -- moves without the mutex -- *)
  Lemma move_free ord (h : bsh) (p : bpc) h1 p1 tr : b_move ord h p = (h1, p1, tr) -> touches p = false -> b_reads h p ->
    b_master h1 = b_master h /\ b_items h1 = b_items h /\ b_holds p1 = false /\ (b_level h <= b_level h1)%Z /\
    (forall q y, fixes h q y -> fixes h1 q y \/ fixes h1 p1 y) /\
    (forall q y, ~ breaks h q y -> ~ breaks h1 q y \/ fixes h1 p1 y).
  Proof.
    destruct p; cbn; intros E; try discriminate; injection E as <- <- <-; intros _ Hr; cbn;
      (split; [reflexivity|]); (split; [reflexivity|]); (split; [reflexivity|]); (split; [lia|]).
    - assert (G : forall q y, y <> x ->
        (fixes h q y <-> fixes (put_content h (update_content A_dec (b_content h) x c)) q y) /\
        (breaks h q y <-> breaks (put_content h (update_content A_dec (b_content h) x c)) q y)).
      { intros q y Hne. unfold fixes, breaks, b_passes, put_content, update_content.
        destruct q as [| | | | | | |? []| | | | | | | | | | | | | | | | | | |]; cbn; try tauto; destruct (A_dec y x); try contradiction; tauto. }
      split; intros q y Q; (destruct (A_dec y x) as [->|Hne]; [right; reflexivity|left]).
      + apply (G q y Hne), Q.
      + intros R. apply Q, (G q y Hne), R.
    - split; auto.
    - split; auto.
    - split; intros q y Q; left; destruct q; exact Q.
    - split; intros q y Q; left; exact Q.
    - split; intros q y Q; right; exact I.
    - split; intros q y Q; right; exact I.
    - split; intros q y Q; left; exact Q.
  Qed.
  Lemma waiting_fixes (h h1 : bsh) (q : bpc) y : b_holds q = false -> fixes h q y -> fixes h1 q y.
  Proof. destruct q; cbn; try discriminate; auto. Qed.
  Lemma waiting_breaks (h : bsh) (q : bpc) y : b_holds q = false -> ~ breaks h q y.
  Proof. destruct q; cbn; try discriminate; auto. Qed.
  Lemma waiting_ok (h : bsh) (q : bpc) : b_holds q = false -> p_ok h q.
  Proof. destruct q; cbn; try discriminate; auto. Qed.
  Lemma ok_same (h h1 : bsh) (q : bpc) : b_master h1 = b_master h -> b_items h1 = b_items h -> (b_level h <= b_level h1)%Z -> p_ok h q -> p_ok h1 q.
  Proof. intros E1 E2 E3. destruct q; cbn; rewrite ?E1, ?E2; auto. intros [H1 H2]. split; [exact H1|]. intros Q. specialize (H2 Q). lia. Qed.

  Lemma move_trace ord (h : bsh) (p : bpc) h1 p1 tr d : b_move ord h p = (h1, p1, tr) ->
    f_follows (b_items h) tr (b_items h1) /\
    nesting (d + if atflag p then 1 else 0) tr = Some (d + if atflag p1 then 1 else 0).
  Proof.
    intros E. destruct p; cbn [FiltBlk_Model.b_move] in E; cbn [atflag];
      try (injection E as <- <- <-; split; reflexivity).
    - destruct (inb x (b_master h)); injection E as <- <- <-; [split; reflexivity|]. destruct (b_held h); split; reflexivity.
    - injection E as <- <- <-. split; [reflexivity|]. destruct (b_passes h x); reflexivity.
    - destruct (py_get (b_master h) i) as [x|]; [|injection E as <- <- <-; split; reflexivity].
      destruct (py_del (b_master h) i) as [m|]; [|injection E as <- <- <-; split; reflexivity].
      destruct (b_held h); [injection E as <- <- <-; split; reflexivity|].
      destruct (b_drop _ _ _) as [h2 t2] eqn:E2. injection E as <- <- <-. destruct (drop_trace A_dec _ _ _ _ E2) as [F1 F2].
      split; [exact F1|]. apply nesting_at. exact F2.
    - injection E as <- <- <-. destruct (inb x (b_master h)), (b_held h); split; reflexivity.
    - injection E as <- <- <-. split; [reflexivity|]. unfold check_next.
      destruct (b_passes h x), (index_of _ _ _); try destruct (b_key h); try destruct (_ =? _); reflexivity.
    - destruct (b_held h); [injection E as <- <- <-; destruct again; split; reflexivity|].
      destruct (b_drop _ _ _) as [h2 t2] eqn:E2. injection E as <- <- <-. destruct (drop_trace A_dec _ _ _ _ E2) as [F1 F2].
      split; [exact F1|]. destruct again; apply nesting_at; exact F2.
    - injection E as <- <- <-. destruct (b_held h); split; reflexivity.
    - injection E as <- <- <-. destruct (b_held h); split; reflexivity.
    - injection E as <- <- <-. destruct (_ =? _)%Z; split; reflexivity.
    - injection E as <- <- <-. destruct (b_held h); split; reflexivity.
    - destruct rest; injection E as <- <- <-; split; reflexivity.
    - destruct (b_apply A_dec lt ord h new) as [it t] eqn:E2. injection E as <- <- <-.
      destruct (apply_trace A_dec lt _ _ _ _ _ E2) as [F1 F2]. split; [exact F1|]. cbn [atflag]. clear - F2.
      assert (G : forall d', nesting d' t = Some (d' + 1)).
      { intros d'. induction d' as [|d' IH]; [exact F2|]. apply (nesting_weaken _ _ _ IH). }
      rewrite G. f_equal. lia.
    - injection E as <- <- <-. split; [reflexivity|]. rewrite Nat.add_1_r. cbn. f_equal. lia.
  Qed.

  Record inv (s : bst) : Prop := Inv {
    v_l : linv s;
    v_c : cinv 0 s;
    v_h : h_ok (b_sh s);
    v_p : forall p, In p (b_calls s) -> p_ok (b_sh s) p;
    v_clean : incl (items s) (master s) \/ (0 < level s)%Z \/ exists p, In p (b_calls s) /\ ending p = true;
    v_fix : forall y, (exists p, In p (b_calls s) /\ fixes (b_sh s) p y) \/
                      (hright (b_sh s) y /\ forall p, In p (b_calls s) -> ~ breaks (b_sh s) p y);
    v_log : f_follows [] (b_log s) (items s);
    v_nest : nesting 0 (b_log s) = Some (length (filter atflag (b_calls s)))
  }.

  Lemma linv_new w : linv (b_new w : bst).
  Proof. constructor; cbn; [intros [|t] p; discriminate|discriminate]. Qed.
  Lemma cinv_new w : cinv 0 (b_new w : bst).
  Proof. constructor; cbn; [reflexivity|intros p []]. Qed.
  Lemma inv_new w : inv (b_new w : bst).
  Proof.
    constructor; cbn.
    - apply linv_new.
    - apply cinv_new.
    - constructor; cbn; constructor.
    - intros p [].
    - left. intros y [].
    - intros y. right. split; [|intros p []]. unfold hright. cbn. tauto.
    - reflexivity.
    - reflexivity.
  Qed.

  Lemma ending_holds (p : bpc) : ending p = true -> b_holds p = true.
  Proof. destruct p; cbn; auto. Qed.

  Lemma go_inv (s s1 : bst) t p ord h1 p1 tr : inv s -> linv s1 -> cinv 0 s1 -> nth_error (b_calls s) t = Some p -> b_blocked s p = false ->
    (forall l, Permutation (ord l) l) -> b_move ord (b_sh s) p = (h1, p1, tr) ->
    b_sh s1 = h1 -> b_calls s1 = b_put t p1 (b_calls s) -> b_log s1 = b_log s ++ tr -> inv s1.
  Proof.
    intros V L1 C1 Hp Hb Hord E S1 S2 S3.
    pose proof (fun Q => alone s t p (v_l s V) Hp Hb Q) as AL.
    assert (Hin : In p (b_calls s)) by (eapply nth_error_In; exact Hp).
    assert (Hr : b_reads (b_sh s) p) by (apply (c_read _ _ (v_c s V)); exact Hin).
    pose proof (level_pos s (v_c s V)) as Hl.
    assert (Hcl : touches p = true -> clean (b_sh s) p).
    { intros Ht. destruct (v_clean s V) as [Q|[Q|(q & Q1 & Q2)]]; [left; exact Q|right; left; exact Q|].
      apply (in_calls t p _ q Hp) in Q1 as [->|(u & Hne & Hq)]; [right; right; exact Q2|].
      apply ending_holds in Q2. rewrite (AL Ht u q Hne Hq) in Q2. discriminate. }
    assert (Hok : h_ok h1 /\ p_ok h1 p1).
    { destruct (touches p) eqn:Et.
      - exact (move_ok A_dec lt _ _ _ _ _ _ E Hord (v_h s V) (Hcl eq_refl) (v_p s V p Hin)).
      - destruct (move_free _ _ _ _ _ _ E Et Hr) as (F1 & F2 & F3 & _). destruct (v_h s V) as [N1 N2].
        split; [constructor; rewrite ?F1, ?F2; assumption|]. apply waiting_ok, F3. }
    destruct Hok as [Hh1 Hp1].
    assert (P1 : In p1 (b_calls s1)) by (rewrite S2; apply (in_put t p1 p _ p1 Hp); auto).
    assert (OT : forall u q, u <> t -> nth_error (b_calls s) u = Some q -> In q (b_calls s1)).
    { intros u q H1 H2. rewrite S2. apply (in_put t p1 p _ q Hp). eauto. }
    constructor.
    - exact L1.
    - exact C1.
    - rewrite S1. exact Hh1.
    - intros q Hq. rewrite S2 in Hq. rewrite S1. apply (in_put t p1 p _ q Hp) in Hq as [->|(u & Hne & Hq)]; [exact Hp1|].
      destruct (touches p) eqn:Et; [apply waiting_ok, (AL eq_refl u q Hne Hq)|].
      destruct (move_free _ _ _ _ _ _ E Et Hr) as (F1 & F2 & _ & F3 & _). apply (ok_same (b_sh s)); [exact F1|exact F2|exact F3|].
      apply (v_p s V). eapply nth_error_In. exact Hq.
    - unfold items, master, level. rewrite S1. destruct (touches p) eqn:Et.
      + destruct (move_clean A_dec lt _ _ _ _ _ _ E Hord (v_h s V) (Hcl eq_refl) (v_p s V p Hin) Hr Hl) as [Q|[Q|Q]]; eauto.
      + destruct (move_free _ _ _ _ _ _ E Et Hr) as (F1 & F2 & _ & F3 & _). rewrite F1, F2.
        destruct (v_clean s V) as [Q|[Q|(q & Q1 & Q2)]]; [left; exact Q|right; left; unfold level in Q; lia|].
        right. right. exists q. split; [|exact Q2]. apply (in_calls t p _ q Hp) in Q1 as [->|(u & Hne & Hq)]; [|eauto].
        apply ending_holds in Q2. unfold touches in Et. rewrite Q2 in Et. discriminate.
    - intros y. rewrite S1.
      assert (LV : (0 < b_level h1)%Z -> exists q, In q (b_calls s1) /\ fixes h1 q y).
      { intros Q. destruct (level_some s1 C1) as (q & Q1 & Q2); [unfold level; rewrite S1; exact Q|]. exists q. split; [exact Q1|].
        apply block_fixes, Q2. }
      destruct (touches p) eqn:Et.
      + pose proof (move_right A_dec lt _ _ _ _ _ _ y E Hord (v_h s V) (Hcl eq_refl) (v_p s V p Hin) Hl) as MR.
        assert (FIN : fine h1 p1 y \/ (0 < b_level h1)%Z ->
          (exists q, In q (b_calls s1) /\ fixes h1 q y) \/ hright h1 y /\ (forall q, In q (b_calls s1) -> ~ breaks h1 q y)).
        { intros [[Q|[Q1 Q2]]|Q]; [left; eauto| |left; exact (LV Q)]. right. split; [exact Q1|].
          intros q Hq. rewrite S2 in Hq. apply (in_put t p1 p _ q Hp) in Hq as [->|(u & Hne & Hq)]; [exact Q2|].
          apply waiting_breaks, (AL eq_refl u q Hne Hq). }
        destruct (v_fix s V y) as [(q & Hq & Hf)|[Hri Hnb]].
        * apply (in_calls t p _ q Hp) in Hq as [->|(u & Hne & Hq)].
          -- apply FIN, MR. left. exact Hf.
          -- left. exists q. split; [eauto|]. eapply waiting_fixes; [apply (AL eq_refl u q Hne Hq)|exact Hf].
        * apply FIN, MR. right. split; [exact Hri|apply Hnb; exact Hin].
      + destruct (move_free _ _ _ _ _ _ E Et Hr) as (F1 & F2 & F3 & _ & F4 & F5).
        destruct (v_fix s V y) as [(q & Hq & Hf)|[Hri Hnb]].
        * apply (in_calls t p _ q Hp) in Hq as [->|(u & Hne & Hq)].
          -- left. exists p1. split; [exact P1|]. clear - E Et Hf. destruct p; cbn in *; try contradiction; try discriminate; injection E as <- <- <-; exact I.
          -- left. destruct (F4 q y Hf) as [Q|Q]; eauto.
        * assert (D : fixes h1 p1 y \/ (hright h1 y /\ forall q, In q (b_calls s) -> ~ breaks h1 q y)).
          { clear - E Et Hri Hnb. destruct p; cbn in *; try discriminate; injection E as <- <- <-; try (left; exact I).
            - destruct (A_dec x y) as [->|Hne]; [left; reflexivity|]. right.
              assert (G : b_passes (put_content (b_sh s) (update_content A_dec (b_content (b_sh s)) x c)) y = b_passes (b_sh s) y).
              { unfold b_passes, update_content. cbn. destruct (A_dec y x); [congruence|reflexivity]. }
              split; [unfold hright; rewrite G; exact Hri|]. intros q Hq. specialize (Hnb q Hq).
              destruct q as [| | | | | | |? []| | | | | | | | | | | | | | | | | | |]; cbn [breaks] in *; rewrite ?G; exact Hnb.
            - right. split; [exact Hri|]. intros q Hq. specialize (Hnb q Hq).
              destruct q as [| | | | | | |? []| | | | | | | | | | | | | | | | | | |]; exact Hnb.
            - right. auto.
            - right. auto. }
          destruct D as [D|[D1 D2]]; [left; eauto|]. right. split; [exact D1|].
          intros q Hq. rewrite S2 in Hq. apply (in_put t p1 p _ q Hp) in Hq as [->|(u & Hne & Hq)]; [|apply D2; eapply nth_error_In; exact Hq].
          apply waiting_breaks. exact F3.
    - rewrite S3. unfold items. rewrite S1. destruct (move_trace _ _ _ _ _ _ 0 E) as [T _]. eapply f_follows_app; [exact (v_log s V)|exact T].
    - rewrite S2, S3. pose proof (filter_put atflag t p1 (b_calls s) p Hp) as FP.
      set (d := length (filter atflag (b_calls s)) - if atflag p then 1 else 0) in *.
      assert (D : length (filter atflag (b_calls s)) = d + if atflag p then 1 else 0).
      { unfold d. destruct (atflag p) eqn:Ea; [|lia]. assert (Q : In p (filter atflag (b_calls s))) by (apply filter_In; auto).
        destruct (filter atflag (b_calls s)); [destruct Q|cbn; lia]. }
      destruct (move_trace _ _ _ _ _ _ d E) as [_ T]. rewrite (nesting_app _ _ _ _ (v_nest s V)), D, T. f_equal. lia.
  Qed.

  Lemma step_inv (s : bst) a : inv s -> visits a -> counts_apart s -> inv (b_step s a).
  Proof.
    intros V Ha Hc. pose proof (step_linv s a (v_l s V)) as L1. pose proof (step_cinv 0 s a Hc (v_c s V)) as C1.
    destruct a as [p|t ord]; cbn [FiltBlk_Model.b_step] in *.
    - destruct (b_starts p) eqn:Es; [|exact V]. destruct (starts_ok p Es) as (Hh & Hf & _).
      constructor; cbn.
      + exact L1.
      + exact C1.
      + exact (v_h s V).
      + intros q Hq. apply in_app_iff in Hq as [Hq|[<-|[]]]; [exact (v_p s V q Hq)|apply waiting_ok, Hh].
      + destruct (v_clean s V) as [Q|[Q|(q & Q1 & Q2)]]; [left; exact Q|right; left; exact Q|].
        right. right. exists q. split; [apply in_app_iff; auto|exact Q2].
      + intros y. destruct (v_fix s V y) as [(q & Hq & Q)|[Q1 Q2]].
        * left. exists q. split; [apply in_app_iff; auto|exact Q].
        * right. split; [exact Q1|]. intros q Hq. apply in_app_iff in Hq as [Hq|[<-|[]]]; [exact (Q2 q Hq)|apply waiting_breaks, Hh].
      + exact (v_log s V).
      + rewrite filter_app, app_length. cbn. rewrite Hf. cbn. rewrite Nat.add_0_r. exact (v_nest s V).
    - destruct (nth_error (b_calls s) t) as [p|] eqn:Hp; [|exact V].
      destruct (b_blocked s p) eqn:Hb; [exact V|].
      destruct (b_move ord (b_sh s) p) as [[h1 p1] tr] eqn:E. eapply go_inv; try eassumption; reflexivity.
  Qed.

  Lemma run_inv_from acts : forall s : bst, inv s -> Forall visits acts -> throughout A_dec lt counts_apart s acts ->
    inv (fold_left b_step acts s).
  Proof.
    induction acts as [|a acts IH]; intros s V Ha HT; cbn [fold_left]; [exact V|]. inversion Ha; subst. destruct HT as [T1 T2].
    apply IH; [apply step_inv; assumption|assumption|exact T2].
  Qed.
  Lemma run_inv w acts : Forall visits acts -> throughout A_dec lt counts_apart (b_new w) acts -> inv (b_run A_dec lt w acts).
  Proof. intros H HT. apply run_inv_from; [apply inv_new|exact H|exact HT]. Qed.

  Lemma run_linv acts : forall s : bst, linv s -> linv (fold_left b_step acts s).
  Proof. induction acts as [|a acts IH]; intros s V; cbn [fold_left]; [exact V|]. apply IH, step_linv, V. Qed.
  Lemma run_cinv d acts : forall s : bst, cinv d s -> throughout A_dec lt counts_apart s acts -> cinv d (fold_left b_step acts s).
  Proof.
    induction acts as [|a acts IH]; intros s V HT; cbn [fold_left]; [exact V|]. destruct HT as [T1 T2].
    apply IH; [apply step_cinv; assumption|exact T2].
  Qed.
End FB2.
