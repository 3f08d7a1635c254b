From Coq Require Import List ZArith Bool Arith Permutation Sorted Lia.
From Verif Require Import PyBase Filtered_Model Filtered_Spec Filtered_Proofs Filtered_Proofs2 Filtered_Proofs3
  FiltThr_Model FiltThr_Spec FiltThr_Proofs.
Import ListNotations.

Section FT2.
  Context {A C : Type} (A_dec : forall a b : A, {a = b} + {a <> b}).
  Notation inb := (inb A_dec).
  Notation tst := (tst A C).
  Notation tact := (tact A C).
  Notation tpc := (tpc A C).
  Notation shared := (shared A C).
  Notation t_step := (t_step A_dec).
  Notation t_move := (t_move A_dec).

  Lemma put_same (t : nat) (p : tpc) l q : nth_error l t = Some q -> nth_error (t_put t p l) t = Some p.
  Proof. revert t. induction l as [|a l IH]; intros [|t]; cbn; try discriminate; [reflexivity|]. apply IH. Qed.
  Lemma put_other (t u : nat) (p : tpc) l : u <> t -> nth_error (t_put t p l) u = nth_error l u.
  Proof.
    revert t u. induction l as [|a l IH]; intros [|t] [|u] H; cbn; try reflexivity; [congruence|]. apply IH. lia.
  Qed.
  Lemma in_put (t : nat) (p p0 : tpc) l q : nth_error l t = Some p0 ->
    (In q (t_put t p l) <-> q = p \/ exists u, u <> t /\ nth_error l u = Some q).
  Proof.
    intros H. split.
    - intros K. apply In_nth_error in K as [u K]. destruct (Nat.eq_dec u t) as [->|Hne].
      + rewrite (put_same _ _ _ _ H) in K. injection K as <-. auto.
      + rewrite put_other in K by exact Hne. right. exists u. auto.
    - intros [->|(u & Hne & K)].
      + eapply nth_error_In. eapply put_same. exact H.
      + apply (nth_error_In _ u). rewrite put_other; assumption.
  Qed.
  Lemma in_calls (t : nat) (p0 : tpc) l q : nth_error l t = Some p0 ->
    (In q l <-> q = p0 \/ exists u, u <> t /\ nth_error l u = Some q).
  Proof.
    intros H. split.
    - intros K. apply In_nth_error in K as [u K]. destruct (Nat.eq_dec u t) as [->|Hne]; [left; congruence|right; eauto].
    - intros [->|(u & _ & K)]; eapply nth_error_In; eassumption.
  Qed.
  Lemma filter_put (f : tpc -> bool) t p l q : nth_error l t = Some q ->
    length (filter f (t_put t p l)) + (if f q then 1 else 0) = length (filter f l) + (if f p then 1 else 0).
  Proof.
    revert t. induction l as [|a l IH]; intros [|t]; cbn; try discriminate.
    - intros [= ->]. destruct (f q), (f p); cbn; lia.
    - intros H. specialize (IH _ H). destruct (f a); cbn; lia.
  Qed.

  Definition touches (p : tpc) : bool := holds p || acquires p.
  Definition atflag (p : tpc) : bool := match p with TFlag => true | _ => false end.

  Lemma move_lock ord h p h1 p1 tr : t_move ord h p = (h1, p1, tr) -> holds p1 = true -> touches p = true.
  Proof.
    destruct p; cbn; intros E; try (intros; reflexivity); injection E as <- <- <-; cbn; auto.
  Qed.
  (** moves without the mutex *)
  Lemma move_free ord h p h1 p1 tr : t_move ord h p = (h1, p1, tr) -> touches p = false ->
    h_master h1 = h_master h /\ h_items h1 = h_items h /\ holds p1 = false /\
    (forall q y, fixes h q y -> fixes h1 q y \/ fixes h1 p1 y) /\
    (forall q y, ~ breaks h q y -> ~ breaks h1 q y \/ fixes h1 p1 y).
  Proof.
    destruct p; cbn; intros E; try discriminate; injection E as <- <- <-; intros _; cbn;
      (split; [reflexivity|]); (split; [reflexivity|]); (split; [reflexivity|]).
    - assert (G : forall q y, y <> x ->
        (fixes h q y <-> fixes (Sh (h_master h) (h_items h) (update_content A_dec (h_content h) x c) (h_filter h) (h_flag h)) q y) /\
        (breaks h q y <-> breaks (Sh (h_master h) (h_items h) (update_content A_dec (h_content h) x c) (h_filter h) (h_flag h)) q y)).
      { intros q y Hne. unfold fixes, breaks, passes, update_content.
        destruct q; cbn; try tauto; destruct (A_dec y x); try contradiction; tauto. }
      split; intros q y K; (destruct (A_dec y x) as [->|Hne]; [right; reflexivity|left]).
      + apply (G q y Hne), K.
      + intros Q. apply K, (G q y Hne), Q.
    - split; auto.
    - split; auto.
    - split; intros q y K; left; destruct q; exact K.
    - split; intros q y K; left; exact K.
  Qed.
  Lemma waiting_fixes h h1 (q : tpc) y : holds q = false -> fixes h q y -> fixes h1 q y.
  Proof. destruct q; cbn; try discriminate; auto. Qed.
  Lemma waiting_breaks h (q : tpc) y : holds q = false -> ~ breaks h q y.
  Proof. destruct q; cbn; try discriminate; auto. Qed.
  Lemma waiting_ok h (q : tpc) : holds q = false -> p_ok h q.
  Proof. destruct q; cbn; try discriminate; auto. Qed.
  Lemma ok_same h h1 (q : tpc) : h_master h1 = h_master h -> h_items h1 = h_items h -> p_ok h q -> p_ok h1 q.
  Proof. intros E1 E2. destruct q; cbn; rewrite ?E1, ?E2; auto. Qed.

  Lemma move_trace ord h p h1 p1 tr d : t_move ord h p = (h1, p1, tr) ->
    f_follows (h_items h) tr (h_items h1) /\
    nesting (d + if atflag p then 1 else 0) tr = Some (d + if atflag p1 then 1 else 0).
  Proof.
    intros E. destruct p; cbn [FiltThr_Model.t_move] in E; cbn [atflag].
    - destruct (inb x (h_master h)); injection E as <- <- <-; split; reflexivity.
    - injection E as <- <- <-. split; [reflexivity|]. destruct (passes h x); reflexivity.
    - injection E as <- <- <-. split; reflexivity.
    - destruct (py_get (h_master h) i) as [x|]; [|injection E as <- <- <-; split; reflexivity].
      destruct (py_del (h_master h) i) as [m|]; [|injection E as <- <- <-; split; reflexivity].
      destruct (drop_item _ _ _) as [h2 t2] eqn:E2. injection E as <- <- <-. destruct (drop_trace A_dec _ _ _ _ E2) as [F1 F2].
      split; [exact F1|]. apply nesting_at. exact F2.
    - injection E as <- <- <-. split; reflexivity.
    - injection E as <- <- <-. destruct (inb x (h_master h)); split; reflexivity.
    - destruct (passes h x); [injection E as <- <- <-; destruct (inb x (h_items h)); split; reflexivity|].
      destruct (drop_item _ _ _) as [h2 t2] eqn:E2. injection E as <- <- <-. destruct (drop_trace A_dec _ _ _ _ E2) as [F1 F2].
      split; [exact F1|]. apply nesting_at. exact F2.
    - injection E as <- <- <-. split; reflexivity.
    - injection E as <- <- <-. split; reflexivity.
    - injection E as <- <- <-. split; reflexivity.
    - injection E as <- <- <-. split; reflexivity.
    - injection E as <- <- <-. split; reflexivity.
    - destruct rest; injection E as <- <- <-; split; reflexivity.
    - destruct (apply_items A_dec ord h new) as [it t] eqn:E2. injection E as <- <- <-.
      destruct (apply_trace A_dec _ _ _ _ _ E2) as [F1 F2]. split; [exact F1|]. cbn [atflag]. clear - F2.
      assert (G : forall d', nesting d' t = Some (d' + 1)).
      { intros d'. induction d' as [|d' IH]; [exact F2|]. apply (nesting_weaken _ _ _ IH). }
      rewrite G. f_equal. lia.
    - injection E as <- <- <-. split; [reflexivity|]. rewrite Nat.add_1_r. cbn. f_equal. lia.
    - injection E as <- <- <-. split; reflexivity.
    - injection E as <- <- <-. split; reflexivity.
  Qed.

  Record inv (s : tst) : Prop := Inv {
    v_hold : forall t p, nth_error (t_calls s) t = Some p -> holds p = true -> t_owner s = Some t;
    v_own : forall t, t_owner s = Some t -> exists p, nth_error (t_calls s) t = Some p /\ holds p = true;
    v_h : h_ok (t_sh s);
    v_p : forall p, In p (t_calls s) -> p_ok (t_sh s) p;
    v_fix : forall y, (exists p, In p (t_calls s) /\ fixes (t_sh s) p y) \/
                      (hright (t_sh s) y /\ forall p, In p (t_calls s) -> ~ breaks (t_sh s) p y);
    v_log : f_follows [] (t_log s) (h_items (t_sh s));
    v_nest : nesting 0 (t_log s) = Some (length (filter atflag (t_calls s)))
  }.

  Lemma inv_new w : inv (t_new w : tst).
  Proof.
    constructor; cbn.
    - intros [|t] p; discriminate.
    - discriminate.
    - constructor; cbn; [constructor|constructor|intros y []].
    - intros p [].
    - intros y. right. split; [|intros p []]. unfold hright. cbn. tauto.
    - reflexivity.
    - reflexivity.
  Qed.

  Lemma starts_ok (p : tpc) : starts p = true -> holds p = false /\ atflag p = false.
  Proof. destruct p; cbn; auto; discriminate. Qed.

  (** only the call holding the mutex holds it *)
  Lemma alone (s : tst) t p : inv s -> nth_error (t_calls s) t = Some p -> blocked s p = false -> touches p = true ->
    forall u q, u <> t -> nth_error (t_calls s) u = Some q -> holds q = false.
  Proof.
    intros V Hp Hb Ht u q Hne Hq. destruct (holds q) eqn:E; [|reflexivity]. exfalso.
    pose proof (v_hold s V u q Hq E) as O. unfold touches in Ht. unfold blocked in Hb. rewrite O in Hb.
    rewrite Hb, orb_false_r in Ht. pose proof (v_hold s V t p Hp Ht). congruence.
  Qed.

  Lemma go_inv (s : tst) t p ord h1 p1 tr : inv s -> nth_error (t_calls s) t = Some p -> blocked s p = false ->
    (forall l, Permutation (ord l) l) -> t_move ord (t_sh s) p = (h1, p1, tr) ->
    inv (Ts h1 (if holds p1 then Some t else if holds p || acquires p then None else t_owner s)
            (t_put t p1 (t_calls s)) (t_log s ++ tr)).
  Proof.
    intros V Hp Hb Hord E.
    pose proof (fun K => alone s t p V Hp Hb K) as AL. fold (touches p).
    assert (Hin : In p (t_calls s)) by (eapply nth_error_In; exact Hp).
    destruct (move_ok A_dec _ _ _ _ _ _ E Hord (v_h s V) (v_p s V p Hin)) as [Hh1 Hp1].
    constructor; cbn.
    - intros u q Hq Hh. destruct (Nat.eq_dec u t) as [->|Hne].
      + rewrite (put_same _ _ _ _ Hp) in Hq. injection Hq as <-. rewrite Hh. reflexivity.
      + rewrite put_other in Hq by exact Hne. destruct (touches p) eqn:Et.
        * rewrite (AL eq_refl u q Hne Hq) in Hh. discriminate.
        * destruct (holds p1) eqn:E1; [rewrite (move_lock _ _ _ _ _ _ E E1) in Et; discriminate|]. exact (v_hold s V u q Hq Hh).
    - intros u Hu. destruct (holds p1) eqn:E1.
      + injection Hu as <-. exists p1. split; [eapply put_same; exact Hp|exact E1].
      + destruct (touches p) eqn:Et; [discriminate|]. destruct (v_own s V u Hu) as (q & Hq & Hh). exists q. split; [|exact Hh].
        rewrite put_other; [exact Hq|]. intros ->. rewrite Hp in Hq. injection Hq as <-. unfold touches in Et. rewrite Hh in Et. discriminate.
    - exact Hh1.
    - intros q Hq. apply (in_put t p1 p _ q Hp) in Hq as [->|(u & Hne & Hq)]; [exact Hp1|].
      destruct (touches p) eqn:Et; [apply waiting_ok, (AL eq_refl u q Hne Hq)|].
      destruct (move_free _ _ _ _ _ _ E Et) as (F1 & F2 & _). apply (ok_same (t_sh s)); [exact F1|exact F2|].
      apply (v_p s V). eapply nth_error_In. exact Hq.
    - intros y. pose proof (move_right A_dec _ _ _ _ _ _ y E Hord (v_h s V) (v_p s V p Hin)) as MR.
      assert (P1 : In p1 (t_put t p1 (t_calls s))) by (apply (in_put t p1 p _ p1 Hp); auto).
      assert (OT : forall u q, u <> t -> nth_error (t_calls s) u = Some q -> In q (t_put t p1 (t_calls s))).
      { intros u q H1 H2. apply (in_put t p1 p _ q Hp). eauto. }
      destruct (touches p) eqn:Et.
      + destruct (v_fix s V y) as [(q & Hq & Hf)|[Hr Hnb]].
        * apply (in_calls t p _ q Hp) in Hq as [->|(u & Hne & Hq)].
          -- destruct (MR (or_introl Hf)) as [K|[K1 K2]]; [left; eauto|]. right. split; [exact K1|].
             intros q Hq. apply (in_put t p1 p _ q Hp) in Hq as [->|(u & Hne & Hq)]; [exact K2|].
             apply waiting_breaks, (AL eq_refl u q Hne Hq).
          -- left. exists q. split; [eauto|]. eapply waiting_fixes; [apply (AL eq_refl u q Hne Hq)|exact Hf].
        * destruct (MR (or_intror (conj Hr (Hnb p Hin)))) as [K|[K1 K2]]; [left; eauto|]. right. split; [exact K1|].
          intros q Hq. apply (in_put t p1 p _ q Hp) in Hq as [->|(u & Hne & Hq)]; [exact K2|].
          apply waiting_breaks, (AL eq_refl u q Hne Hq).
      + destruct (move_free _ _ _ _ _ _ E Et) as (F1 & F2 & F3 & F4 & F5).
        destruct (v_fix s V y) as [(q & Hq & Hf)|[Hr Hnb]].
        * apply (in_calls t p _ q Hp) in Hq as [->|(u & Hne & Hq)].
          -- left. exists p1. split; [exact P1|]. clear - E Et Hf. destruct p; cbn in *; try contradiction; try discriminate. injection E as <- <- <-. exact I.
          -- left. destruct (F4 q y Hf) as [K|K]; eauto.
        * assert (D : fixes h1 p1 y \/ (hright h1 y /\ forall q, In q (t_calls s) -> ~ breaks h1 q y)).
          { clear - E Et Hr Hnb. destruct p; cbn in *; try discriminate; injection E as <- <- <-.
            - destruct (A_dec x y) as [->|Hne]; [left; reflexivity|]. right.
              assert (G : passes (Sh (h_master (t_sh s)) (h_items (t_sh s)) (update_content A_dec (h_content (t_sh s)) x c) (h_filter (t_sh s)) (h_flag (t_sh s))) y = passes (t_sh s) y).
              { unfold passes, update_content. cbn. destruct (A_dec y x); [congruence|reflexivity]. }
              split; [unfold hright; rewrite G; exact Hr|]. intros q Hq. specialize (Hnb q Hq). destruct q; cbn [breaks] in *; rewrite ?G; exact Hnb.
            - left. exact I.
            - left. exact I.
            - right. split; [exact Hr|]. intros q Hq. specialize (Hnb q Hq). destruct q; exact Hnb.
            - right. auto. }
          destruct D as [D|[D1 D2]]; [left; eauto|]. right. split; [exact D1|].
          intros q Hq. apply (in_put t p1 p _ q Hp) in Hq as [->|(u & Hne & Hq)]; [|apply D2; eapply nth_error_In; exact Hq].
          apply waiting_breaks. exact F3.
    - destruct (move_trace _ _ _ _ _ _ 0 E) as [T _]. eapply f_follows_app; [exact (v_log s V)|exact T].
    - pose proof (filter_put atflag t p1 (t_calls s) p Hp) as FP.
      set (d := length (filter atflag (t_calls s)) - if atflag p then 1 else 0) in *.
      assert (D : length (filter atflag (t_calls s)) = d + if atflag p then 1 else 0).
      { unfold d. destruct (atflag p) eqn:Ea; [|lia]. assert (K : In p (filter atflag (t_calls s))) by (apply filter_In; auto).
        destruct (filter atflag (t_calls s)); [destruct K|cbn; lia]. }
      destruct (move_trace _ _ _ _ _ _ d E) as [_ T]. rewrite (nesting_app _ _ _ _ (v_nest s V)), D, T. f_equal. lia.
  Qed.

  Lemma step_inv (s : tst) a : inv s -> visits a -> inv (t_step s a).
  Proof.
    intros V Ha. destruct a as [p|t ord]; cbn [FiltThr_Model.t_step].
    - destruct (starts p) eqn:Es; [|exact V]. destruct (starts_ok p Es) as [Hh Hf].
      assert (NT : forall t q, nth_error (t_calls s ++ [p]) t = Some q -> nth_error (t_calls s) t = Some q \/ q = p).
      { intros t q H. destruct (Nat.lt_ge_cases t (length (t_calls s))) as [L|L].
        - rewrite nth_error_app1 in H by exact L. auto.
        - rewrite nth_error_app2 in H by exact L. destruct (t - length (t_calls s)) as [|[|k]]; cbn in H; try discriminate. injection H as <-. auto. }
      constructor; cbn.
      + intros t q Hq Hhq. destruct (NT _ _ Hq) as [K| ->]; [exact (v_hold s V t q K Hhq)|congruence].
      + intros t Ho. destruct (v_own s V t Ho) as (q & Hq & Hhq). exists q. split; [|exact Hhq].
        rewrite nth_error_app1; [exact Hq|]. apply nth_error_Some. congruence.
      + exact (v_h s V).
      + intros q Hq. apply in_app_iff in Hq as [Hq|[<-|[]]]; [exact (v_p s V q Hq)|apply waiting_ok, Hh].
      + intros y. destruct (v_fix s V y) as [(q & Hq & K)|[K1 K2]].
        * left. exists q. split; [apply in_app_iff; auto|exact K].
        * right. split; [exact K1|]. intros q Hq. apply in_app_iff in Hq as [Hq|[<-|[]]]; [exact (K2 q Hq)|apply waiting_breaks, Hh].
      + exact (v_log s V).
      + rewrite filter_app, app_length. cbn. rewrite Hf. cbn. rewrite Nat.add_0_r. exact (v_nest s V).
    - destruct (nth_error (t_calls s) t) as [p|] eqn:Hp; [|exact V].
      destruct (blocked s p) eqn:Hb; [exact V|].
      destruct (t_move ord (t_sh s) p) as [[h1 p1] tr] eqn:E. eapply go_inv; eassumption.
  Qed.

  Lemma run_inv_from acts : forall s : tst, inv s -> Forall visits acts -> inv (fold_left t_step acts s).
  Proof.
    induction acts as [|a acts IH]; intros s V Ha; cbn [fold_left]; [exact V|]. inversion Ha; subst.
    apply IH; [apply step_inv; assumption|assumption].
  Qed.
  Lemma run_inv w acts : Forall visits acts -> inv (t_run A_dec w acts).
  Proof. intros H. apply run_inv_from; [apply inv_new|exact H]. Qed.
End FT2.
