From Coq Require Import List ZArith Bool Arith Permutation Sorted Lia.
From Verif Require Import PyBase Filtered_Model Filtered_Spec Filtered_Proofs Filtered_Proofs2 Filtered_Proofs3
  FiltThr_Model FiltThr_Spec FiltThr_Proofs FiltThr_Proofs2.
Import ListNotations.

Section FT3.
  Context {A C : Type} (A_dec : forall a b : A, {a = b} + {a <> b}).
  Notation inb := (inb A_dec).
  Notation tst := (tst A C).
  Notation tact := (tact A C).
  Notation tpc := (tpc A C).
  Notation shared := (shared A C).
  Notation t_step := (t_step A_dec).
  Notation t_move := (t_move A_dec).
  Notation inv := (inv (A := A) (C := C)).

  (** -- the place found for an item -- *)
  Lemma place_sub (h : shared) x : h_ok h -> In x (h_master h) -> ~ In x (h_items h) -> sub (h_items h) (h_master h) ->
    (forall y, y <> x -> hright h y) ->
    sub (insert_at (find_unsorted A_dec (passes h) x (h_master h)) x (h_items h)) (h_master h).
  Proof.
    intros [Hm Hi Hin] Hx Hnx [f Hf] Hr. apply in_split in Hx as (l1 & l2 & E).
    assert (Hx : ~ In x l1 /\ ~ In x l2) by (rewrite E in Hm; apply nodup_app_parts in Hm; tauto).
    assert (G : h_items h = filter (passes h) l1 ++ filter (passes h) l2).
    { rewrite Hf, E, filter_app_cons. destruct (f x) eqn:Ef.
      - exfalso. apply Hnx. rewrite Hf. apply filter_In. split; [rewrite E; apply in_elt|exact Ef].
      - cbn [app]. assert (Q : forall y, In y (h_master h) -> y <> x -> f y = passes h y).
        { intros y Hy Hne. specialize (Hr y Hne). unfold hright in Hr. rewrite Hf in Hr at 1. rewrite filter_In in Hr.
          destruct (f y), (passes h y); intuition congruence. }
        f_equal; apply filter_ext_in'; intros y Hy; apply Q; try (rewrite E; apply in_app_iff; cbn; tauto); intros ->; tauto. }
    rewrite E, (find_unsorted_app A_dec), G by tauto. rewrite insert_at_app.
    exists (fun y => if A_dec y x then true else passes h y). rewrite filter_app_cons. destruct (A_dec x x); [|congruence].
    cbn [app]. f_equal; [|f_equal]; apply filter_ext_in'; intros y Hy; (destruct (A_dec y x) as [->|]; [exfalso; tauto|reflexivity]).
  Qed.

  Lemma drop_sub (h : shared) x h1 tr : drop_item A_dec h x = (h1, tr) -> NoDup (h_items h) ->
    sub (h_items h) (h_master h) -> sub (h_items h1) (h_master h).
  Proof.
    intros E Hn Hs. destruct (drop_spec A_dec _ _ _ _ E Hn) as (_ & _ & _ & [[_ ->]|(i1 & i2 & E1 & Hx & ->)]); [exact Hs|].
    rewrite E1 in Hn. apply nodup_app_parts in Hn as (H1 & H2 & _).
    assert (G : i1 ++ i2 = filter (fun y => if A_dec y x then false else true) (h_items h)).
    { rewrite E1, filter_app_cons. destruct (A_dec x x); [|congruence]. cbn [app].
      f_equal; symmetry; apply filter_all; intros y Hy; (destruct (A_dec y x) as [->|]; [contradiction|reflexivity]). }
    rewrite G. apply sub_filter. exact Hs.
  Qed.

  Lemma move_sub ord (h : shared) p h1 p1 tr : t_move ord h p = (h1, p1, tr) -> (forall l, Permutation (ord l) l) ->
    h_ok h -> p_ok h p -> (forall x, p = TPlace x -> forall y, y <> x -> hright h y) ->
    sub (h_items h) (h_master h) -> sub (h_items h1) (h_master h1).
  Proof.
    intros E Hord Hh Hp Hpl Hs. destruct p; cbn [FiltThr_Model.t_move] in E; cbn [p_ok] in Hp;
      try (injection E as <- <- <-; exact Hs).
    - destruct (inb x (h_master h)) eqn:Ex; injection E as <- <- <-; [exact Hs|]. cbn.
      apply inb_false in Ex. destruct (py_insert_split i x (h_master h)) as (l1 & l2 & E & ->). rewrite E in *.
      apply (sub_ins A_dec); assumption.
    - injection E as <- <- <-. cbn. destruct Hp. apply place_sub; try assumption. apply Hpl. reflexivity.
    - destruct (py_get (h_master h) i) as [x|] eqn:Eg; [|injection E as <- <- <-; exact Hs].
      destruct (py_get_split _ _ _ Eg) as (l1 & l2 & El & _ & Ed). rewrite Ed in E.
      destruct (drop_item _ _ _) as [h2 t2] eqn:E2. injection E as <- <- <-.
      destruct (drop_spec A_dec _ _ _ _ E2 (k_items h Hh)) as (F1 & _ & _ & F4). rewrite F1. cbn [set_items h_master h_items] in *.
      pose proof (k_master h Hh) as Hm. rewrite El in Hm, Hs.
      destruct F4 as [[F4 ->]|(i1 & i2 & G1 & G2 & ->)]; [eapply sub_del_none; eassumption|eapply sub_del; eassumption].
    - destruct (passes h x); [injection E as <- <- <-; exact Hs|].
      destruct (drop_item _ _ _) as [h2 t2] eqn:E2. injection E as <- <- <-.
      destruct (drop_spec A_dec _ _ _ _ E2 (k_items h Hh)) as (F1 & _). pose proof (drop_sub _ _ _ _ E2 (k_items h Hh) Hs) as G.
      rewrite F1. exact G.
    - destruct rest; injection E as <- <- <-; exact Hs.
    - destruct (apply_items A_dec ord h new) as [it t] eqn:E2. injection E as <- <- <-. cbn.
      destruct (apply_spec A_dec _ _ _ _ _ E2 Hord (k_items h Hh) (sub_nodup _ _ Hp (k_master h Hh))) as (_ & _ & F).
      rewrite F; [exact Hp|exact (k_master h Hh)|exact Hs|exact Hp].
  Qed.

  Lemma exact_of (s : tst) : sub (items s) (master s) -> (forall y, right s y) -> exact s.
  Proof.
    intros [f Hf] Hr. unfold exact. rewrite Hf. apply filter_ext_in'. intros y Hy. specialize (Hr y). unfold right in Hr.
    rewrite Hf, filter_In in Hr. destruct (f y), (wanted s y); intuition congruence.
  Qed.

  Lemma over_right (s : tst) : inv s -> over s -> forall y, right s y.
  Proof.
    intros V Ho y. destruct (v_fix s V y) as [(p & Hp & Hf)|[Hr _]]; [|exact Hr]. rewrite (Ho p Hp) in Hf. destruct Hf.
  Qed.

  (** -- first discipline -- *)
  Lemma apart_place (s : tst) t x : inv s -> edits_apart s -> updates_apart s -> nth_error (t_calls s) t = Some (TPlace x) ->
    forall y, y <> x -> hright (t_sh s) y.
  Proof.
    intros V HA HB Hp y Hne. destruct (v_fix s V y) as [(q & Hq & Hf)|[Hr _]]; [|exact Hr]. exfalso.
    pose proof (nth_error_In _ _ Hp) as Hin. destruct (HB x Hin) as [B1 B2].
    apply (in_calls t _ _ q Hp) in Hq as [->|(u & Hu & Hq)]; [destruct Hf; congruence|].
    assert (Hh : holds q = false) by (eapply (alone s t); [exact V|exact Hp| |reflexivity|exact Hu|exact Hq]; unfold blocked; destruct (t_owner s); reflexivity).
    apply nth_error_In in Hq. destruct q; cbn in Hh, Hf; try discriminate; try contradiction. subst. apply Hne, (HA _ _ Hin Hq).
  Qed.

  Lemma throughout_now (P : tst -> Prop) s acts : throughout A_dec P s acts -> P s.
  Proof. destruct acts; cbn; tauto. Qed.

  Lemma step_sub (s : tst) a : inv s -> visits a -> edits_apart s -> updates_apart s ->
    sub (items s) (master s) -> sub (items (t_step s a)) (master (t_step s a)).
  Proof.
    intros V Ha HA HB Hs. destruct a as [p|t ord]; cbn [FiltThr_Model.t_step].
    - destruct (starts p); exact Hs.
    - destruct (nth_error (t_calls s) t) as [p|] eqn:Hp; [|exact Hs]. destruct (blocked s p) eqn:Hb; [exact Hs|].
      destruct (t_move ord (t_sh s) p) as [[h1 p1] tr] eqn:E. unfold items, master. cbn [t_sh].
      eapply move_sub; [exact E|exact Ha|exact (v_h s V)|apply (v_p s V); eapply nth_error_In; exact Hp| |exact Hs].
      intros x ->. eapply apart_place; eassumption.
  Qed.
  Lemma run_sub acts : forall s : tst, inv s -> Forall visits acts -> sub (items s) (master s) ->
    throughout A_dec (fun s => edits_apart s /\ updates_apart s) s acts ->
    sub (items (fold_left t_step acts s)) (master (fold_left t_step acts s)).
  Proof.
    induction acts as [|a acts IH]; intros s V Hv Hs HT; cbn [fold_left]; [exact Hs|].
    destruct HT as [[HA HB] HT]. inversion Hv; subst. apply IH; [apply step_inv; assumption|assumption| |exact HT].
    apply step_sub; assumption.
  Qed.

  (** -- second discipline -- *)
  Definition local (p : tpc) : Prop := match p with TTell _ | TCheck _ | TMatch _ | TPlace _ => True | _ => False end.
  Definition lfix (h : shared) (calls : list tpc) (y : A) : Prop := exists p, In p calls /\ local p /\ fixes h p y.
  Definition zpt (h : shared) (calls : list tpc) (y : A) : Prop :=
    lfix h calls y \/ (hright h y /\ forall p, In p calls -> ~ breaks h p y).
  Definition zed (s : tst) : Prop := sub (items s) (master s) /\ forall y, zpt (t_sh s) (t_calls s) y.
  Definition building (p : tpc) : Prop := match p with TBuild _ _ | TApply _ => True | _ => False end.
  Record ordinv (s : tst) : Prop := Oinv {
    o_w : zed s \/ In TSetFlag (t_calls s) \/ (h_flag (t_sh s) = false /\ exists p, In p (t_calls s) /\ (p = TUpd \/ building p));
    o_g : forall p, In p (t_calls s) -> building p -> forall y, fixes (t_sh s) p y \/ lfix (t_sh s) (t_calls s) y;
    o_f : In TFlag (t_calls s) -> zed s
  }.

  Lemma fixes_not_breaks h (p : tpc) y : fixes h p y -> ~ breaks h p y.
  Proof. destruct p; cbn; try tauto. intros [-> ->] [_ K]. discriminate. Qed.
  Lemma building_dec h (p : tpc) y : building p -> ~ breaks h p y -> fixes h p y.
  Proof.
    destruct p; cbn; try contradiction; intros _ H.
    - destruct (in_dec A_dec y rest); [auto|]. right. destruct (list_dec A_dec h acc y); [assumption|]. exfalso. auto.
    - destruct (list_dec A_dec h new y); [assumption|contradiction].
  Qed.
  Lemma waiting_local h h1 (q : tpc) y : holds q = false -> fixes h q y -> fixes h1 q y.
  Proof. destruct q; cbn; try discriminate; auto. Qed.

  (** a step other than writing the filter keeps [zpt] *)
  Lemma go_zpt (s : tst) t p ord h1 p1 tr y : inv s -> nth_error (t_calls s) t = Some p -> blocked s p = false ->
    (forall l, Permutation (ord l) l) -> t_move ord (t_sh s) p = (h1, p1, tr) -> p1 <> TSetFlag ->
    zpt (t_sh s) (t_calls s) y -> zpt h1 (t_put t p1 (t_calls s)) y.
  Proof.
    intros V Hp Hb Hord E Hns HZ.
    pose proof (fun K => alone s t p V Hp Hb K) as AL.
    assert (Hin : In p (t_calls s)) by (eapply nth_error_In; exact Hp).
    pose proof (move_right A_dec _ _ _ _ _ _ y E Hord (v_h s V) (v_p s V p Hin)) as MR.
    assert (P1 : In p1 (t_put t p1 (t_calls s))) by (apply (in_put t p1 p _ p1 Hp); auto).
    assert (OT : forall u q, u <> t -> nth_error (t_calls s) u = Some q -> In q (t_put t p1 (t_calls s))).
    { intros u q H1 H2. apply (in_put t p1 p _ q Hp). eauto. }
    assert (NB : touches p = true -> ~ breaks h1 p1 y -> forall q, In q (t_put t p1 (t_calls s)) -> ~ breaks h1 q y).
    { intros Et K q Hq. apply (in_put t p1 p _ q Hp) in Hq as [->|(u & Hne & Hq)]; [exact K|].
      apply waiting_breaks, (AL Et u q Hne Hq). }
    destruct (touches p) eqn:Et.
    - (* holding or taking the mutex *)
      assert (OTH : forall u q, u <> t -> nth_error (t_calls s) u = Some q -> local q -> fixes (t_sh s) q y -> zpt h1 (t_put t p1 (t_calls s)) y).
      { intros u q Hne Hq Hl Hf. left. exists q. split; [eauto|]. split; [exact Hl|].
        eapply waiting_fixes; [apply (AL eq_refl u q Hne Hq)|exact Hf]. }
      destruct HZ as [(q & Hq & Hl & Hf)|[Hr Hnb]].
      + apply (in_calls t p _ q Hp) in Hq as [->|(u & Hne & Hq)]; [|eauto].
        destruct (MR (or_introl Hf)) as [K|[K1 K2]]; [|right; split; [exact K1|apply NB; auto]].
        left. exists p1. split; [exact P1|]. split; [|exact K].
        clear - E Hl K. destruct p; cbn in Hl; try contradiction; cbn in E.
        * injection E as <- <- <-. destruct (passes (t_sh s) x); cbn in K; [exact I|contradiction].
        * injection E as <- <- <-. destruct K.
        * injection E as <- <- <-. destruct (inb x (h_master (t_sh s))); [exact I|destruct K].
        * destruct (passes (t_sh s) x); [injection E as <- <- <-; destruct (inb x _); [destruct K|exact I]|].
          destruct (drop_item _ _ _). injection E as <- <- <-. destruct K.
      + destruct (MR (or_intror (conj Hr (Hnb p Hin)))) as [K|[K1 K2]]; [|right; split; [exact K1|apply NB; auto]].
        destruct (holds p1) eqn:Eh1.
        * clear - E Et Hr K NB P1 Eh1. destruct p; cbn in Et; try discriminate; cbn in E.
          -- destruct (inb x (h_master (t_sh s))); injection E as <- <- <-; [discriminate|].
             left. exists (TMatch x). cbn. auto.
          -- injection E as <- <- <-. destruct (passes (t_sh s) x); [|destruct K]. left. exists (TPlace x). cbn. auto.
          -- injection E as <- <- <-. destruct K.
          -- destruct (py_get _ _); [|injection E as <- <- <-; destruct K]. destruct (py_del _ _); [|injection E as <- <- <-; destruct K].
             destruct (drop_item _ _ _). injection E as <- <- <-. destruct K.
          -- injection E as <- <- <-. destruct (inb x _); [|destruct K]. left. exists (TCheck x). cbn. auto.
          -- destruct (passes (t_sh s) x); [injection E as <- <- <-; destruct (inb x _); [destruct K|left; exists (TMatch x); cbn; auto]|].
             destruct (drop_item _ _ _). injection E as <- <- <-. destruct K.
          -- injection E as <- <- <-. discriminate.
          -- injection E as <- <- <-. right. split; [exact Hr|]. apply NB; [reflexivity|]. apply fixes_not_breaks, K.
          -- destruct rest; injection E as <- <- <-; (right; split; [exact Hr|]; apply NB; [reflexivity|]; apply fixes_not_breaks, K).
          -- destruct (apply_items _ _ _ _). injection E as <- <- <-. destruct K.
          -- injection E as <- <- <-. destruct K.
          -- injection E as <- <- <-. destruct K.
        * assert (P2 : p = TSortKey).
          { clear - E Et K Eh1 Hns. destruct p; cbn in Et; try discriminate; cbn in E; try reflexivity; exfalso.
            - destruct (inb x (h_master (t_sh s))); injection E as <- <- <-; [destruct K|discriminate].
            - injection E as <- <- <-. destruct (passes (t_sh s) x); [discriminate|destruct K].
            - injection E as <- <- <-. destruct K.
            - destruct (py_get _ _); [|injection E as <- <- <-; destruct K]. destruct (py_del _ _); [|injection E as <- <- <-; destruct K].
              destruct (drop_item _ _ _). injection E as <- <- <-. destruct K.
            - injection E as <- <- <-. destruct (inb x _); [discriminate|destruct K].
            - destruct (passes (t_sh s) x); [injection E as <- <- <-; destruct (inb x _); discriminate|].
              destruct (drop_item _ _ _). injection E as <- <- <-. destruct K.
            - injection E as <- <- <-. discriminate.
            - destruct rest; injection E as <- <- <-; discriminate.
            - destruct (apply_items _ _ _ _). injection E as <- <- <-. destruct K.
            - injection E as <- <- <-. destruct K.
            - injection E as <- <- <-. destruct K. }
          subst p. cbn in E. injection E as <- <- <-. right. split; [exact Hr|]. apply NB; [reflexivity|intros []].
    - destruct (move_free A_dec _ _ _ _ _ _ E Et) as (F1 & F2 & F3 & F4 & F5).
      assert (D : p1 = TTell y \/ (forall q, (fixes (t_sh s) q y -> fixes h1 q y) /\ (breaks h1 q y -> breaks (t_sh s) q y)) /\
                  (hright (t_sh s) y -> hright h1 y)).
      { clear - E Et Hns. destruct p; cbn in *; try discriminate; injection E as <- <- <-.
        - destruct (A_dec x y) as [->|Hne]; [left; reflexivity|]. right.
          assert (G : passes (Sh (h_master (t_sh s)) (h_items (t_sh s)) (update_content A_dec (h_content (t_sh s)) x c) (h_filter (t_sh s)) (h_flag (t_sh s))) y = passes (t_sh s) y).
          { unfold passes, update_content. cbn. destruct (A_dec y x); [congruence|reflexivity]. }
          split; [|unfold hright; rewrite G; auto]. intros q. destruct q; cbn [fixes breaks]; rewrite ?G; auto.
        - congruence.
        - right. split; [|auto]. intros q. destruct q; auto.
        - right. split; [|auto]. intros q. destruct q; auto.
        - right. auto. }
      destruct D as [-> |[D1 D2]]; [left; exists (TTell y); cbn; auto|].
      destruct HZ as [(q & Hq & Hl & Hf)|[Hr Hnb]].
      + apply (in_calls t p _ q Hp) in Hq as [->|(u & Hne & Hq)].
        * exfalso. clear - Et Hl. destruct p; cbn in *; try contradiction; discriminate.
        * left. exists q. split; [eauto|]. split; [exact Hl|]. apply D1, Hf.
      + right. split; [apply D2, Hr|]. intros q Hq. apply (in_put t p1 p _ q Hp) in Hq as [->|(u & Hne & Hq)].
        * apply waiting_breaks. exact F3.
        * intros K. apply (Hnb q); [eapply nth_error_In; exact Hq|]. apply D1, K.
  Qed.

  Lemma lfix_other (s : tst) t x y : inv s -> nth_error (t_calls s) t = Some (TPlace x) -> edits_apart s -> y <> x ->
    ~ lfix (t_sh s) (t_calls s) y.
  Proof.
    intros V Hp HA Hne (q & Hq & Hl & Hf). pose proof (nth_error_In _ _ Hp) as Hin.
    apply (in_calls t _ _ q Hp) in Hq as [->|(u & Hu & Hq)]; [destruct Hf; congruence|].
    assert (Hh : holds q = false) by (eapply (alone s t); [exact V|exact Hp| |reflexivity|exact Hu|exact Hq]; unfold blocked; destruct (t_owner s); reflexivity).
    apply nth_error_In in Hq. destruct q; cbn in Hh, Hf, Hl; try discriminate; try contradiction. subst. apply Hne, (HA _ _ Hin Hq).
  Qed.

  Lemma go_zed (s : tst) t p ord h1 p1 tr ow : inv s -> nth_error (t_calls s) t = Some p -> blocked s p = false ->
    (forall l, Permutation (ord l) l) -> t_move ord (t_sh s) p = (h1, p1, tr) -> p1 <> TSetFlag -> edits_apart s ->
    zed s -> zed (Ts h1 ow (t_put t p1 (t_calls s)) (t_log s ++ tr)).
  Proof.
    intros V Hp Hb Hord E Hns HA [Hs HZ]. split; [|intros y; cbn; eapply go_zpt; eauto].
    unfold items, master. cbn [t_sh].
    eapply move_sub; [exact E|exact Hord|exact (v_h s V)|apply (v_p s V); eapply nth_error_In; exact Hp| |exact Hs].
    intros x -> y Hne. destruct (HZ y) as [K|[K _]]; [|exact K]. exfalso. eapply lfix_other; eassumption.
  Qed.

  (** the new list takes effect *)
  Lemma go_apply (s : tst) t new ord h1 p1 tr ow : inv s -> nth_error (t_calls s) t = Some (TApply new) ->
    (forall l, Permutation (ord l) l) -> t_move ord (t_sh s) (TApply new) = (h1, p1, tr) ->
    h_flag (t_sh s) = false -> (forall y, fixes (t_sh s) (TApply new) y \/ lfix (t_sh s) (t_calls s) y) ->
    zed (Ts h1 ow (t_put t p1 (t_calls s)) (t_log s ++ tr)).
  Proof.
    intros V Hp Hord E Hfl HG. pose proof (v_h s V) as Hh. pose proof (v_p s V _ (nth_error_In _ _ Hp)) as Hsub. cbn [p_ok] in Hsub.
    cbn [FiltThr_Model.t_move] in E. destruct (apply_items A_dec ord (t_sh s) new) as [it t'] eqn:E2. injection E as <- <- <-.
    destruct (apply_spec A_dec _ _ _ _ _ E2 Hord (k_items _ Hh) (sub_nodup _ _ Hsub (k_master _ Hh))) as (_ & F & _).
    rewrite (F Hfl) in *. split; [exact Hsub|]. intros y. cbn [t_sh t_calls].
    assert (AL : forall u q, u <> t -> nth_error (t_calls s) u = Some q -> holds q = false).
    { eapply alone; [exact V|exact Hp| |reflexivity]. unfold blocked. destruct (t_owner s); reflexivity. }
    destruct (HG y) as [K|(q & Hq & Hl & Hf)].
    - right. split; [exact K|]. intros q Hq. apply (in_put t _ _ _ q Hp) in Hq as [->|(u & Hne & Hq)]; [intros []|].
      apply waiting_breaks. eauto.
    - left. apply (in_calls t _ _ q Hp) in Hq as [->|(u & Hne & Hq)]; [destruct Hl|].
      exists q. split; [apply (in_put t _ _ _ q Hp); eauto|]. split; [exact Hl|]. eapply waiting_fixes; [eauto|exact Hf].
  Qed.

  Lemma step_ord (s : tst) a : inv s -> visits a -> edits_apart s -> filters_apart s -> filters_apart (t_step s a) ->
    ordinv s -> ordinv (t_step s a).
  Proof.
    intros V Ha HA HF HF1 [HW HG HFl]. destruct a as [p|t ord]; cbn [FiltThr_Model.t_step] in *.
    - destruct (starts p) eqn:Es; [|constructor; assumption]. destruct (starts_ok p Es) as [Hh _].
      assert (IN : forall q, In q (t_calls s ++ [p]) -> In q (t_calls s) \/ q = p).
      { intros q Hq. apply in_app_iff in Hq as [Hq|[<-|[]]]; auto. }
      assert (Z1 : zed s -> zed (Ts (t_sh s) (t_owner s) (t_calls s ++ [p]) (t_log s))).
      { intros [H1 H2]. split; [exact H1|]. intros y. cbn. destruct (H2 y) as [(q & K1 & K2)|[K1 K2]].
        - left. exists q. split; [apply in_app_iff; auto|exact K2].
        - right. split; [exact K1|]. intros q Hq. destruct (IN q Hq) as [K| ->]; [exact (K2 q K)|apply waiting_breaks, Hh]. }
      constructor; cbn.
      + destruct HW as [K|[K|(K1 & q & K2 & K3)]]; [left; exact (Z1 K)|right; left; apply in_app_iff; auto|].
        right. right. split; [exact K1|]. exists q. split; [apply in_app_iff; auto|exact K3].
      + intros q Hq Hbq y. destruct (IN q Hq) as [K| ->]; [|destruct p; cbn in *; try discriminate; contradiction].
        destruct (HG q K Hbq y) as [G|(r & G1 & G2)]; [auto|]. right. exists r. split; [apply in_app_iff; auto|exact G2].
      + intros Hq. destruct (IN _ Hq) as [K| <-]; [exact (Z1 (HFl K))|discriminate].
    - destruct (nth_error (t_calls s) t) as [p|] eqn:Hp; [|constructor; assumption].
      destruct (blocked s p) eqn:Hb; [constructor; assumption|].
      destruct (t_move ord (t_sh s) p) as [[h1 p1] tr] eqn:E. cbn in Ha.
      set (ow := if holds p1 then Some t else if holds p || acquires p then None else t_owner s) in *.
      set (s1 := Ts h1 ow (t_put t p1 (t_calls s)) (t_log s ++ tr)) in *.
      assert (Hin : In p (t_calls s)) by (eapply nth_error_In; exact Hp).
      assert (P1 : In p1 (t_calls s1)) by (apply (in_put t p1 p _ p1 Hp); auto).
      assert (OT : forall u q, u <> t -> nth_error (t_calls s) u = Some q -> In q (t_calls s1)).
      { intros u q H1 H2. apply (in_put t p1 p _ q Hp). eauto. }
      assert (IN : forall q, In q (t_calls s1) -> q = p1 \/ exists u, u <> t /\ nth_error (t_calls s) u = Some q).
      { intros q Hq. apply (in_put t p1 p _ q Hp) in Hq. exact Hq. }
      assert (Dec : p1 = TSetFlag \/ p1 <> TSetFlag) by (destruct p1; auto; right; discriminate).
      destruct Dec as [D|D].
      { (* the filter has been written *)
        subst p1. constructor.
        - right. left. exact P1.
        - intros q Hq Hbq. exfalso. specialize (HF1 P1 q Hq). destruct q; cbn in Hbq; contradiction.
        - intros Hq. exfalso. exact (HF1 P1 _ Hq). }
      assert (Z1 : zed s -> zed s1) by (intros K; eapply go_zed; eassumption).
      assert (NS : In TSetFlag (t_calls s1) -> exists u, u <> t /\ nth_error (t_calls s) u = Some TSetFlag).
      { intros K. destruct (IN _ K) as [K1|K1]; [congruence|exact K1]. }
      (* the list being applied *)
      assert (AP : forall new, p = TApply new -> zed s1).
      { intros new ->. destruct HW as [K|[K|(K & _)]]; [exact (Z1 K)|exfalso; exact (HF K _ Hin)|].
        eapply go_apply; [exact V|exact Hp|exact Ha|exact E|exact K|]. exact (HG _ Hin I). }
      constructor.
      + destruct HW as [K|[K|(K & q & K2 & K3)]]; [left; exact (Z1 K)| |].
        * apply In_nth_error in K as [u K]. destruct (Nat.eq_dec u t) as [->|Hne].
          -- rewrite Hp in K. injection K as ->. cbn in E. injection E as <- <- <-. right. right. split; [reflexivity|].
             exists TUpd. auto.
          -- right. left. eauto.
        * assert (FLG : p = TFlag \/ h_flag h1 = false).
          { clear - E K. destruct p; cbn in E; auto; right.
            - destruct (inb x (h_master (t_sh s))); injection E as <- <- <-; exact K.
            - injection E as <- <- <-; exact K.
            - injection E as <- <- <-; exact K.
            - destruct (py_get _ _) as [x|]; [|injection E as <- <- <-; exact K]. destruct (py_del _ _) as [m|]; [|injection E as <- <- <-; exact K].
              unfold drop_item in E. destruct (index_of _ _ _); injection E as <- <- <-; exact K.
            - injection E as <- <- <-; exact K.
            - injection E as <- <- <-; exact K.
            - destruct (passes (t_sh s) x); [injection E as <- <- <-; exact K|].
              unfold drop_item in E. destruct (index_of _ _ _); injection E as <- <- <-; exact K.
            - injection E as <- <- <-; exact K.
            - injection E as <- <- <-; reflexivity.
            - injection E as <- <- <-; reflexivity.
            - injection E as <- <- <-; reflexivity.
            - injection E as <- <- <-; exact K.
            - destruct rest; injection E as <- <- <-; exact K.
            - destruct (apply_items _ _ _ _). injection E as <- <- <-; exact K.
            - injection E as <- <- <-; exact K.
            - injection E as <- <- <-; exact K. }
          destruct FLG as [->|FLG]; [left; apply Z1, HFl, Hin|].
          apply (in_calls t p _ q Hp) in K2 as [->|(u & Hne & Hq)].
          -- destruct K3 as [->|K3].
             ++ right. right. split; [exact FLG|]. cbn in E. injection E as <- <- <-. eexists. split; [exact P1|]. right. exact I.
             ++ destruct p; cbn in K3; try contradiction.
                ** right. right. split; [exact FLG|]. exists p1. split; [exact P1|]. right.
                   cbn in E. destruct rest; injection E as <- <- <-; exact I.
                ** left. eapply AP. reflexivity.
          -- right. right. split; [exact FLG|]. exists q. split; [eauto|exact K3].
      + intros q Hq Hbq y. destruct (IN q Hq) as [->|(u & Hne & Hq')].
        * (* the call itself *)
          assert (BT : p = TUpd \/ exists acc rest, p = TBuild acc rest).
          { clear - E Hbq. destruct p; cbn in E; eauto; exfalso.
            - destruct (inb x (h_master (t_sh s))); injection E as <- <- <-; exact Hbq.
            - injection E as <- <- <-. destruct (passes (t_sh s) x); exact Hbq.
            - injection E as <- <- <-; exact Hbq.
            - destruct (py_get _ _) as [x|]; [|injection E as <- <- <-; exact Hbq]. destruct (py_del _ _) as [m|]; [|injection E as <- <- <-; exact Hbq].
              destruct (drop_item _ _ _); injection E as <- <- <-; exact Hbq.
            - injection E as <- <- <-; exact Hbq.
            - injection E as <- <- <-. destruct (inb x _); exact Hbq.
            - destruct (passes (t_sh s) x); [injection E as <- <- <-; destruct (inb x _); exact Hbq|].
              destruct (drop_item _ _ _); injection E as <- <- <-; exact Hbq.
            - injection E as <- <- <-; exact Hbq.
            - injection E as <- <- <-; exact Hbq.
            - injection E as <- <- <-; exact Hbq.
            - injection E as <- <- <-; exact Hbq.
            - destruct (apply_items _ _ _ _). injection E as <- <- <-; exact Hbq.
            - injection E as <- <- <-; exact Hbq.
            - injection E as <- <- <-; exact Hbq.
            - injection E as <- <- <-; exact Hbq. }
          destruct BT as [->|(acc & rest & ->)].
          -- left. cbn in E. injection E as <- <- <-. cbn. destruct (in_dec A_dec y (h_master (t_sh s))); [auto|right; tauto].
          -- destruct (HG _ Hin I y) as [G|(r & G1 & G2 & G3)].
             ++ left. destruct (move_right A_dec _ _ _ _ _ _ y E Ha (v_h s V) (v_p s V _ Hin) (or_introl G)) as [K|[_ K]]; [exact K|].
                apply (building_dec _ _ _ Hbq K).
             ++ right. apply (in_calls t _ _ r Hp) in G1 as [->|(u & Hne & G1)]; [destruct G2|].
                exists r. split; [eauto|]. split; [exact G2|].
                assert (h1 = t_sh s) as -> by (cbn in E; destruct rest; injection E as <- <- <-; reflexivity). exact G3.
        * (* another call builds, so this one is not using the mutex *)
          assert (Hhq : holds q = true) by (destruct q; cbn in Hbq; try contradiction; reflexivity).
          assert (Et : touches p = false).
          { destruct (touches p) eqn:Et; [|reflexivity]. rewrite (alone s t p V Hp Hb Et u q Hne Hq') in Hhq. discriminate. }
          assert (D1 : p1 = TTell y \/ (forall r, fixes (t_sh s) r y -> fixes h1 r y)).
          { clear - E Et D. destruct p; cbn in *; try discriminate; injection E as <- <- <-.
            - destruct (A_dec x y) as [->|Hxy]; [left; reflexivity|]. right. intros r.
              assert (G : passes (Sh (h_master (t_sh s)) (h_items (t_sh s)) (update_content A_dec (h_content (t_sh s)) x c) (h_filter (t_sh s)) (h_flag (t_sh s))) y = passes (t_sh s) y).
              { unfold passes, update_content. cbn. destruct (A_dec y x); [congruence|reflexivity]. }
              destruct r; cbn [fixes]; rewrite ?G; auto.
            - congruence.
            - right. intros r. destruct r; auto.
            - right. intros r. destruct r; auto.
            - right. auto. }
          destruct D1 as [-> |D1]; [right; exists (TTell y); cbn; auto|].
          destruct (HG q (nth_error_In _ _ Hq') Hbq y) as [G|(r & G1 & G2 & G3)]; [left; apply D1, G|right].
          apply (in_calls t _ _ r Hp) in G1 as [->|(v & Hv & G1)].
          -- exfalso. clear - G2 Et. destruct p; cbn in *; try contradiction; discriminate.
          -- exists r. split; [eauto|]. split; [exact G2|]. apply D1, G3.
      + intros K. destruct (IN _ K) as [K1|(u & Hne & K1)]; [|apply Z1, HFl; eapply nth_error_In; exact K1].
        assert (BT : exists new, p = TApply new).
        { clear - E K1. subst p1. destruct p; cbn in E; eauto; exfalso.
          - destruct (inb x (h_master (t_sh s))); discriminate.
          - destruct (passes (t_sh s) x); discriminate.
          - discriminate.
          - destruct (py_get _ _) as [x|]; [|discriminate]. destruct (py_del _ _) as [m|]; [|discriminate]. destruct (drop_item _ _ _); discriminate.
          - discriminate.
          - destruct (inb x _); discriminate.
          - destruct (passes (t_sh s) x); [destruct (inb x _); discriminate|]. destruct (drop_item _ _ _); discriminate.
          - discriminate.
          - discriminate.
          - discriminate.
          - discriminate.
          - discriminate.
          - destruct rest; discriminate.
          - discriminate.
          - discriminate.
          - discriminate. }
        destruct BT as [new ->]. eapply AP. reflexivity.
  Qed.

  Lemma run_ord acts : forall s : tst, inv s -> Forall visits acts -> ordinv s ->
    throughout A_dec (fun s => edits_apart s /\ filters_apart s) s acts -> ordinv (fold_left t_step acts s).
  Proof.
    induction acts as [|a acts IH]; intros s V Hv Hs HT; cbn [fold_left]; [exact Hs|].
    destruct HT as [[HA HB] HT]. inversion Hv; subst. apply IH; [apply step_inv; assumption|assumption| |exact HT].
    apply step_ord; try assumption. apply (throughout_now _ _ _ HT).
  Qed.
  Lemma ord_new w : ordinv (t_new w : tst).
  Proof.
    constructor; cbn.
    - left. split; [exists (fun _ => true); reflexivity|]. intros y. right. split; [unfold hright; cbn; tauto|intros p []].
    - intros p [].
    - intros [].
  Qed.

  (** -- no call can be stuck -- *)
  Definition rank (h : shared) (p : tpc) : nat :=
    match p with
    | TDone => 0 | TRel => 1 | TFlag => 2 | TApply _ => 3 | TBuild _ rest => 4 + length rest
    | TUpd => 5 + length (h_master h) | TSetFlag | TSortKey => 6 + length (h_master h) | TSetFilter _ => 7 + length (h_master h)
    | TReset => 1 | TPlace _ => 2 | TMatch _ => 3 | TCheck _ => 4 | TTell _ => 5 | TEdit _ _ => 6 | TIns _ _ => 4 | TDel _ => 2
    end.
  Lemma move_rank ord h p h1 p1 tr : t_move ord h p = (h1, p1, tr) -> p <> TDone -> rank h1 p1 < rank h p.
  Proof.
    intros E Hp. destruct p; cbn in E.
    - destruct (inb x (h_master h)); injection E as <- <- <-; cbn; lia.
    - injection E as <- <- <-. destruct (passes h x); cbn; lia.
    - injection E as <- <- <-. cbn; lia.
    - destruct (py_get _ _); [|injection E as <- <- <-; cbn; lia]. destruct (py_del _ _); [|injection E as <- <- <-; cbn; lia].
      destruct (drop_item _ _ _). injection E as <- <- <-. cbn; lia.
    - injection E as <- <- <-. cbn; lia.
    - injection E as <- <- <-. destruct (inb x _); cbn; lia.
    - destruct (passes h x); [injection E as <- <- <-; destruct (inb x _); cbn; lia|].
      destruct (drop_item _ _ _). injection E as <- <- <-. cbn; lia.
    - injection E as <- <- <-. cbn; lia.
    - injection E as <- <- <-. cbn; lia.
    - injection E as <- <- <-. cbn; lia.
    - injection E as <- <- <-. cbn; lia.
    - injection E as <- <- <-. cbn; lia.
    - destruct rest; injection E as <- <- <-; cbn; lia.
    - destruct (apply_items _ _ _ _). injection E as <- <- <-. cbn; lia.
    - injection E as <- <- <-. cbn; lia.
    - injection E as <- <- <-. cbn; lia.
    - congruence.
  Qed.
  Lemma put_put t (p q : tpc) l : t_put t p (t_put t q l) = t_put t p l.
  Proof. revert t. induction l as [|a l IH]; intros [|t]; cbn; try reflexivity. rewrite IH. reflexivity. Qed.
  Lemma put_id t (p : tpc) l : nth_error l t = Some p -> t_put t p l = l.
  Proof. revert t. induction l as [|a l IH]; intros [|t]; cbn; try discriminate; [intros [= ->]; reflexivity|]. intros H. rewrite IH; auto. Qed.

  Lemma solo n : forall (s : tst) t p, inv s -> nth_error (t_calls s) t = Some p -> t_owner s = None \/ t_owner s = Some t ->
    rank (t_sh s) p <= n -> exists acts, Forall visits acts /\ Forall goes acts /\
      t_calls (fold_left t_step acts s) = t_put t TDone (t_calls s) /\ t_owner (fold_left t_step acts s) = None.
  Proof.
    induction n as [|n IH]; intros s t p V Hp Ho Hr.
    - assert (p = TDone) as -> by (destruct p; cbn in Hr; try lia; reflexivity). exists []. repeat split; auto.
      + cbn. rewrite put_id; auto.
      + cbn. destruct Ho as [Ho|Ho]; [exact Ho|]. destruct (v_own s V t Ho) as (q & Hq & Hh). rewrite Hp in Hq. injection Hq as <-. discriminate.
    - destruct p eqn:Ep; try (assert (Hnd : p <> TDone) by (subst p; discriminate);
        rewrite <- Ep in *; clear Ep;
        destruct (t_move (fun l => l) (t_sh s) p) as [[h1 p1] tr] eqn:E;
        assert (Hb : blocked s p = false) by
          (unfold blocked; destruct Ho as [Ho|Ho]; rewrite Ho; [reflexivity|];
           destruct (v_own s V t Ho) as (q & Hq & Hh); rewrite Hp in Hq; injection Hq as <-; destruct p; cbn in Hh; try discriminate; reflexivity);
        pose proof (move_rank _ _ _ _ _ _ E Hnd) as R;
        set (s1 := Ts h1 (if holds p1 then Some t else if holds p || acquires p then None else t_owner s) (t_put t p1 (t_calls s)) (t_log s ++ tr));
        assert (St : t_step s (TGo t (fun l => l)) = s1) by (cbn; rewrite Hp, Hb, E; reflexivity);
        destruct (IH s1 t p1) as (acts & A1 & A2 & A3 & A4);
        [ rewrite <- St; apply step_inv; [exact V|cbn; reflexivity]
        | cbn; eapply put_same; exact Hp
        | cbn; destruct (holds p1); [auto|]; destruct (holds p || acquires p); auto
        | cbn; lia
        | exists (TGo t (fun l => l) :: acts); split; [constructor; [cbn; reflexivity|exact A1]|];
          split; [constructor; [exact I|exact A2]|];
          cbn [fold_left]; rewrite St; split; [rewrite A3; cbn; apply put_put|exact A4] ]).
      exists []. repeat split; auto.
      + cbn. rewrite put_id; auto.
      + cbn. destruct Ho as [Ho|Ho]; [exact Ho|]. destruct (v_own s V t Ho) as (q & Hq & Hh). rewrite Hp in Hq. injection Hq as <-. discriminate.
  Qed.

  Definition going (p : tpc) : bool := match p with TDone => false | _ => true end.
  Lemma finish_all n : forall s : tst, inv s -> t_owner s = None -> length (filter going (t_calls s)) <= n ->
    exists acts, Forall visits acts /\ Forall goes acts /\ over (fold_left t_step acts s).
  Proof.
    induction n as [|n IH]; intros s V Ho Hn.
    - exists []. repeat split; auto. intros p Hp. cbn in Hp. destruct (going p) eqn:E; [|destruct p; try discriminate; reflexivity].
      assert (K : In p (filter going (t_calls s))) by (apply filter_In; auto). destruct (filter going (t_calls s)); [destruct K|cbn in Hn; lia].
    - destruct (filter going (t_calls s)) as [|p l] eqn:E.
      + apply IH; auto. rewrite E. cbn. lia.
      + assert (K : In p (filter going (t_calls s))) by (rewrite E; left; reflexivity). apply filter_In in K as [K1 K2].
        apply In_nth_error in K1 as [t K1].
        destruct (solo _ s t p V K1 (or_introl Ho) (le_n _)) as (acts & A1 & A2 & A3 & A4).
        destruct (IH (fold_left t_step acts s)) as (acts2 & B1 & B2 & B3).
        * apply run_inv_from; assumption.
        * exact A4.
        * rewrite A3. pose proof (filter_put going t TDone (t_calls s) p K1) as F. rewrite K2, E in F. cbn in F, Hn. lia.
        * exists (acts ++ acts2). rewrite !Forall_app, fold_left_app. auto.
  Qed.

End FT3.
