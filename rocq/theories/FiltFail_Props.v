(** Property C96: filtered lists whose filters raise. *)
From Coq Require Import List ZArith Bool Arith Lia.
From Verif Require Import PyBase FiltFail_Model FiltFail_Spec FiltFail_Proofs.
Import ListNotations.

Section Props.
  Context {A : Type} (eqb : A -> A -> bool) (eqb_spec : forall x y, eqb x y = true <-> x = y).
  Notation f_run := (f_run eqb).
  Notation f_step := (f_step eqb).

  (** whatever the filters raise, the notifications rebuild the items *)
  Theorem filtfail_observer h : let '(s, t, _) := f_run f_new h in f_observes [] t (f_items s).
  Proof. destruct (f_run f_new h) as [[s t] es] eqn:E. apply (f_run_observed eqb eqb_spec) in E. exact E. Qed.

  (** after gentle histories the items up to the first one the filter raises for are right, and those shown behind
      it are passing items of the container in its order *)
  Lemma step_holds w s o : holds w s -> gentle w o -> let '(s', _, _) := f_step s o in holds (w_next w o) s'.
  Proof.
    intros (C & F & L & M & N & K & G) H. destruct w as [c flt]. cbn [fst snd] in *. unfold w_items in *. cbn [fst] in *.
    destruct o as [i x|i|c'|flt']; cbn [FiltFail_Model.f_step].
    - rewrite C. destruct c as [l|]; cbn [w_next fst snd].
      + rewrite L. unfold gentle, w_items in H. cbn [fst] in H. destruct (py_insert_split i x l) as (a & b & -> & P).
        set (s1 := Fs _ _ _ _ _ _).
        destruct (inserted_result eqb eqb_spec s1 x i a b) as (e & -> & _); unfold s1; cbn [f_master]; rewrite ?M; auto.
        cbn. rewrite P, F. repeat split; cbn; auto.
        * apply nodup_middle. auto.
        * intros [->|Hy]; apply in_or_app; cbn; [auto|]. apply K in Hy. apply in_app_or in Hy. tauto.
        * intros Hy. apply in_app_or in Hy. rewrite K, in_app_iff. cbn in Hy. tauto.
        * now apply good_insert.
      + unfold holds. cbn. tauto.
    - rewrite C. destruct c as [l|]; cbn [w_next fst snd].
      + destruct (py_del l i) as [l'|e] eqn:D.
        * destruct (py_del_split l i l' D) as (a & x & b & -> & -> & Gx). rewrite Gx, L.
          unfold gentle, w_items in H. cbn [fst snd] in H. specialize (H x Gx).
          set (s1 := Fs _ _ _ _ _ _).
          destruct (removed_result eqb eqb_spec s1 x i (a ++ b)) as (t & ->); unfold s1; cbn [f_master f_keys].
          { now rewrite M. } { apply K. apply in_or_app. right. now left. }
          cbn. repeat split; cbn; auto.
          -- now apply nodup_middle in N.
          -- intros Hy. apply filter_In in Hy. destruct Hy as [Hy E]. apply K in Hy. apply in_app_or in Hy. apply in_or_app.
             destruct Hy as [Hy|[->|Hy]]; auto. rewrite (eqb_refl eqb eqb_spec) in E. discriminate.
          -- intros Hy. apply filter_In. split; [apply K; apply in_app_or in Hy; apply in_or_app; cbn; tauto|].
             apply nodup_middle in N. rewrite (eqb_neq eqb eqb_spec); [reflexivity|]. intros ->. now apply (proj2 N).
          -- apply good_remove; auto.
        * destruct (py_get l i); unfold holds; cbn; tauto.
      + unfold holds. cbn. tauto.
    - assert (ATT : forall s0 t0, f_master s0 = [] -> f_items s0 = [] -> (forall x, In x (f_keys s0) <-> False) -> f_filter s0 = flt ->
        let '(s', _, _) := (let '(s2, t2, e) := f_attach eqb s0 c' in (s2, t0 ++ t2, e)) in holds (c', flt) s').
      { intros s0 t0 M0 I0 K0 F0. destruct c' as [l|]; cbn [f_attach].
        - destruct H as [Nl Ql]. cbn [snd] in Ql.
          set (s1 := Fs _ _ _ _ _ _).
          destruct (insert_loop_prefix eqb eqb_spec flt [] s1 l []) as (s' & t & e & E & C1 & C2 & C3 & C4 & C5 & C6 & C7);
            unfold s1; cbn [f_filter f_master f_items f_keys]; auto.
          { intros ? []. } { cbn. now rewrite app_nil_r. }
          unfold s1 in E. rewrite app_nil_r in E. cbn [length] in E. rewrite E. cbn in *. rewrite app_nil_r in *.
          repeat split; cbn; auto; try apply C6. rewrite C5. now apply quiet_good.
        - unfold holds, w_items. cbn. rewrite I0. split; [reflexivity|]. split; [exact F0|]. split; [reflexivity|].
          split; [exact M0|]. split; [constructor|]. split; [exact K0|]. apply (quiet_good flt []). intros ? []. }
      unfold FiltFail_Model.f_set_container. rewrite C. cbn [w_next].
      destruct c as [l|]; cbn [fst snd].
      + rewrite L. set (s1 := Fs _ _ _ _ _ _).
        destruct (remove_loop_gone eqb eqb_spec l s1) as (t & E); unfold s1; cbn [f_master f_keys f_items]; auto.
        { intros x Hx. apply good_sublist in G. apply (sublist_in _ _ x G) in Hx. apply filter_In in Hx. tauto. }
        { apply good_sublist in G. eapply sublist_nodup; [exact G|]. now apply NoDup_filter. }
        unfold s1 in E. rewrite E. apply (ATT (Fs (Some l) false [] [] [] (f_filter s)) t); cbn; auto; tauto.
      + specialize (ATT s []). cbn [app] in ATT. destruct (f_attach eqb s c') as [[s2 t2] e2]. apply ATT; auto.
        * apply good_sublist in G. cbn in G. now inversion G.
    - unfold f_set_filter. unfold gentle in H. rewrite M. unfold w_items in *. cbn [fst] in *. rewrite (f_build_quiet flt' _ H).
      cbn [w_next]. pose proof (quiet_good flt' _ H) as G'.
      destruct c as [l|]; unfold holds, w_items; cbn; repeat split; auto; try apply K; exact G'.
  Qed.
  Theorem filtfail_gentle flt h : all_gentle (None, flt) h ->
    let '(s, _, _) := f_run f_new (FFilter flt :: h) in
    let w := fold_left w_next h (None, flt) in
    f_cont s = fst w /\
    exists rest, f_items s = filter (passes (snd w)) (before (snd w) (w_items w)) ++ rest /\
                 sublist rest (filter (passes (snd w)) (behind (snd w) (w_items w))).
  Proof.
    intros H. cbn [FiltFail_Model.f_run FiltFail_Model.f_step]. cbn [f_set_filter f_build f_master f_new].
    assert (G : forall h w s, holds w s -> all_gentle w h -> let '(s', _, _) := f_run s h in holds (fold_left w_next h w) s').
    { clear - eqb_spec. induction h as [|o h IH]; intros w s Hh Hg; cbn [FiltFail_Model.f_run fold_left]; [exact Hh|].
      destruct Hg as [H1 H2]. pose proof (step_holds w s o Hh H1) as S. destruct (f_step s o) as [[s1 t1] e1].
      specialize (IH _ s1 S H2). destruct (f_run s1 h) as [[s2 t2] es]. exact IH. }
    set (s0 := Fs _ _ _ _ _ _). specialize (G h (None, flt) s0).
    destruct (f_run s0 h) as [[s t] es]. destruct G as (C & _ & _ & _ & _ & _ & X).
    - repeat split; cbn; try tauto; try constructor. exists []. split; constructor.
    - exact H.
    - split; [exact C|exact X].
  Qed.

  (** ... so they are just the passing items while the filter raises for none *)
  Theorem filtfail_quiet_right flt h : all_gentle (None, flt) h ->
    let '(s, _, _) := f_run f_new (FFilter flt :: h) in
    let w := fold_left w_next h (None, flt) in
    quiet (snd w) (w_items w) -> f_items s = filter (passes (snd w)) (w_items w).
  Proof.
    intros H. pose proof (filtfail_gentle flt h H) as G. destruct (f_run f_new (FFilter flt :: h)) as [[s t] es].
    destruct G as [_ G]. cbn zeta. intros Q. eapply good_quiet; [exact Q|exact G].
  Qed.

  (** an inserted item is shown exactly if it passes and the filter raises for no item before it; the container's client
      sees no exception *)
  Theorem filtfail_insert s i x a b : f_cont s = Some (f_master s) -> f_live s = true -> ~ In x (f_master s) ->
    f_master s = a ++ b -> py_insert i x (f_master s) = a ++ x :: b ->
    let '(s', t, e) := f_step s (FInsert i x) in
    e = None /\ f_cont s' = Some (a ++ x :: b) /\ f_master s' = a ++ x :: b /\
    (if passes (f_filter s) x && negb (existsb (raises (f_filter s)) a) then
       let n := Z.of_nat (length (filter (passes (f_filter s)) a)) in t = [FIns x n] /\ f_items s' = py_insert n x (f_items s)
     else t = [] /\ f_items s' = f_items s).
  Proof.
    intros C L N M P. cbn [FiltFail_Model.f_step]. rewrite C, L. set (s1 := Fs _ _ _ _ _ _).
    destruct (inserted_result eqb eqb_spec s1 x i a b) as (e & -> & _); unfold s1; cbn [f_master f_cont f_filter f_items]; auto.
    cbn. rewrite P. unfold showable. destruct (passes (f_filter s) x && negb (existsb (raises (f_filter s)) a)); auto.
  Qed.

  (** assigning a filter that raises for an item changes nothing that is shown, but the filter stays assigned *)
  Theorem filtfail_filter s flt : let '(s', t, e) := f_step s (FFilter flt) in
    f_filter s' = flt /\ f_master s' = f_master s /\
    if existsb (raises flt) (f_master s) then e <> None /\ t = [] /\ f_items s' = f_items s
    else e = None /\ f_items s' = filter (passes flt) (f_master s).
  Proof.
    cbn [FiltFail_Model.f_step]. unfold f_set_filter. destruct (existsb (raises flt) (f_master s)) eqn:R.
    - apply existsb_exists in R. destruct (f_build_raises flt (f_master s) R) as (e & ->). cbn. repeat split; discriminate.
    - apply existsb_quiet in R. rewrite (f_build_quiet flt _ R). cbn. auto.
  Qed.

  (** assigning a container to a model without one stops at the first item the filter raises for *)
  Theorem filtfail_attach s l1 q : f_cont s = None -> f_master s = [] -> f_items s = [] -> f_keys s = [] ->
    NoDup (l1 ++ q) -> quiet (f_filter s) l1 -> match q with [] => True | x :: _ => raises (f_filter s) x = true end ->
    let '(s', t, e) := f_step s (FSet (Some (l1 ++ q))) in
    f_cont s' = Some (l1 ++ q) /\ f_live s' = true /\ f_master s' = l1 ++ firstn 1 q /\
    f_items s' = filter (passes (f_filter s)) l1 /\ (e = None <-> q = []).
  Proof.
    intros C M I K N Q R. cbn [FiltFail_Model.f_step]. unfold FiltFail_Model.f_set_container. rewrite C. cbn [f_attach].
    set (s1 := Fs _ _ _ _ _ _).
    destruct (insert_loop_prefix eqb eqb_spec (f_filter s) [] s1 l1 q) as (s' & t & e & E & C1 & C2 & C3 & C4 & C5 & C6 & C7);
      unfold s1; cbn [f_filter f_master f_items f_keys]; auto.
    { rewrite K. tauto. } { intros ? []. }
    unfold s1 in E. cbn [length] in E. rewrite E. cbn in *. auto.
  Qed.

  (** after that assignment, items behind the one it stopped at make the next one fail, and the model is stuck *)
  Theorem filtfail_attach_stuck s l1 x q c : f_cont s = None -> f_master s = [] -> f_items s = [] -> f_keys s = [] ->
    NoDup (l1 ++ x :: q) -> quiet (f_filter s) l1 -> raises (f_filter s) x = true -> q <> [] ->
    let '(s', _, es) := f_run s [FSet (Some (l1 ++ x :: q)); FSet c] in
    f_stuck s' /\ exists e, es = [Some e; Some KeyError].
  Proof.
    intros C M I K N Q R Hq. cbn [FiltFail_Model.f_run FiltFail_Model.f_step]. unfold FiltFail_Model.f_set_container at 1. rewrite C. cbn [f_attach].
    set (s1 := Fs _ _ _ _ _ _).
    destruct (insert_loop_prefix eqb eqb_spec (f_filter s) [] s1 l1 (x :: q)) as (s' & t & e & E & C1 & C2 & C3 & C4 & C5 & C6 & C7);
      unfold s1; cbn [f_filter f_master f_items f_keys]; auto.
    { rewrite K. tauto. } { intros ? []. }
    unfold s1 in E. cbn [length] in E. rewrite E. destruct e as [e|]; [|discriminate (proj1 C7 eq_refl)].
    unfold s1 in C1, C2. cbn in C1, C2. unfold FiltFail_Model.f_set_container. rewrite C1, C2.
    destruct (exists_last Hq) as (q0 & z & ->).
    replace (l1 ++ x :: q0 ++ [z]) with ((l1 ++ x :: q0) ++ [z]) by (rewrite <- app_assoc; reflexivity).
    rewrite rev_app_distr. cbn [rev app FiltFail_Model.f_remove_loop]. unfold f_removed. cbn [f_master f_keys].
    cbn [app] in C4, C6. rewrite py_del_last by (rewrite C4; destruct l1; discriminate).
    replace (f_mem eqb z (f_keys s')) with false.
    - cbn. split; [split; [discriminate|reflexivity]|eauto].
    - symmetry. apply (f_mem_not eqb eqb_spec). rewrite C6. cbn [firstn].
      replace (l1 ++ x :: q0 ++ [z]) with ((l1 ++ x :: q0) ++ z :: []) in N by (rewrite <- app_assoc; reflexivity).
      apply NoDup_remove_2 in N. rewrite app_nil_r in N. intros H. apply N. apply in_app_or in H. apply in_or_app. cbn in *. tauto.
  Qed.

  (** a stuck model stays so: it follows its container no more, and every assignment of the container raises *)
  Theorem filtfail_stuck_forever h : forall s, f_stuck s -> forallb (fun o => negb (is_filter o)) h = true ->
    let '(s', t, es) := f_run s h in
    f_stuck s' /\ f_items s' = f_items s /\ t = [] /\
    (forall k c, nth_error h k = Some (FSet c) -> nth_error es k = Some (Some AttributeError)).
  Proof.
    induction h as [|o h IH]; intros s H Hf; cbn [FiltFail_Model.f_run].
    - repeat split; try apply H. intros [|k] c; discriminate.
    - cbn in Hf. apply andb_prop in Hf as [Ho Hf].
      assert (S1 : let '(s1, t1, e1) := f_step s o in f_stuck s1 /\ f_items s1 = f_items s /\ t1 = [] /\ (forall c, o = FSet c -> e1 = Some AttributeError)).
      { destruct H as [H1 H2]. destruct o as [i x|i|c|flt]; cbn [FiltFail_Model.f_step]; [| | |discriminate].
        - destruct (f_cont s) as [l|] eqn:E; [|contradiction]. rewrite H2. unfold f_stuck. cbn. repeat split; discriminate.
        - destruct (f_cont s) as [l|] eqn:E; [|contradiction].
          destruct (py_get l i), (py_del l i); rewrite ?H2; unfold f_stuck; cbn; repeat split; auto; try discriminate; congruence.
        - unfold FiltFail_Model.f_set_container. destruct (f_cont s) as [l|] eqn:E; [|contradiction]. rewrite H2. unfold f_stuck.
          repeat split; auto. congruence. }
      destruct (f_step s o) as [[s1 t1] e1]. destruct S1 as (H1 & I1 & -> & E1).
      specialize (IH s1 H1 Hf). destruct (f_run s1 h) as [[s2 t2] es]. destruct IH as (H2 & I2 & -> & E2).
      split; [exact H2|]. split; [congruence|]. split; [reflexivity|]. intros [|k] c; cbn; [|apply E2]. intros [= ->]. rewrite (E1 c); reflexivity.
  Qed.
End Props.
Print Assumptions filtfail_observer.
Print Assumptions filtfail_gentle.
Print Assumptions filtfail_quiet_right.
Print Assumptions filtfail_insert.
Print Assumptions filtfail_filter.
Print Assumptions filtfail_attach.
Print Assumptions filtfail_attach_stuck.
Print Assumptions filtfail_stuck_forever.

(** ** examples: a filter that raises for 0 and passes 3 and more *)
Definition ff_flt (x : nat) : res bool := if x =? 0 then Err TypeError else Ok (3 <=? x).
Definition ff_show (r : fstate nat * list (fev nat) * list (option exn)) : list nat * list nat * list (option exn) :=
  (match f_cont (fst (fst r)) with Some l => l | None => [] end, f_items (fst (fst r)), snd r).
Definition ff_h : list (fop nat) := [FSet (Some [5; 1; 7]); FInsert 1 0; FInsert 0 4; FInsert 3 8; FInsert 2 9; FRemove 5].
Example filtfail_gentle_ex : ff_show (f_run Nat.eqb f_new (FFilter ff_flt :: ff_h)) = ([4; 5; 9; 0; 8; 7], [4; 5; 9; 7], [None; None; None; None; None; None; None]) /\
  all_gentle (None, ff_flt) ff_h.
Proof.
  split; [vm_compute; reflexivity|]. unfold ff_h. cbn [all_gentle].
  split; [split; [repeat constructor; cbn; lia|intros x [<-|[<-|[<-|[]]]]; reflexivity]|].
  do 4 (split; [vm_compute; intuition discriminate|]).
  split; [|exact I]. intros x. vm_compute. intros [= <-]. reflexivity.
Qed.
Example filtfail_insert_ex : ff_show (f_run Nat.eqb f_new [FFilter ff_flt; FSet (Some [5]); FInsert 0 0; FInsert 2 6]) =
  ([0; 5; 6], [5], [None; None; None; None]).
Proof. vm_compute. reflexivity. Qed.
Example filtfail_filter_ex : ff_show (f_run Nat.eqb f_new [FSet (Some [5; 0; 1; 7]); FFilter ff_flt; FFilter (fun x => Ok (x <=? 1))]) =
  ([5; 0; 1; 7], [0; 1], [None; Some TypeError; None]) /\
  ff_show (f_run Nat.eqb f_new [FSet (Some [5; 0; 1; 7]); FFilter ff_flt]) = ([5; 0; 1; 7], [5; 0; 1; 7], [None; Some TypeError]).
Proof. vm_compute. auto. Qed.
Example filtfail_attach_ex : ff_show (f_run Nat.eqb f_new [FFilter ff_flt; FSet (Some [5; 0; 1; 7]); FSet None; FInsert 0 8; FSet None]) =
  ([8; 5; 0; 1; 7], [5], [None; Some TypeError; Some KeyError; None; Some AttributeError]).
Proof. vm_compute. reflexivity. Qed.

(** when the item the filter raises for has gone, the items that were inserted behind it stay hidden, and those inserted
    from then on come at wrong places *)
Theorem filtfail_order_refuted : exists h,
  ff_show (f_run Nat.eqb f_new (FFilter ff_flt :: h)) = ([3; 4; 5], [5; 4], [None; None; None; None; None; None]).
Proof. exists [FSet (Some [5]); FInsert 0 0; FInsert 1 3; FRemove 0; FInsert 1 4]. vm_compute. reflexivity. Qed.
Print Assumptions filtfail_order_refuted.
