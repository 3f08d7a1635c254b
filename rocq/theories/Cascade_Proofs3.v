(** Filtered lists in a row: all histories, and what every list fires. *)
From Coq Require Import List ZArith Bool Arith Permutation Sorted Lia.
From Verif Require Import PyBase Filtered_Model Filtered_Spec Filtered_Proofs Filtered_Proofs2 Filtered_Proofs3 Chain_Model Chain_Spec Chain_Proofs Chain_Proofs2 Chain_Proofs3
  Cascade_Model Cascade_Spec Cascade_Proofs Cascade_Proofs2.
Import ListNotations.

Section P.
  Context {A C K : Type} (A_dec : forall a b : A, {a = b} + {a <> b}) (lt : K -> K -> bool).
  Notation fstate := (fstate A C K).
  Notation inv := (inv (A := A) (C := C) (K := K)).
  Notation uns := (uns (A := A) (C := C) (K := K)).
  Notation sor := (sor (A := A) (C := C) lt).
  Notation kview := (kview A C K).
  Notation casc := (casc A C K).
  Notation csop := (csop A C K).
  Notation deliver := (deliver A_dec lt).

  Section Claims.
  Variables (U S : nat -> Prop).
  Hypothesis S_swo : forall j, S j -> strict_weak_order lt.
  Notation lev := (lev lt U S).
  Notation tower := (tower lt U S).

  Definition cs_ok (v : kview) (c : casc) : Prop :=
    tower v 0 (k_source v) (cs_lists c) /\ regs_ok 0 (cs_lists c) (cs_regs c) /\ NoDup (cs_regs c).

  Lemma on_level_ok v v' c i o c' ts :
    on_level A_dec lt c i o = (c', ts) -> cs_ok v c -> k_content v' = k_content v -> (forall k, k <> i -> same_at v v' k) ->
    (i = 0 \/ k_source v' = k_source v) ->
    (forall s, nth_error (cs_lists c) i = Some s -> lev v s i (base v 0 (k_source v) (cs_lists c) i) ->
       lev v' (fst (do_op A_dec lt o s)) i (base v' 0 (k_source v') (cs_lists c) i)) ->
    cs_ok v' c' /\ length (cs_lists c') = length (cs_lists c).
  Proof.
    unfold on_level. destruct (at_level _ _ _ _ _ _ _ _) as [[ls t] r] eqn:E. intros [= <- <-] (T & R & D) Hc Hs Hb Ho.
    destruct (at_level_regs A_dec lt _ _ i (listen_op_good A_dec lt o) _ _ _ _ _ _ E R D) as (R1 & _ & D1 & L1 & _).
    split; [|exact L1]. split; [|split; [exact R1|exact D1]]. cbn [cs_lists].
    eapply (level_tower A_dec lt U S S_swo v v'); [exact Hc|exact E|exact T|exact Hs|exact Hb|exact Ho].
  Qed.

  Lemma sets_lev v s s' j b b' : lev v s j b -> inv s' -> fs_cont s' = b' -> sets s s' -> (uns s -> uns s') -> (strict_weak_order lt -> sor s -> sor s') ->
    lev v s' j b'.
  Proof.
    intros (I & E & G & Hu & Hs) I' E' G' Hu' Hs'. split; [exact I'|]. split; [exact E'|]. split; [eapply agree_sets; eassumption|].
    split; [auto|]. intros H. apply Hs'; [apply (S_swo j H)|auto].
  Qed.

  Lemma cs_step_ok v c o c' ts :
    cs_step A_dec lt c o = (c', ts) -> cs_ok v c -> k_ok v o -> (forall j, U j -> k_blockless j o) -> (forall j, S j -> k_keeps_key j v o) ->
    cs_ok (k_step A_dec v o) c' /\ length (cs_lists c') = length (cs_lists c).
  Proof.
    intros E Hc Hok HU HS.
    assert (Hsrc : forall s, nth_error (cs_lists c) 0 = Some s -> lev v s 0 (k_source v) -> contents s = k_src v).
    { intros s _ (_ & Ec & _). unfold contents, k_src. rewrite Ec. reflexivity. }
    destruct o as [i x|i|l|x y|j o|j|j]; cbn [cs_step] in E.
    - apply (on_level_ok v _ c 0 _ c' ts E Hc); [reflexivity|intros k _; split; reflexivity|left; reflexivity|].
      intros s Es L. cbn [base] in *. unfold do_op. destruct (cont_insert A_dec lt s i x) as [C1 S1].
      destruct (f_step A_dec lt s (FInsert i x)) as [[s1 t1] e1] eqn:E1. cbn [fst] in *.
      destruct (step_inv A_dec lt _ _ _ _ _ E1 (proj1 L)) as [I1 So1]; [cbn; rewrite (Hsrc s Es L); exact Hok|exact I|].
      destruct (insert_step_inv A_dec lt _ _ _ _ _ _ E1 (proj1 L)) as (_ & _ & _ & _ & _ & _ & J2 & _); [rewrite (Hsrc s Es L); exact Hok|].
      eapply sets_lev; [exact L|exact I1| |exact S1|exact J2|intros Hw Hs; apply So1; [exact Hw|exact I|exact Hs]].
      rewrite C1. destruct L as (_ & -> & _). reflexivity.
    - apply (on_level_ok v _ c 0 _ c' ts E Hc); [reflexivity|intros k _; split; reflexivity|left; reflexivity|].
      intros s Es L. cbn [base] in *. unfold do_op. destruct (cont_remove A_dec lt s i) as [C1 S1].
      destruct (f_step A_dec lt s (FRemove i)) as [[s1 t1] e1] eqn:E1. cbn [fst] in *.
      destruct (step_inv A_dec lt _ _ _ _ _ E1 (proj1 L)) as [I1 So1]; [exact I|exact I|].
      destruct (remove_step_inv A_dec lt _ _ _ _ _ E1 (proj1 L)) as (_ & _ & _ & _ & _ & J2 & _).
      eapply sets_lev; [exact L|exact I1| |exact S1|exact J2|intros Hw Hs; apply So1; [exact Hw|exact I|exact Hs]].
      rewrite C1. destruct L as (_ & -> & _). reflexivity.
    - apply (on_level_ok v _ c 0 _ c' ts E Hc); [reflexivity|intros k _; split; reflexivity|left; reflexivity|].
      intros s Es L. cbn [base] in *. unfold do_op. destruct (set_container_facts A_dec lt s l (proj1 L) Hok) as (I1 & C1 & S1 & U1 & So1).
      destruct (f_step A_dec lt s (FSetContainer l)) as [[s1 t1] e1]. cbn [fst] in *. eapply sets_lev; eassumption.
    - destruct Hc as (T & R & D). destruct (change_tower A_dec lt U S S_swo v x y HS (k_source v) c c' ts E T R D) as (T1 & R1 & D1 & L1).
      split; [|exact L1]. split; [exact T1|]. auto.
    - apply (on_level_ok v _ c j _ c' ts E Hc); [reflexivity| |right; reflexivity|].
      { intros k Hk. split; [|reflexivity]. cbn. unfold set_at. destruct (Nat.eqb_spec k j); [contradiction|reflexivity]. }
      intros s Es L. unfold do_op.
      assert (Hset : setting (lop_op o) = true) by (destruct o; reflexivity).
      assert (Hord : match lop_op o with FEndChange ord => forall l, Permutation (ord l) l | _ => True end) by (destruct o; try exact I; exact Hok).
      destruct (setting_inv A_dec lt s _ Hset Hord (proj1 L)) as (I1 & U1 & So1).
      destruct L as (I0 & C0 & G0 & U0 & S0). destruct (setting_fields A_dec lt s _ _ _ Hset G0) as (G1 & C1).
      destruct (f_step A_dec lt s (lop_op o)) as [[s1 t1] e1]. cbn [fst] in *.
      split; [exact I1|]. split; [|split; [|split]].
      + rewrite C1, C0. unfold base. destruct j as [|j]; [reflexivity|]. destruct (nth_error _ _); reflexivity.
      + cbn. unfold set_at. rewrite Nat.eqb_refl. destruct o; exact G1.
      + intros Hu. specialize (HU j Hu). destruct o; cbn in HU; try contradiction; apply U1; auto.
      + intros Hs. apply So1; [apply (S_swo j Hs)|auto].
    - destruct (nth_error (cs_lists c) j) as [p|] eqn:Ep.
      + pose proof (tower_nth lt U S v _ _ _ _ _ (proj1 Hc) Ep) as Lp.
        apply (on_level_ok v _ c (Datatypes.S j) _ c' ts E Hc); [reflexivity| |right; reflexivity|].
        { intros k Hk. split; [reflexivity|]. cbn. unfold set_at. destruct (Nat.eqb_spec k (Datatypes.S j)); [contradiction|reflexivity]. }
        intros s Es L. unfold do_op. destruct (set_container_facts A_dec lt s (Some (fs_items p)) (proj1 L) (inv_nodup _ (proj1 Lp))) as (I1 & C1 & S1 & U1 & So1).
        destruct (f_step A_dec lt s (FSetContainer _)) as [[s1 t1] e1]. cbn [fst] in *.
        eapply (sets_lev _ s); [|exact I1| |exact S1|exact U1|exact So1]. { exact L. }
        rewrite C1. cbn [base]. rewrite Ep. unfold below. cbn. unfold set_at. rewrite Nat.eqb_refl. reflexivity.
      + injection E as <- <-. split; [|reflexivity]. destruct Hc as (T & R & D). split; [|auto].
        apply (tower_same lt U S v); [|reflexivity|exact T]. intros i Hi. split; [reflexivity|]. cbn [plus k_step k_att]. unfold set_at.
        destruct (Nat.eqb_spec i (Datatypes.S j)) as [Eq|]; [|reflexivity].
        apply nth_error_None in Ep. lia.
    - apply (on_level_ok v _ c (Datatypes.S j) _ c' ts E Hc); [reflexivity| |right; reflexivity|].
      { intros k Hk. split; [reflexivity|]. cbn. unfold set_at. destruct (Nat.eqb_spec k (Datatypes.S j)); [contradiction|reflexivity]. }
      intros s Es L. unfold do_op. destruct (set_container_facts A_dec lt s None (proj1 L) I) as (I1 & C1 & S1 & U1 & So1).
      destruct (f_step A_dec lt s (FSetContainer _)) as [[s1 t1] e1]. cbn [fst] in *.
      eapply (sets_lev _ s); [|exact I1| |exact S1|exact U1|exact So1]. { exact L. }
      rewrite C1. cbn [base]. destruct (nth_error (cs_lists c) j); [|reflexivity]. unfold below. cbn. unfold set_at. rewrite Nat.eqb_refl. reflexivity.
  Qed.

  Lemma cs_run_ok h : forall v c, cs_ok v c -> k_along A_dec k_ok v h ->
    (forall j, U j -> Forall (k_blockless j) h) -> (forall j, S j -> k_along A_dec (k_keeps_key j) v h) ->
    cs_ok (k_run A_dec v h) (fst (cs_run A_dec lt c h)) /\ length (cs_lists (fst (cs_run A_dec lt c h))) = length (cs_lists c).
  Proof.
    induction h as [|o h IH]; intros v c Hc Hok HU HS; [auto|]. destruct Hok as [Ho Hok]. cbn [cs_run].
    destruct (cs_step A_dec lt c o) as [c1 t1] eqn:E1. destruct (cs_step_ok v c o c1 t1 E1 Hc Ho) as [H1 L1].
    { intros j Hj. specialize (HU j Hj). inversion HU; assumption. } { intros j Hj. apply (HS j Hj). }
    destruct (IH _ _ H1 Hok) as [H2 L2].
    { intros j Hj. specialize (HU j Hj). inversion HU; assumption. } { intros j Hj. apply (HS j Hj). }
    destruct (cs_run A_dec lt c1 h) as [c2 t2]. cbn [fst] in *. rewrite <- L1. split; [exact H2|exact L2].
  Qed.

  Lemma new_tower (w : A -> C) n : forall j, tower (k_new w) j None (repeat (f_new w) n).
  Proof.
    destruct (new_inv (A := A) (C := C) A_dec lt w) as (H & HU & HS & _).
    induction n as [|n IH]; intros j; [exact I|]. cbn [repeat]. split; [|exact (IH (j + 1))].
    split; [exact H|]. split; [reflexivity|]. split; [repeat split|]. auto.
  Qed.
  Lemma new_ok (w : A -> C) n : cs_ok (k_new w) (cs_new n w).
  Proof.
    split; [apply new_tower|]. split; [|constructor]. intros i y. split; [intros []|].
    intros (s & E & H). apply nth_error_In, repeat_spec in E. subst s. destruct H.
  Qed.
  End Claims.

  (** ** what the lists fire *)
  Fixpoint each (P : nat -> list A -> list (fev A) -> list A -> Prop) (j : nat) (ls : list fstate) (ts : list (list (fev A))) (ls' : list fstate) : Prop :=
    match ls, ts, ls' with
    | [], [], [] => True
    | s :: r, t :: tr, s' :: r' => P j (fs_items s) t (fs_items s') /\ each P (S j) r tr r'
    | _, _, _ => False
    end.
  Lemma each_nth P ls : forall j ts ls' i s, each P j ls ts ls' -> nth_error ls i = Some s ->
    exists s', nth_error ls' i = Some s' /\ P (j + i) (fs_items s) (nth i ts []) (fs_items s').
  Proof.
    induction ls as [|s0 ls IH]; intros j ts ls' i s H E; [destruct i; discriminate|].
    destruct ts as [|t ts], ls' as [|s' ls']; try destruct H. destruct i as [|i].
    - injection E as <-. exists s'. rewrite Nat.add_0_r. auto.
    - replace (j + S i) with (S j + i) by lia. apply (IH (S j) ts ls' i s); [exact H0|exact E].
  Qed.
  Lemma each_length P ls : forall j ts ls', each P j ls ts ls' -> length ts = length ls /\ length ls' = length ls.
  Proof.
    induction ls as [|s ls IH]; intros j ts ls' H; destruct ts, ls'; try destruct H; [auto|].
    cbn. destruct (IH _ _ _ H0). auto.
  Qed.
  Lemma each_weaken (P Q : nat -> list A -> list (fev A) -> list A -> Prop) ls : forall j ts ls', (forall k l t l', j <= k -> P k l t l' -> Q k l t l') -> each P j ls ts ls' -> each Q j ls ts ls'.
  Proof.
    induction ls as [|s ls IH]; intros j ts ls' H E; destruct ts, ls'; try destruct E; [exact I|]. split; [apply H; [lia|assumption]|].
    eapply IH; [|eassumption]. intros k l0 t l' Hk. apply H. lia.
  Qed.
  Lemma each_both (P : nat -> list A -> list (fev A) -> list A -> Prop) :
    (forall k l t l1 t' l2, P k l t l1 -> P k l1 t' l2 -> P k l (t ++ t') l2) ->
    forall ls j ts ls1 us ls2, each P j ls ts ls1 -> each P j ls1 us ls2 -> each P j ls (both ts us) ls2.
  Proof.
    intros HP. induction ls as [|s ls IH]; intros j ts ls1 us ls2 H1 H2; destruct ts, ls1; try destruct H1; destruct us, ls2; try destruct H2; [exact I|].
    split; [eapply HP; eassumption|eapply IH; eassumption].
  Qed.
  Lemma each_nil (P : nat -> list A -> list (fev A) -> list A -> Prop) : (forall k l, P k l [] l) -> forall ls j, each P j ls (map (fun _ => []) ls) ls.
  Proof. intros HP. induction ls as [|s ls IH]; intros j; [exact I|]. split; [apply HP|apply IH]. Qed.

  Definition tells (k : nat) (l : list A) (t : list (fev A)) (l' : list A) : Prop := f_names l t l' /\ nesting 0 t = Some 0.
  Lemma tells_nil k l : tells k l [] l.
  Proof. split; reflexivity. Qed.
  Lemma tells_app k l t l1 t' l2 : tells k l t l1 -> tells k l1 t' l2 -> tells k l (t ++ t') l2.
  Proof. intros [H1 N1] [H2 N2]. split; [eapply f_names_app; eassumption|]. rewrite (nesting_app _ _ _ 0 N1). exact N2. Qed.

  Lemma flow_tells ls : forall j tr r ls' ts r', flow A_dec lt j ls tr r = (ls', ts, r') -> nesting 0 tr = Some 0 -> each tells j ls ts ls'.
  Proof.
    induction ls as [|s ls IH]; intros j tr r ls' ts r' E N; [injection E as <- <- <-; exact I|].
    cbn [flow] in E. destruct (deliver s tr) as [s1 t1] eqn:E1. destruct (flow _ _ _ _ _ _) as [[ls2 ts2] r2] eqn:E2. injection E as <- <- <-.
    pose proof (deliver_closed A_dec lt _ _ _ _ E1 N) as N1. split; [|eapply IH; eassumption].
    split; [eapply deliver_names; exact E1|exact N1].
  Qed.
  Lemma level_tells (f : fstate -> fstate * list (fev A)) g (P : list A -> list (fev A) -> list A -> Prop) i : (forall s, nesting 0 (snd (f s)) = Some 0) ->
    (forall s, P (fs_items s) (snd (f s)) (fs_items (fst (f s)))) ->
    forall ls j r ls' ts r', at_level A_dec lt f g j i ls r = (ls', ts, r') ->
    each (fun k l t l' => nesting 0 t = Some 0 /\ if k =? j + i then P l t l' else f_names l t l') j ls ts ls'.
  Proof.
    intros HN HP. induction i as [|i IH]; intros ls j r ls' ts r' E; (destruct ls as [|s ls]; [injection E as <- <- <-; exact I|]); cbn [at_level] in E.
    - specialize (HN s). specialize (HP s). destruct (f s) as [s1 t1] eqn:E1. cbn [fst snd] in *. destruct (flow _ _ _ _ _ _) as [[ls2 ts2] r2] eqn:E2. injection E as <- <- <-.
      cbn [each]. rewrite Nat.add_0_r, Nat.eqb_refl. split; [auto|]. eapply each_weaken; [|eapply flow_tells; [exact E2|exact HN]].
      intros k l t l' Hk [H1 H2]. destruct (Nat.eqb_spec k j); [lia|auto].
    - destruct (at_level _ _ _ _ _ _ _ _) as [[ls2 ts2] r2] eqn:E2. injection E as <- <- <-. cbn [each].
      split; [split; [reflexivity|]; destruct (Nat.eqb_spec j (j + S i)); [lia|reflexivity]|].
      apply IH in E2. replace (j + S i) with (S j + i) by lia. exact E2.
  Qed.

  Lemma heard_tells x (s : fstate) : tells 0 (fs_items s) (snd (heard A_dec lt x s)) (fs_items (fst (heard A_dec lt x s))).
  Proof. unfold heard. destruct (updated_master A_dec lt s x) as [s2 t2] eqn:E2. apply updated_master_tidy in E2. exact E2. Qed.
  Lemma fire_tells x snap : forall closed ls r ls' ts r', fire A_dec lt x snap closed ls r = (ls', ts, r') -> each tells 0 ls ts ls'.
  Proof.
    induction snap as [|i snap IH]; intros closed ls r ls' ts r' E; cbn [fire] in E.
    - injection E as <- <- <-. apply each_nil. apply tells_nil.
    - destruct (existsb _ _); [eapply IH; exact E|]. destruct (negb _); [injection E as <- <- <-; apply each_nil; apply tells_nil|].
      destruct (at_level _ _ _ _ _ _ _ _) as [[ls1 t1] r1] eqn:E1. destruct (fire _ _ _ _ _ _ _) as [[ls2 t2] r2] eqn:E2.
      injection E as <- <- <-. eapply each_both; [apply tells_app| |eapply IH; exact E2].
      apply (level_tells _ _ (fun l t l' => f_names l t l')) in E1; [|intros s; apply (heard_tells x s)|intros s; apply (heard_tells x s)].
      eapply each_weaken; [|exact E1]. intros k l t l' _ [H1 H2]. split; [|exact H1]. destruct (k =? 0 + i); exact H2.
  Qed.

  (** the number of the list an operation is made on; content changes are made on none *)
  Definition acts_on (o : csop) : option nat :=
    match o with KInsert _ _ | KRemove _ | KSource _ => Some 0 | KContent _ _ => None | KSet j _ => Some j | KAttach j | KDetach j => Some (S j) end.

  Lemma cs_step_tells c o c' ts : cs_step A_dec lt c o = (c', ts) ->
    each (fun k l t l' => nesting 0 t = Some 0 /\ if match acts_on o with Some j => k =? j | None => false end then f_follows l t l' else f_names l t l')
      0 (cs_lists c) ts (cs_lists c').
  Proof.
    intros E.
    assert (L : forall i fo, fo <> FContBegin -> fo <> FContEnd -> on_level A_dec lt c i fo = (c', ts) ->
      each (fun k l t l' => nesting 0 t = Some 0 /\ if k =? i then f_follows l t l' else f_names l t l') 0 (cs_lists c) ts (cs_lists c')).
    { intros i fo H1 H2 E'. unfold on_level in E'. destruct (at_level _ _ _ _ _ _ _ _) as [[ls t] r] eqn:E1. injection E' as <- <-.
      apply (level_tells _ _ f_follows) in E1; [exact E1| |]; intros s; unfold do_op; destruct (f_step A_dec lt s fo) as [[s1 t1] e1] eqn:E2;
        apply f_step_trace in E2 as (F & _ & N); cbn [fst snd]; [apply N; assumption|exact F]. }
    destruct o as [i x|i|l|x y|j o|j|j]; cbn [cs_step acts_on] in *.
    - apply (L 0 (FInsert i x)); [discriminate|discriminate|exact E].
    - apply (L 0 (FRemove i)); [discriminate|discriminate|exact E].
    - apply (L 0 (FSetContainer l)); [discriminate|discriminate|exact E].
    - unfold on_change in E. destruct (fire _ _ _ _ _ _ _) as [[ls t] r] eqn:E1. injection E as <- <-. apply fire_tells in E1. cbn [cs_lists].
      assert (G : forall l n ls0 t0, each tells n (map (fun s => with_content s (update_content A_dec (fs_content s) x y)) l) t0 ls0 ->
        each (fun (_ : nat) l t l' => nesting 0 t = Some 0 /\ f_names l t l') n l t0 ls0).
      { induction l as [|s l IH]; intros n ls0 t0 H; destruct ls0, t0; try destruct H; [exact I|].
        cbn [each]. split; [destruct H as [H1 H2]; split; assumption|]. apply IH. assumption. }
      apply G. exact E1.
    - apply (L j (lop_op o)); [destruct o; discriminate|destruct o; discriminate|exact E].
    - destruct (nth_error (cs_lists c) j) eqn:En;
        [|injection E as <- <-; apply each_nil; intros k l; split; [reflexivity|destruct (_ =? _); reflexivity]]. apply (L (S j) (FSetContainer (Some (fs_items f)))); [discriminate|discriminate|exact E].
    - apply (L (S j) (FSetContainer None)); [discriminate|discriminate|exact E].
  Qed.
End P.
