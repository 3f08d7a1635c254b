(** Properties of making and releasing the selections of a list model. *)
From stdpp Require Import gmap sets list.
From Coq Require Import Lia.
From Verif Require Import PyBase Selection_Model Selection_Spec Selection_Proofs SelRel_Model SelRel_Spec SelRel_Proofs.
Local Open Scope nat_scope.

Section Props.
  Context {A : Type} (given : list sel).
  Notation start := (fresh given).
  Notation n0 := (length given).

  (** After any history, releasing a selection that follows the items never raises and takes one selection out: the oldest of
      those that follow and have the same indexes and anchor, which is the one released exactly if none is older. *)
  Theorem selrel_release (h : list (rop A)) (i : nat) : let st := rrun start h in i ∈ kept st ->
    exists l1 j l2, kept st = l1 ++ j :: l2 /\ rstep (A := A) st (Release i) = (LM (objs st) (l1 ++ l2), None) /\
      (j = i \/ j < i /\ alike (objs st) j i) /\ (forall k, k ∈ l1 -> k < i /\ ~ alike (objs st) k i).
  Proof. cbv zeta. apply release_in, wf_run, wf_fresh. Qed.
  (** Releasing one that does not follow raises exactly if none that follows is like it. *)
  Theorem selrel_release_other (h : list (rop A)) (i : nat) : let st := rrun start h in i ∉ kept st ->
    ((rstep (A := A) st (Release i)).2 = Some ValueError <-> forall j, j ∈ kept st -> ~ alike (objs st) j i) /\
    ((rstep (A := A) st (Release i)).2 = None -> exists l1 j l2, kept st = l1 ++ j :: l2 /\ kept (rstep (A := A) st (Release i)).1 = l1 ++ l2 /\ alike (objs st) j i).
  Proof.
    cbv zeta. intros M. set (st := rrun start h) in *. cbn [rstep]. destruct (remove_first (matches (objs st) i) (kept st)) as [r|] eqn:E; cbn [fst snd kept].
    - apply remove_first_some in E as (l1 & j & l2 & E & -> & F & _). apply matches_spec in F. assert (J : j ∈ kept st) by (rewrite E; apply elem_of_app; right; left).
      assert (F' : alike (objs st) j i) by (destruct F as [->|F]; [contradiction|exact F]). split.
      + split; [discriminate|]. intros H. exfalso. apply (H j J F').
      + intros _. exists l1, j, l2. auto.
    - split; [|discriminate]. split; [|reflexivity]. intros _ j J L. assert (X := proj1 (remove_first_none _ _) E j J). enough (matches (objs st) i j = true) by congruence.
      apply matches_spec. auto.
  Qed.
  (** In either case what can be seen of the selections that follow is what it would be with the right one taken out. *)
  Theorem selrel_contents (h : list (rop A)) (i : nat) : let st := rrun start h in i ∈ kept st ->
    contents (objs st) <$> kept (rstep (A := A) st (Release i)).1 ≡ₚ contents (objs st) <$> filter (fun j => j <> i) (kept st).
  Proof.
    cbv zeta. intros M. pose proof (wf_run _ h (wf_fresh given)) as W. set (st := rrun start h) in *.
    destruct (release_in (A := A) st i W M) as (l1 & j & l2 & E & R & J & N). rewrite R. cbn [fst kept]. pose proof (wf_nodup _ W) as ND. rewrite E in *.
    assert (K : forall l : list nat, i ∉ l -> filter (fun j => j <> i) l = l).
    { induction l as [|a l IH]; intros X; [reflexivity|]. apply not_elem_of_cons in X as [X1 X2]. rewrite filter_cons_True by congruence. rewrite (IH X2). reflexivity. }
    rewrite filter_app. rewrite (K l1) by (intros X; destruct (N i X); lia). destruct J as [->|[J1 J2]].
    - rewrite filter_cons_False by (intros X; apply X; reflexivity). rewrite K; [reflexivity|]. apply NoDup_app in ND as (_ & _ & ND). apply NoDup_cons in ND. tauto.
    - rewrite filter_cons_True by lia. assert (M2 : i ∈ l2). { apply elem_of_app in M as [M|M]; [destruct (N i M); lia|]. apply elem_of_cons in M as [M|M]; [lia|exact M]. }
      apply elem_of_list_split in M2 as (l3 & l4 & ->). apply NoDup_app in ND as (_ & _ & ND). apply NoDup_cons in ND as [_ ND]. apply NoDup_app in ND as (_ & ND1 & ND2). apply NoDup_cons in ND2 as [ND2 _].
      rewrite filter_app, (K l3) by (intros X; apply (ND1 i X); left). rewrite filter_cons_False by (intros X; apply X; reflexivity). rewrite (K l4) by exact ND2.
      rewrite !fmap_app, !fmap_cons, !fmap_app. assert (contents (objs st) j = contents (objs st) i) as ->.
      { destruct J2 as (s & t & E1 & E2 & E3 & E4). unfold contents. rewrite E1, E2. cbn. congruence. }
      apply Permutation_app_head. symmetry. apply Permutation_middle.
  Qed.

  (** releases only what is due, while no older selection that is due is like it *)
  Definition careful (h : list (rop A)) : Prop := forall h1 i h2, h = h1 ++ Release i :: h2 ->
    due n0 h1 i /\ forall j, due n0 h1 j -> j < i -> ~ alike (objs (rrun start h1)) j i.
  (** Then exactly those follow that were made and not released; so it is if the oldest is released each time. *)
  Theorem selrel_exact (h : list (rop A)) : careful h -> forall i, i ∈ kept (rrun start h) <-> due n0 h i.
  Proof. intros C. apply kept_due; [exact C|]. intros i h1 h2 E. apply (C h1 i h2 E). Qed.
  Theorem selrel_oldest_first (h : list (rop A)) :
    (forall h1 i h2, h = h1 ++ Release i :: h2 -> due n0 h1 i /\ forall j, due n0 h1 j -> i <= j) ->
    forall i, i ∈ kept (rrun start h) <-> due n0 h i.
  Proof. intros C. apply selrel_exact. intros h1 i h2 E. destruct (C h1 i h2 E) as [D F]. split; [exact D|]. intros j J L. specialize (F j J). lia. Qed.

  (** and a selection that is not released keeps its items selected while others are made, used and released, *)
  Theorem selrel_follows (h1 h2 : list (rop A)) (i : nat) (s : sel) (L L' r : list A) (y : A) :
    careful (h1 ++ h2) -> objs (rrun start h1) !! i = Some s -> due n0 (h1 ++ h2) i -> not_used i h2 ->
    NoDup L -> edits L (edits_of h2) r L' ->
    exists s', objs (rrun start (h1 ++ h2)) !! i = Some s' /\ (selected L' s' y <-> selected L s y /\ y ∉ r).
  Proof.
    intros C E D U ND ED. rewrite rrun_app. pose proof (wf_run _ h1 (wf_fresh given)) as W.
    exists (sel_run s (accompany <$> edits_of h2)). split; [|apply (edits_follow_lemma L _ r L' s y ND ED)].
    apply follow_obj; auto. intros h3 h4 E'. rewrite <- rrun_app. apply selrel_exact.
    - intros g1 j g2 G. apply (C g1 j (g2 ++ h4)). rewrite E', app_assoc, G, <- app_assoc. reflexivity.
    - split.
      + rewrite <- objs_made, rrun_app. apply lookup_lt_Some in E. clear -E. revert E. generalize (rrun start h1). induction h3 as [|o h3 IH]; intros st E; [exact E|].
        apply IH. destruct o as [|j|j u|e]; cbn [rstep].
        * cbn. rewrite app_length. lia.
        * destruct (remove_first _ _); exact E.
        * cbn. rewrite use_length. exact E.
        * cbn. rewrite uses_length. exact E.
      + intros X. apply (proj2 D). unfold released in *. rewrite E', app_assoc. apply elem_of_app. left. exact X.
  Qed.
  (** and one that is released stays as it is, unless it is used. *)
  Theorem selrel_left (h1 h2 : list (rop A)) (i : nat) (s : sel) :
    careful (h1 ++ h2) -> objs (rrun start h1) !! i = Some s -> released i h1 -> not_used i h2 ->
    objs (rrun start (h1 ++ h2)) !! i = Some s.
  Proof.
    intros C E D U. rewrite rrun_app. apply left_obj; [apply wf_run, wf_fresh|exact E| |exact U].
    intros h3 h4 E'. rewrite <- rrun_app. rewrite selrel_exact.
    - intros [_ X]. apply X. apply elem_of_app. left. exact D.
    - intros g1 j g2 G. apply (C g1 j (g2 ++ h4)). rewrite E', app_assoc, G, <- app_assoc. reflexivity.
  Qed.
End Props.

(** * Findings *)
(** two selections of an empty list; the second is released, and the first no longer follows *)
Theorem selrel_follows_refuted : ~ forall (h1 h2 : list (rop nat)) i s L L' r y,
  objs (rrun (fresh []) h1) !! i = Some s -> due 0 (h1 ++ h2) i -> not_used i h2 -> NoDup L -> edits L (edits_of h2) r L' ->
  exists s', objs (rrun (fresh []) (h1 ++ h2)) !! i = Some s' /\ (selected L' s' y <-> selected L s y /\ y ∉ r).
Proof.
  intros H. destruct (H [Make; Make; Release 1; Use 0 (OSet 0%Z)] [Edit (LIns 0 8)] 0 (Sel SMultiple {[0%Z]} (Some 0%Z)) [7] [8; 7] [] 7) as (s' & E & G).
  - vm_compute. reflexivity.
  - split; [cbn; lia|]. intros X. unfold released in X. cbn in X. rewrite !elem_of_cons, elem_of_nil in X. intuition discriminate.
  - intros o X. rewrite elem_of_cons, elem_of_nil in X. intuition discriminate.
  - repeat constructor. intros X. inversion X.
  - apply (edits_ins [] [7] 8 [] [] [8; 7]); [|constructor]. cbn. rewrite elem_of_cons, elem_of_nil. intuition discriminate.
  - assert (E' : objs (rrun (fresh []) ([Make; Make; Release 1; Use 0 (OSet 0%Z)] ++ [Edit (LIns 0 8)])) !! 0 = Some (Sel SMultiple {[0%Z]} (Some 0%Z))) by (vm_compute; reflexivity).
    rewrite E' in E. injection E as <-. assert (X : selected [8; 7] (Sel SMultiple {[0%Z]} (Some 0%Z)) 7).
    { apply G. split; [|intros X; inversion X]. exists 0%Z. split; [vm_compute; reflexivity|]. split; [lia|reflexivity]. }
    destruct X as (k & K & _ & X). change (k ∈ ({[0%Z]} : gset Z)) in K. apply elem_of_singleton in K. subst k. discriminate.
Qed.
(** the one that was released is still moved *)
Theorem selrel_left_refuted : ~ forall (h1 h2 : list (rop nat)) i, released i h1 -> not_used i h2 ->
  objs (rrun (fresh []) (h1 ++ h2)) !! i = objs (rrun (fresh []) h1) !! i.
Proof.
  intros H. specialize (H [Make; Make; Release 1; Use 1 (OSetAnchor (Some 0%Z))] [Edit (LIns 0 8)] 1). assert (G : Some (Sel SMultiple ∅ (Some 1%Z)) = Some (Sel SMultiple ∅ (Some 0%Z))); [|discriminate].
  etransitivity; [|etransitivity; [apply H|]].
  - vm_compute. reflexivity.
  - unfold released. rewrite !elem_of_cons. auto.
  - intros o X. rewrite elem_of_cons, elem_of_nil in X. intuition discriminate.
  - vm_compute. reflexivity.
Qed.
(** releasing one twice can take another out, and does not raise *)
Theorem selrel_twice_refuted : ~ forall (h : list (rop nat)) i, let st := rrun (fresh []) h in
  released i h -> (rstep (A := nat) st (Release i)).2 = None -> kept (rstep (A := nat) st (Release i)).1 = kept st.
Proof.
  intros H. specialize (H [Make; Make; Release 0] 0). cbv zeta in H. assert (G : @nil nat = [1]); [|discriminate].
  etransitivity; [|etransitivity; [apply H|]]; try (vm_compute; reflexivity). unfold released. rewrite !elem_of_cons. auto.
Qed.

(** * Examples *)
(** a selection of style single was given to the constructor; releasing a new one takes it out, though their styles differ *)
Example given_out : kept (rrun (A := nat) (fresh [new_selection SSingle]) [Make; Make; Release 2]) = [1; 2].
Proof. vm_compute. reflexivity. Qed.
(** selections with different indexes, or different anchors, are told apart *)
Definition apart : list (rop nat) := [Make; Make; Make; Use 0 (OSet 3%Z); Use 1 (OSetMultiple [3%Z; 4%Z]); Edit (LIns 0 9); Release 2; Release 1; Edit (LDel 0)].
Example apart_run : kept (rrun (fresh []) apart) = [0] /\ contents (objs (rrun (fresh []) apart)) 0 = Some ({[3%Z]}, Some 3%Z) /\
  contents (objs (rrun (fresh []) apart)) 1 = Some ({[4%Z; 5%Z]}, Some 4%Z).
Proof. split; [vm_compute; reflexivity|]. split; refine (bool_decide_unpack _ _); vm_compute; exact Logic.I. Qed.
Example anchor_apart : kept (rrun (A := nat) (fresh []) [Make; Make; Use 0 (OSetAnchor (Some 2%Z)); Release 1]) = [0].
Proof. vm_compute. reflexivity. Qed.
Example unknown : (rstep (A := nat) (rrun (A := nat) (fresh []) [Make; Make; Use 0 (OSet 1%Z); Release 1]) (Release 1)).2 = Some ValueError.
Proof. vm_compute. reflexivity. Qed.

Print Assumptions selrel_release.
Print Assumptions selrel_release_other.
Print Assumptions selrel_contents.
Print Assumptions selrel_exact.
Print Assumptions selrel_oldest_first.
Print Assumptions selrel_follows.
Print Assumptions selrel_left.
Print Assumptions selrel_follows_refuted.
Print Assumptions selrel_left_refuted.
Print Assumptions selrel_twice_refuted.
