(** Properties C18, C19 and C80 of MappedListModel. *)
From stdpp Require Import list sets gmap.
From Coq Require Import ZArith Bool Arith Lia.
From Verif Require Import PyBase Selection_Model Selection_Spec Selection_Proofs Mapped_Model Mapped_Spec Mapped_Proofs Mapped_Proofs2.
Import ListNotations.
Local Open Scope nat_scope.

Section MP.
  Context {A B : Type} (mapf : nat -> A -> B).

  Lemma m_new_run h : let '(s', tr) := m_run mapf m_new h in
    stretch mapf [] 0 tr (ms_items s') (ms_calls s') (entered None h) /\
    Forall2 (made (map_calls tr)) (m_contents s') (ms_items s').
  Proof. apply (m_run_lemma mapf h m_new []); [reflexivity|constructor]. Qed.

  (** C18: every item comes from a map_fn call on the container item at the same position *)
  Theorem mapped_items_are_images h :
    let '(s', tr) := m_run mapf m_new h in
    Forall2 (fun a b => exists n, In (n, a, b) (map_calls tr) /\ b = mapf n a) (m_contents s') (ms_items s').
  Proof.
    pose proof (m_new_run h) as R. destruct (m_run mapf m_new h) as [s' tr]. destruct R as [S F].
    eapply Forall2_weaken; [|exact F]. intros a b [n H]. exists n. split; [exact H|]. eapply stretch_calls; eassumption.
  Qed.

  Theorem mapped_items_are_map f h :
    (forall n x, mapf n x = f x) -> let s' := fst (m_run mapf m_new h) in ms_items s' = map f (m_contents s').
  Proof.
    intros Hf. pose proof (mapped_items_are_images h) as R. destruct (m_run mapf m_new h) as [s' tr]. simpl.
    induction R as [|a b l m (n & _ & ->) _ IH]; [reflexivity|]. simpl. rewrite Hf, IH. reflexivity.
  Qed.

  (** C18: the notifications, with Python index rules, reconstruct the items from the empty list *)
  Theorem mapped_observer_reconstructs h :
    let '(s', tr) := m_run mapf m_new h in m_observes [] tr (ms_items s').
  Proof.
    pose proof (m_new_run h) as R. destruct (m_run mapf m_new h) as [s' tr]. apply R.
  Qed.

  (** C18: a selection attached after any history h0 follows the mapped objects through in-range edits h,
      including container changes, when the objects are different *)
  Theorem mapped_selection_follows h0 h sel y :
    let s0 := fst (m_run mapf m_new h0) in
    m_along mapf m_in_range s0 h ->
    let '(s', tr) := m_run mapf s0 h in
    List.NoDup (ms_items s0 ++ map snd (map_calls tr)) ->
    selected (ms_items s') (sel_run sel (m_selection_calls tr)) y <->
    selected (ms_items s0) sel y /\ y ∉ m_removed_values tr.
  Proof.
    intros s0 Ha.
    assert (Hl : length (m_contents s0) = length (ms_items s0)).
    { pose proof (m_new_run h0) as R. subst s0. destruct (m_run mapf m_new h0) as [s t]. destruct R as [_ F].
      eapply Forall2_length. exact F. }
    assert (HF : Forall2 (made (map_calls (snd (m_run mapf m_new h0)))) (m_contents s0) (ms_items s0)).
    { pose proof (m_new_run h0) as R. subst s0. destruct (m_run mapf m_new h0) as [s t]. apply R. }
    pose proof (m_run_lemma mapf h s0 _ Hl HF) as R. pose proof (m_run_blk mapf h s0 Hl Ha) as Bk.
    destruct (m_run mapf s0 h) as [s' tr]. destruct R as [S _]. simpl in Bk. destruct Bk as [Bo Bc Bv].
    intros Hnd. rewrite <- Bv in Hnd.
    destruct (observes_edits tr _ _ (st_obs _ _ _ _ _ _ _ S) Bo Hnd) as (es & He & Hc).
    rewrite Bc, Hc. apply edits_follow_lemma; [|exact He]. apply NoDup_ListNoDup in Hnd. apply NoDup_app in Hnd. apply Hnd.
  Qed.

  (** C19: map_fn is called once for each item put in the container, in order, with call numbers 0, 1, ... *)
  Theorem mapped_called_once_per_item h :
    let tr := snd (m_run mapf m_new h) in
    map (fun c => snd (fst c)) (map_calls tr) = entered None h /\
    map (fun c => fst (fst c)) (map_calls tr) = seq 0 (length (entered None h)).
  Proof.
    pose proof (m_new_run h) as R. destruct (m_run mapf m_new h) as [s' tr]. simpl. destruct R as [[_ Cl _ _ _] _].
    rewrite Cl. generalize (entered None h) as l. clear. intros l.
    assert (G : forall n, map (fun c => snd (fst c)) (combine (combine (seq n (length l)) l) (map (fun p => mapf (fst p) (snd p)) (combine (seq n (length l)) l))) = l /\
      map (fun c => fst (fst c)) (combine (combine (seq n (length l)) l) (map (fun p => mapf (fst p) (snd p)) (combine (seq n (length l)) l))) = seq n (length l)).
    { induction l as [|a l IH]; intros n; [split; reflexivity|]. destruct (IH (S n)) as [H1 H2]. simpl. rewrite H1, H2. auto. }
    apply G.
  Qed.

  (** C19: unmap_fn is called with exactly the objects notified as removed, in order, and the objects made are,
      with multiplicity, those still present and those unmapped *)
  Theorem mapped_unmapped_once h :
    let '(s', tr) := m_run mapf m_new h in
    unmapped tr = m_removed_values tr /\
    Permutation (map snd (map_calls tr)) (ms_items s' ++ unmapped tr).
  Proof.
    pose proof (m_new_run h) as R. destruct (m_run mapf m_new h) as [s' tr]. destruct R as [[_ _ _ Bal Un] _].
    split; assumption.
  Qed.

  Theorem mapped_all_unmapped_at_none h :
    let '(s', tr) := m_run mapf m_new (h ++ [MSetContainer None]) in
    ms_items s' = [] /\ Permutation (map snd (map_calls tr)) (unmapped tr).
  Proof.
    pose proof (mapped_unmapped_once (h ++ [MSetContainer None])) as H.
    pose proof (mapped_items_are_images (h ++ [MSetContainer None])) as F.
    assert (Hc : forall s, ms_cont s = None \/ length (m_contents s) = length (ms_items s) ->
       length (m_contents s) = length (ms_items s) -> m_contents (fst (m_run mapf s [MSetContainer None])) = []).
    { intros s _ Hl. cbn [m_run]. destruct (m_step mapf s (MSetContainer None)) as [[s1 t1] e1] eqn:E.
      destruct (m_step_lemma mapf _ _ _ _ _ E Hl) as (_ & _ & _ & _). simpl. cbn [m_step] in E. unfold m_set_container in E.
      unfold m_contents in Hl |- *. destruct (ms_cont s) as [old|] eqn:Ec.
      - destruct (m_remove_loop (rev old) s) as [[s2 t2] e2] eqn:E2.
        destruct (m_remove_loop_stretch mapf _ _ _ _ _ E2) as (-> & _); [rewrite rev_length; auto|].
        simpl in E. injection E as <- _ _. reflexivity.
      - simpl in E. injection E as <- _ _. reflexivity. }
    assert (Happ : forall h1 h2 s, m_run mapf s (h1 ++ h2) =
      (fst (m_run mapf (fst (m_run mapf s h1)) h2), snd (m_run mapf s h1) ++ snd (m_run mapf (fst (m_run mapf s h1)) h2))).
    { induction h1 as [|o h1 IH]; intros h2 s; cbn [m_run app]; [simpl; destruct (m_run mapf s h2); reflexivity|].
      destruct (m_step mapf s o) as [[s1 t1] e1]. rewrite IH. destruct (m_run mapf s1 h1) as [s2 t2]. simpl.
      rewrite app_assoc. reflexivity. }
    rewrite Happ in *.
    assert (Hl : length (m_contents (fst (m_run mapf m_new h))) = length (ms_items (fst (m_run mapf m_new h)))).
    { pose proof (m_new_run h) as R. destruct (m_run mapf m_new h) as [s t]. destruct R as [_ R]. eapply Forall2_length. exact R. }
    specialize (Hc _ (or_intror Hl) Hl). rewrite Hc in F. apply Forall2_length in F. destruct (ms_items _) as [|b l] eqn:E0; [|discriminate F].
    split; [reflexivity|]. apply (proj2 H).
  Qed.

  (** C80: the begin and end events of balanced change blocks alternate; the last one is a begin exactly when a
      block is still open *)
  Theorem mapped_blocks_bracketed h d :
    blocks 0 h = Some d -> alternating false (snd (m_run mapf m_new h)) = Some (0 <? d).
  Proof.
    intros H. destruct (m_run_alternating mapf h m_new 0 d eq_refl eq_refl H) as [G _]. exact G.
  Qed.
End MP.
Print Assumptions mapped_items_are_images.
Print Assumptions mapped_items_are_map.
Print Assumptions mapped_observer_reconstructs.
Print Assumptions mapped_selection_follows.
Print Assumptions mapped_called_once_per_item.
Print Assumptions mapped_unmapped_once.
Print Assumptions mapped_all_unmapped_at_none.
Print Assumptions mapped_blocks_bracketed.

(** map_fn returns (call number, item), so the objects are all different *)
Definition mx_h0 : list (mop nat) := [MSetContainer (Some [7; 8])].
Definition mx_h : list (mop nat) := [MInsert 1 7; MBeginChange; MBeginChange; MRemove 0; MEndChange; MInsert 2 9; MEndChange].
Definition mx_all := m_run (@pair nat nat) m_new (mx_h0 ++ mx_h).
Example mapped_c18_case :
  m_contents (fst mx_all) = [7; 8; 9] /\ ms_items (fst mx_all) = [(2, 7); (1, 8); (3, 9)].
Proof. vm_compute. auto. Qed.
Example mapped_c18_negative_case :
  ms_items (fst (m_run (fun _ x => x * 10) m_new [MSetContainer (Some [1; 2; 3]); MInsert (-1) 4; MRemove (-2); MInsert 99 5])) = [10; 20; 30; 50].
Proof. vm_compute. auto. Qed.
Example mapped_c18_selection_case :
  let s0 := fst (m_run (@pair nat nat) m_new mx_h0) in
  m_along (@pair nat nat) m_in_range s0 mx_h /\
  m_selection_calls (snd (m_run (@pair nat nat) s0 mx_h)) = [OInsertIndex 1; ORemoveIndex 0; OInsertIndex 2] /\
  map snd (map_calls (snd (m_run (@pair nat nat) s0 mx_h))) = [(2, 7); (3, 9)] /\ ms_items s0 = [(0, 7); (1, 8)] /\
  s_indexes (sel_run (Sel SMultiple {[0%Z; 1%Z]} None) [OInsertIndex 1; ORemoveIndex 0; OInsertIndex 2]) = {[1%Z]}.
Proof.
  cbv zeta. split; [vm_compute; repeat split; discriminate|]. split; [vm_compute; reflexivity|]. split; [vm_compute; reflexivity|].
  split; [vm_compute; reflexivity|]. apply (bool_decide_unpack _); vm_compute; exact I.
Qed.
Example mapped_c19_case :
  map_calls (snd mx_all) = [(0, 7, (0, 7)); (1, 8, (1, 8)); (2, 7, (2, 7)); (3, 9, (3, 9))] /\ unmapped (snd mx_all) = [(0, 7)] /\
  unmapped (snd (m_run (@pair nat nat) m_new ((mx_h0 ++ mx_h) ++ [MSetContainer None]))) = [(0, 7); (3, 9); (1, 8); (2, 7)].
Proof. vm_compute. auto. Qed.
Example mapped_c80_case :
  blocks 0 (mx_h0 ++ mx_h) = Some 0 /\
  List.filter (fun e => match e with MBegin | MEnd => true | _ => false end) (snd mx_all) = [MBegin; MEnd].
Proof. vm_compute. auto. Qed.
