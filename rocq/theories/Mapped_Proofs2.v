(** Selections attached to a mapped list. *)
From stdpp Require Import list.
From Coq Require Import ZArith Bool Arith Lia.
From Verif Require Import PyBase Selection_Model Selection_Spec Selection_Proofs Mapped_Model Mapped_Spec Mapped_Proofs.
Import ListNotations.
Local Open Scope nat_scope.

Section MSel.
  Context {A B : Type} (mapf : nat -> A -> B).
  Notation mev := (mev A B).

  Fixpoint note_calls (tr : list mev) : list sop :=
    match tr with
    | [] => []
    | MIns _ i :: tr' => OInsertIndex i :: note_calls tr'
    | MRem _ i :: tr' => ORemoveIndex i :: note_calls tr'
    | _ :: tr' => note_calls tr'
    end.
  Fixpoint notes_ok (l : list B) (tr : list mev) : Prop :=
    match tr with
    | [] => True
    | MIns b i :: tr' => (0 <= i <= Z.of_nat (length l))%Z /\ notes_ok (py_insert i b l) tr'
    | MRem b i :: tr' => (0 <= i)%Z /\ forall l1, py_del l i = Ok l1 -> notes_ok l1 tr'
    | _ :: tr' => notes_ok l tr'
    end.
  Fixpoint ins_values (tr : list mev) : list B :=
    match tr with [] => [] | MIns b _ :: tr' => b :: ins_values tr' | _ :: tr' => ins_values tr' end.

  Lemma m_selection_calls_app t1 t2 : m_selection_calls (t1 ++ t2 : list mev) = m_selection_calls t1 ++ m_selection_calls t2.
  Proof. induction t1 as [|e t1 IH]; simpl; [reflexivity|]. destruct e; simpl; rewrite IH; reflexivity. Qed.
  Lemma note_calls_app t1 t2 : note_calls (t1 ++ t2) = note_calls t1 ++ note_calls t2.
  Proof. induction t1 as [|e t1 IH]; simpl; [reflexivity|]. destruct e; simpl; rewrite IH; reflexivity. Qed.
  Lemma ins_values_app t1 t2 : ins_values (t1 ++ t2) = ins_values t1 ++ ins_values t2.
  Proof. induction t1 as [|e t1 IH]; simpl; [reflexivity|]. destruct e; simpl; rewrite IH; reflexivity. Qed.
  Lemma notes_ok_app t1 t2 l l1 : m_observes l t1 l1 -> notes_ok l t1 -> notes_ok l1 t2 -> notes_ok l (t1 ++ t2).
  Proof.
    revert l. induction t1 as [|e t1 IH]; simpl; intros l Ho H1 H2; [subst; exact H2|].
    destruct e; try (eapply IH; eassumption).
    - destruct H1. split; [assumption|eapply IH; eassumption].
    - destruct H1 as [H1 H3], Ho as (_ & l0 & Hd & Ho). split; [assumption|]. intros l' Hl'. replace l' with l0 in * by congruence.
      eapply IH; eauto.
  Qed.

  Lemma observes_edits tr : forall l l',
    m_observes l tr l' -> notes_ok l tr -> List.NoDup (l ++ ins_values tr) ->
    exists es, edits l es (m_removed_values tr) l' /\ note_calls tr = map accompany es.
  Proof.
    induction tr as [|e tr IH]; intros l l' Ho Hk Hn; simpl in *.
    - subst. exists []. split; [constructor|reflexivity].
    - destruct e as [n a b|b|b i|b i|i|i| |]; try (eapply IH; eassumption).
      + destruct Hk as [Hi Hk].
        destruct (split_at l (Z.to_nat i) ltac:(lia)) as (l1 & l2 & El & H1). subst l.
        assert (Ei : i = Z.of_nat (length l1)) by lia. clear H1. subst i.
        assert (Ep : py_insert (Z.of_nat (length l1)) b (l1 ++ l2) = l1 ++ b :: l2).
        { unfold py_insert. rewrite py_insert_pos_nat by (rewrite app_length; lia). apply insert_at_app. }
        rewrite Ep in *.
        destruct (IH _ _ Ho Hk) as (es & He & Hc).
        { eapply Permutation.Permutation_NoDup; [|exact Hn]. rewrite <- !app_assoc. simpl. apply Permutation.Permutation_app_head.
          symmetry. apply Permutation.Permutation_middle. }
        exists (LIns (length l1) b :: es). split; [|simpl; rewrite Hc; reflexivity]. constructor; [|exact He].
        rewrite elem_of_list_In. intros Hin. eapply NoDup_remove_2; [exact Hn|]. apply in_app_iff. auto.
      + destruct Ho as (Hg & l0 & Hd & Ho), Hk as [Hi Hk]. specialize (Hk _ Hd).
        unfold py_get in Hg. unfold py_del in Hd. destruct (py_index (length l) i) as [k|] eqn:Ek; [|discriminate].
        assert (k = Z.to_nat i). { unfold py_index in Ek. repeat (case_match; try discriminate). all: injection Ek; lia. }
        destruct (nth_error l k) as [b'|] eqn:En; [|discriminate]. injection Hg as ->.
        apply nth_error_split in En as (l1 & l2 & -> & H1). rewrite <- H1, delete_at_app in Hd. injection Hd as <-.
        destruct (IH _ _ Ho Hk) as (es & He & Hc).
        { rewrite <- app_assoc in Hn. simpl in Hn. apply NoDup_remove_1 in Hn. rewrite app_assoc in Hn. exact Hn. }
        exists (LDel (length l1) :: es). split; [constructor; exact He|]. simpl. rewrite Hc. f_equal. f_equal. lia.
  Qed.

  Record blk (l : list B) (tr : list mev) : Prop := {
    bl_ok : notes_ok l tr;
    bl_calls : m_selection_calls tr = note_calls tr;
    bl_vals : ins_values tr = map snd (map_calls tr) }.

  Lemma blk_app l t1 l1 t2 : m_observes l t1 l1 -> blk l t1 -> blk l1 t2 -> blk l (t1 ++ t2).
  Proof.
    intros Ho [] []. split; [eapply notes_ok_app; eassumption| |].
    - rewrite m_selection_calls_app, note_calls_app. congruence.
    - rewrite ins_values_app, map_calls_app, map_app. congruence.
  Qed.

  Lemma m_inserted_blk (s : mstate A B) x i s' tr : m_inserted mapf s x i = (s', tr) ->
    (0 <= i <= Z.of_nat (length (ms_items s)))%Z -> blk (ms_items s) tr.
  Proof. unfold m_inserted. intros [= <- <-] H. split; simpl; auto. Qed.
  Lemma m_removed_blk (s : mstate A B) i s' tr e : m_removed s i = (s', tr, e) -> (0 <= i)%Z -> blk (ms_items s) tr.
  Proof.
    unfold m_removed. intros E H. destruct (py_get (ms_items s) i), (py_del (ms_items s) i); injection E as <- <- <-; split; simpl; auto.
  Qed.
  Lemma m_remove_loop_blk xs : forall (s : mstate A B) s' tr e, m_remove_loop xs s = (s', tr, e) ->
    length (ms_items s) = length xs -> blk (ms_items s) tr.
  Proof.
    induction xs as [|x xs IH]; intros s s' tr e; cbn [m_remove_loop].
    - intros [= <- <- <-] _. split; simpl; auto.
    - intros E Hl. assert (Hne : ms_items s <> []) by (intros H; rewrite H in Hl; discriminate).
      destruct (exists_last Hne) as (l1 & b & Eb).
      destruct (m_removed s _) as [[s1 t1] e1] eqn:E1.
      destruct (m_removed_stretch mapf s _ l1 b [] _ _ _ E1 Eb) as (-> & S1 & Q1 & C1 & L1 & I1 & _).
      { rewrite Eb, app_length. simpl. rewrite Nat.add_1_r. apply last_index'. }
      destruct (m_remove_loop xs s1) as [[s2 t2] e2] eqn:E2. injection E as <- <- <-.
      rewrite app_nil_r in I1. eapply blk_app; [apply S1|eapply m_removed_blk; [exact E1|rewrite Eb, app_length; simpl; lia]|].
      eapply IH; [exact E2|]. rewrite Eb, app_length in Hl. simpl in Hl. rewrite I1. lia.
  Qed.
  Lemma m_insert_loop_blk xs : forall idx (s : mstate A B) s' tr, m_insert_loop mapf xs idx s = (s', tr) ->
    length (ms_items s) = idx -> blk (ms_items s) tr.
  Proof.
    induction xs as [|x xs IH]; intros idx s s' tr; cbn [m_insert_loop].
    - intros [= <- <-] _. split; simpl; auto.
    - intros E Hl. destruct (m_inserted mapf s x (Z.of_nat idx)) as [s1 t1] eqn:E1.
      destruct (m_inserted_stretch _ _ _ _ _ _ E1) as (S1 & Q1 & C1 & L1 & I1).
      destruct (m_insert_loop mapf xs (S idx) s1) as [s2 t2] eqn:E2. injection E as <- <-.
      eapply blk_app; [apply S1|eapply m_inserted_blk; [exact E1|lia]|]. eapply IH; [exact E2|].
      rewrite I1. unfold py_insert. rewrite insert_at_length. lia.
  Qed.

  Lemma m_step_blk (s : mstate A B) o s' tr e : m_step mapf s o = (s', tr, e) ->
    length (m_contents s) = length (ms_items s) -> m_in_range s o -> blk (ms_items s) tr.
  Proof.
    intros E Hl Ho. assert (Nil : forall l, blk l []) by (intros l; split; simpl; auto).
    destruct o as [i x|i|c| |]; cbn [m_step m_in_range] in *.
    - destruct (ms_cont s) as [l|]; [|injection E as <- <- <-; apply Nil].
      destruct (m_inserted mapf _ x i) as [s1 t1] eqn:E1. injection E as <- <- <-.
      apply m_inserted_blk in E1; [exact E1|]. simpl. rewrite <- Hl. exact Ho.
    - destruct (ms_cont s) as [l|]; [|injection E as <- <- <-; apply Nil].
      destruct (py_del l i); [|injection E as <- <- <-; apply Nil].
      apply m_removed_blk in E; [exact E|exact Ho].
    - unfold m_set_container in E.
      assert (At : forall s0 s1 t1, m_attach mapf s0 c = (s1, t1) -> ms_items s0 = [] -> blk [] t1).
      { intros s0 s1 t1 Ea Hi. unfold m_attach in Ea. destruct c as [l|]; [|injection Ea as <- <-; apply Nil].
        apply m_insert_loop_blk in Ea; simpl in *; rewrite Hi in *; auto. }
      unfold m_contents in Hl. destruct (ms_cont s) as [old|] eqn:Ec.
      + destruct (m_remove_loop (rev old) s) as [[s1 t1] e1] eqn:E1.
        destruct (m_remove_loop_stretch mapf _ _ _ _ _ E1) as (-> & S1 & Q1 & I1 & C1 & L1); [rewrite rev_length; auto|].
        destruct (m_attach mapf s1 c) as [s2 t2] eqn:E2. injection E as <- <- <-.
        eapply blk_app; [apply S1|eapply m_remove_loop_blk; [exact E1|rewrite rev_length; auto]|]. eapply At; eassumption.
      + assert (Hi : ms_items s = []) by (destruct (ms_items s); [reflexivity|discriminate]).
        destruct (m_attach mapf s c) as [s1 t1] eqn:E1. injection E as <- <- <-. rewrite Hi. eapply At; eassumption.
    - injection E as <- <- <-. destruct (ms_level s =? 0)%Z; split; simpl; auto.
    - injection E as <- <- <-. destruct (ms_level s - 1 =? 0)%Z; split; simpl; auto.
  Qed.

  Lemma m_run_blk h : forall s : mstate A B,
    length (m_contents s) = length (ms_items s) -> m_along mapf m_in_range s h ->
    blk (ms_items s) (snd (m_run mapf s h)).
  Proof.
    induction h as [|o h IH]; intros s Hl Ha; cbn [m_run m_along] in *.
    - split; simpl; auto.
    - destruct (m_step mapf s o) as [[s1 t1] e1] eqn:E. destruct Ha as [Ho Ha]. simpl in Ha.
      destruct (m_step_lemma mapf _ _ _ _ _ E Hl) as (Hl1 & (ins & S1 & _) & _).
      specialize (IH s1 Hl1 Ha). destruct (m_run mapf s1 h) as [s2 t2]. simpl in *.
      eapply blk_app; [apply S1|eapply m_step_blk; eassumption|exact IH].
  Qed.
End MSel.
