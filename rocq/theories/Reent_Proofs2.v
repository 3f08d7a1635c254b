(** A filtered list among the observers of a list that is changed again from within its notifications. *)
From Coq Require Import List ZArith Bool Arith Lia.
From Verif Require Import PyBase ListModel_Model ListModel_Spec Reent_Model Reent_Spec Reent_Proofs Filtered_Model.
Import ListNotations.
Open Scope nat_scope.

Lemma list_apply_ok {A} (l : list A) o l1 x : list_step l o = Some (l1, x) -> list_apply l x l1.
Proof.
  unfold list_step, list_apply. destruct o as [i y|i]; cbn.
  - intros H. injection H as <- <-. reflexivity.
  - unfold lm_remove. destruct (py_get l i) as [y|] eqn:G; [|discriminate]. destruct (py_del l i) as [l'|] eqn:D; [|discriminate].
    intros H. injection H as <- <-. cbn. rewrite D. eauto.
Qed.
Lemma tracks_follows {A} (l : list A) ns l' : tracks list_apply l ns l' -> follows l ns l'.
Proof.
  induction 1 as [|l x l1 ns l2 H _ IH]; cbn; [reflexivity|]. unfold list_apply in H.
  destruct x as [i y|i y]; cbn in *; [now subst|]. destruct H as (H & l3 & D & <-). eauto.
Qed.

Section Filtered.
  Context {A C K : Type} (A_dec : forall a b : A, {a = b} + {a <> b}) (lt : K -> K -> bool).
  Implicit Types s : fstate A C K.

  Lemma inserted_master_cont s x : fs_cont (fst (inserted_master A_dec lt s x)) = fs_cont s /\ fs_conn (fst (inserted_master A_dec lt s x)) = fs_conn s.
  Proof. unfold inserted_master. destruct (0 <? fs_level s)%Z; [auto|]. destruct (matching s x); auto. Qed.
  Lemma removed_master_cont s x : fs_cont (fst (removed_master A_dec s x)) = fs_cont s /\ fs_conn (fst (removed_master A_dec s x)) = fs_conn s.
  Proof. unfold removed_master. destruct (0 <? fs_level s)%Z; [auto|]. destruct (index_of A_dec x (fs_items s)); auto. Qed.
  Lemma item_inserted_cont s x i : fs_cont (fst (fst (item_inserted A_dec lt s x i))) = fs_cont s /\ fs_conn (fst (fst (item_inserted A_dec lt s x i))) = fs_conn s.
  Proof.
    unfold item_inserted. destruct (inb A_dec x (fs_master s)); [auto|].
    pose proof (inserted_master_cont (with_master s (py_insert i x (fs_master s)) (x :: fs_listen s)) x) as H.
    destruct (inserted_master A_dec lt _ x) as [s2 tr]. exact H.
  Qed.
  Lemma item_removed_cont s x i : fs_cont (fst (fst (item_removed A_dec s x i))) = fs_cont s /\ fs_conn (fst (fst (item_removed A_dec s x i))) = fs_conn s.
  Proof.
    unfold item_removed. destruct (py_del (fs_master s) i) as [m|]; [|auto]. destruct (inb A_dec x (fs_listen s)); [|auto].
    pose proof (removed_master_cont (with_master s m (remove A_dec x (fs_listen s))) x) as H.
    destruct (removed_master A_dec _ x) as [s2 tr]. exact H.
  Qed.

  Lemma f_feed_app j a b s : f_feed A_dec lt j (a ++ b) s = f_feed A_dec lt j b (f_feed A_dec lt j a s).
  Proof. revert s. induction a as [|[] a IH]; intros s0; cbn; auto. destruct (Nat.eqb _ _); apply IH. Qed.
  Lemma f_feed_silent j c s : ~ mentions j c -> f_feed A_dec lt j c s = s.
  Proof.
    revert s. induction c as [|[x l|k x l] c IH]; intros s M; cbn; auto.
    - apply IH. intros (y & z & H). apply M. exists y, z. now right.
    - destruct (Nat.eqb_spec k j) as [->|E]; [exfalso; apply M; exists x, l; now left|]. apply IH. intros (y & z & H). apply M. exists y, z. now right.
  Qed.
  Lemma f_run_cons s o h : fst (f_run A_dec lt s (o :: h)) = fst (f_run A_dec lt (fst (fst (f_step A_dec lt s o))) h).
  Proof. cbn. destruct (f_step A_dec lt s o) as [[s1 t1] e]. cbn. destruct (f_run A_dec lt s1 h). reflexivity. Qed.
  Lemma f_step_hears s o l l1 x : fs_cont s = Some l -> fs_conn s = true -> list_step l o = Some (l1, x) ->
    fst (fst (f_step A_dec lt s (as_op x))) = f_hear A_dec lt l1 x s /\ fs_cont (f_hear A_dec lt l1 x s) = Some l1 /\ fs_conn (f_hear A_dec lt l1 x s) = true.
  Proof.
    intros Hc Hn E. unfold list_step in E. destruct o as [i y|i]; cbn in E.
    - injection E as <- <-. cbn [as_op f_step]. rewrite Hc, Hn. unfold f_hear. split; [reflexivity|]. apply (item_inserted_cont (with_cont s (Some (py_insert i y l)) true)).
    - unfold lm_remove in E. destruct (py_get l i) as [y|] eqn:G; [|discriminate]. destruct (py_del l i) as [l'|] eqn:D; [|discriminate].
      injection E as <- <-. cbn [as_op f_step]. rewrite Hc, Hn, G, D. unfold f_hear. split; [reflexivity|]. apply (item_removed_cont (with_cont s (Some l') true)).
  Qed.
  Lemma phase_filtered j l d l' : phase list_step j l d l' -> forall s, fs_cont s = Some l -> fs_conn s = true ->
    fst (f_run A_dec lt s (map as_op (told j d))) = f_feed A_dec lt j d s /\ fs_cont (f_feed A_dec lt j d s) = Some l' /\ fs_conn (f_feed A_dec lt j d s) = true.
  Proof.
    induction 1 as [l|k x l0 l d l' E H IH|l o l1 x c d l' E M C0 H IH]; intros s Hc Hn.
    - cbn. auto.
    - cbn. destruct (Nat.eqb_spec k j); [contradiction|]. auto.
    - cbn [told f_feed]. rewrite told_app, f_feed_app, (not_mentions_told j c M), (f_feed_silent j c s M). cbn. rewrite Nat.eqb_refl.
      cbn [map]. rewrite f_run_cons. destruct (f_step_hears s o l l1 x Hc Hn E) as (-> & Hc1 & Hn1). auto.
  Qed.
End Filtered.
