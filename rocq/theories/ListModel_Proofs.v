From Coq Require Import List ZArith Lia Bool.
From Verif Require Import PyBase ListModel_Model ListModel_Spec.
Import ListNotations.
Open Scope Z_scope.

Lemma follows_app {A} (n1 n2 : list (lnote A)) l l1 l2 :
  follows l n1 l1 -> follows l1 n2 l2 -> follows l (n1 ++ n2) l2.
Proof.
  revert l. induction n1 as [|[i x|i x] n1 IH]; simpl; intros l H1 H2.
  - subst. exact H2.
  - apply IH; assumption.
  - destruct H1 as (Hg & l' & Hd & H1). eauto.
Qed.

Lemma py_get_del_ok {A} (l : list A) i x : py_get l i = Ok x -> exists l', py_del l i = Ok l'.
Proof. unfold py_get, py_del. destruct (py_index (length l) i); [eauto|discriminate]. Qed.

Lemma lm_remove_follows {A} i (l : list A) l' n e :
  lm_remove i l = (l', n, e) -> follows l n l'.
Proof.
  unfold lm_remove. destruct (py_get l i) as [x|e'] eqn:Hg; [|intros [= <- <- <-]; reflexivity].
  destruct (py_del l i) as [l1|e'] eqn:Hd; intros [= <- <- <-]; simpl; [|reflexivity]. eauto.
Qed.

Lemma lm_clear_follows {A} f (l : list A) l' n e : lm_clear_loop f l = (l', n, e) -> follows l n l'.
Proof.
  revert l l' n e. induction f as [|f IH]; intros l l' n e; simpl.
  - destruct l; intros [= <- <- <-]; reflexivity.
  - destruct l as [|x l]; [intros [= <- <- <-]; reflexivity|].
    destruct (lm_remove _ (x :: l)) as [[l1 n1] [e1|]] eqn:E1.
    + intros [= <- <- <-]. eapply lm_remove_follows. exact E1.
    + destruct (lm_clear_loop f l1) as [[l2 n2] e2] eqn:E2. intros [= <- <- <-].
      eapply follows_app; [eapply lm_remove_follows; exact E1|]. eapply IH. exact E2.
Qed.

Lemma lm_step_follows {A} (l : list A) o l' n e : lm_step l o = (l', n, e) -> follows l n l'.
Proof.
  destruct o as [i x|i|x|]; simpl.
  - intros [= <- <- <-]. reflexivity.
  - apply lm_remove_follows.
  - intros [= <- <- <-]. reflexivity.
  - apply lm_clear_follows.
Qed.

Lemma lm_run_follows {A} h (l : list A) : follows l (snd (lm_run l h)) (fst (lm_run l h)).
Proof.
  revert l. induction h as [|o h IH]; intros l; simpl; [reflexivity|].
  destruct (lm_step l o) as [[l1 n1] e1] eqn:E1. specialize (IH l1).
  destruct (lm_run l1 h) as [l2 n2]. simpl in *. eapply follows_app; [eapply lm_step_follows; exact E1|exact IH].
Qed.

Lemma lm_step_one {A} (l : list A) o :
  match o with
  | LInsert i x => snd (fst (lm_step l o)) = [LnIns i x]
  | LAppend x => lm_step l o = (l ++ [x], [LnIns (Z.of_nat (length l)) x], None)
  | LRemove i =>
      (valid_index l i -> exists l1 x l2, l = l1 ++ x :: l2 /\ lm_step l o = (l1 ++ l2, [LnRem i x], None) /\
         i = (if i <? 0 then Z.of_nat (length l1) - Z.of_nat (length l) else Z.of_nat (length l1))) /\
      (~ valid_index l i -> lm_step l o = (l, [], Some IndexError))
  | LClear => True
  end.
Proof.
  destruct o as [i x|i|x|]; simpl; auto.
  - unfold valid_index, lm_remove, py_get, py_del, py_index.
    set (i' := if i <? 0 then i + Z.of_nat (length l) else i).
    split.
    + intros Hv. assert (Hi : 0 <= i' < Z.of_nat (length l)) by (unfold i'; destruct (Z.ltb_spec i 0); lia).
      destruct (Z.leb_spec 0 i'); [|lia]. destruct (Z.ltb_spec i' (Z.of_nat (length l))); [|lia]. simpl.
      destruct (nth_error l (Z.to_nat i')) as [x|] eqn:En; [|apply nth_error_None in En; lia].
      apply nth_error_split in En as (l1 & l2 & -> & Hl). exists l1, x, l2. split; [reflexivity|].
      split.
      * rewrite <- Hl, delete_at_app. reflexivity.
      * rewrite Hl. unfold i' in *. destruct (Z.ltb_spec i 0); lia.
    + intros Hv. destruct (Z.leb_spec 0 i'); destruct (Z.ltb_spec i' (Z.of_nat (length l))); simpl; try reflexivity.
      exfalso. apply Hv. unfold i' in *. destruct (Z.ltb_spec i 0); lia.
  - unfold lm_insert, py_insert. rewrite py_insert_pos_nat by lia. unfold insert_at.
    rewrite firstn_all, skipn_all. reflexivity.
Qed.

Lemma combine_app {A B} (a1 a2 : list A) (b1 b2 : list B) :
  length a1 = length b1 -> combine (a1 ++ a2) (b1 ++ b2) = combine a1 b1 ++ combine a2 b2.
Proof.
  revert b1. induction a1 as [|x a1 IH]; intros [|y b1] H; simpl in *; try discriminate; [reflexivity|].
  f_equal. apply IH. congruence.
Qed.

Lemma lm_clear_exact {A} (l : list A) :
  lm_step l LClear =
  ([], rev (map (fun p => LnRem (Z.of_nat (fst p)) (snd p)) (combine (seq 0 (length l)) l)), None).
Proof.
  cbn [lm_step].
  induction l as [|x l IH] using rev_ind; [reflexivity|].
  rewrite app_length, Nat.add_1_r. cbn [lm_clear_loop].
  destruct (l ++ [x]) as [|y l0] eqn:E; [destruct l; discriminate|]. rewrite <- E. clear E y l0.
  pose proof (lm_step_one (l ++ [x]) (LRemove (Z.of_nat (length l)))) as [H _].
  unfold valid_index in H. rewrite app_length in H. simpl in H.
  destruct H as (l1 & z & l2 & El & Es & Ei); [lia|].
  replace (Z.of_nat (length (l ++ [x])) - 1) with (Z.of_nat (length l)) by (rewrite app_length; simpl; lia).
  simpl in Es. rewrite Es.
  assert (Hl1 : length l1 = length l) by (destruct (Z.ltb_spec (Z.of_nat (length l)) 0); lia).
  assert (l1 = l /\ z = x /\ l2 = []) as (-> & -> & ->).
  { apply (f_equal (firstn (length l))) in El as E1. rewrite <- Hl1 in E1 at 2.
    rewrite !firstn_app, !firstn_all, !Nat.sub_diag in E1. simpl in E1. rewrite !app_nil_r in E1. subst l1.
    apply app_inv_head in El. injection El as -> <-. auto. }
  rewrite app_nil_r, IH. rewrite seq_S. simpl.
  rewrite combine_app by (rewrite seq_length; reflexivity).
  rewrite map_app, rev_app_distr. simpl. reflexivity.
Qed.
