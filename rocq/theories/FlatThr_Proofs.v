(** Flattened lists under threads: counting, whatever the interleaving. *)
From Coq Require Import List ZArith Bool Arith Permutation Lia.
From Verif Require Import PyBase Flattened_Model Flattened_Spec Flattened_Proofs FlatThr_Model FlatThr_Spec.
Import ListNotations.

Section P.
  Context {M X : Type} (M_dec : forall a b : M, {a = b} + {a <> b}).
  Notation flstate := (flstate M X).
  Notation fth := (fth M X).
  Notation upd := (upd M_dec).

  (** ** lists *)
  Lemma insert_at_front {A} (a l : list A) i x : insert_at (length a + i) x (a ++ l) = a ++ insert_at i x l.
  Proof.
    unfold insert_at. rewrite firstn_app, skipn_app. rewrite firstn_all2 by lia. rewrite skipn_all2 by lia.
    replace (length a + i - length a) with i by lia. simpl. rewrite <- app_assoc. reflexivity.
  Qed.
  Lemma insert_at_back {A} (l b : list A) i x : i <= length l -> insert_at i x (l ++ b) = insert_at i x l ++ b.
  Proof.
    intros H. unfold insert_at. rewrite firstn_app, skipn_app. replace (i - length l) with 0 by lia. simpl.
    rewrite app_nil_r, <- app_assoc. reflexivity.
  Qed.
  Lemma delete_at_front {A} (a l : list A) i : delete_at (length a + i) (a ++ l) = a ++ delete_at i l.
  Proof.
    unfold delete_at. rewrite firstn_app, skipn_app. rewrite firstn_all2 by lia. rewrite skipn_all2 by lia.
    replace (length a + i - length a) with i by lia. replace (S (length a + i) - length a) with (S i) by lia. simpl.
    rewrite <- app_assoc. reflexivity.
  Qed.
  Lemma delete_at_back {A} (l b : list A) i : i < length l -> delete_at i (l ++ b) = delete_at i l ++ b.
  Proof.
    intros H. unfold delete_at. rewrite firstn_app, skipn_app. replace (i - length l) with 0 by lia.
    replace (S i - length l) with 0 by lia. simpl. rewrite app_nil_r, <- app_assoc. reflexivity.
  Qed.
  Lemma insert_delete_at {A} (l : list A) i x : nth_error l i = Some x -> insert_at i x (delete_at i l) = l.
  Proof.
    intros H. apply nth_error_split in H as (a & b & -> & <-). rewrite delete_at_app, insert_at_app. reflexivity.
  Qed.
  Lemma nth_insert_at {A} (l : list A) i x : i <= length l -> nth_error (insert_at i x l) i = Some x.
  Proof.
    intros H. unfold insert_at. rewrite nth_error_app2; rewrite firstn_length_le by lia; [|lia].
    rewrite Nat.sub_diag. reflexivity.
  Qed.
  Lemma py_insert_nat {A} (l : list A) i x : i <= length l -> py_insert (Z.of_nat i) x l = insert_at i x l.
  Proof. intros H. unfold py_insert. rewrite py_insert_pos_nat by exact H. reflexivity. Qed.
  Lemma py_insert_length {A} (l : list A) z x : length (py_insert z x l) = S (length l).
  Proof. unfold py_insert. apply insert_at_length. Qed.
  Lemma py_del_nat {A} (l : list A) i : i < length l -> py_del l (Z.of_nat i) = Ok (delete_at i l).
  Proof. intros H. unfold py_del. rewrite py_index_nat by exact H. reflexivity. Qed.
  Lemma py_del_out {A} (l : list A) i : length l <= i -> py_del l (Z.of_nat i) = Err IndexError.
  Proof.
    intros H. unfold py_del, py_index. destruct (Z.ltb_spec (Z.of_nat i) 0); [lia|].
    destruct (Z.leb_spec 0 (Z.of_nat i)); [|lia]. destruct (Z.ltb_spec (Z.of_nat i) (Z.of_nat (length l))); [lia|]. reflexivity.
  Qed.

  Lemma py_del_more {A} (l l1 L : list A) z :
    (0 <= z)%Z -> py_del l z = Ok l1 -> length l <= length L ->
    exists L1, py_del L z = Ok L1 /\ length L1 + length l = length L + length l1.
  Proof.
    intros Hz E H. destruct (Nat.lt_ge_cases (Z.to_nat z) (length l)) as [Hl|Hl].
    - assert (Ez : z = Z.of_nat (Z.to_nat z)) by lia. rewrite Ez in E |- *. rewrite py_del_nat in E by exact Hl. injection E as <-.
      rewrite py_del_nat by lia. eexists. split; [reflexivity|]. rewrite !delete_at_length by lia. lia.
    - exfalso. assert (Ez : z = Z.of_nat (Z.to_nat z)) by lia. rewrite Ez, py_del_out in E by exact Hl. discriminate.
  Qed.

  (** ** the operations of Flattened_Model.v on a list with other items, not fewer *)
  Lemma lift_child_inserted (f f1 : flstate) m x i tr L :
    child_inserted M_dec f m x i = (f1, tr) ->
    exists L1, child_inserted M_dec (with_items f L) m x i = (with_items f1 L1, tr) /\
      length L1 + length (fl_items f) = length L + length (fl_items f1).
  Proof.
    unfold child_inserted. intros [= <- <-]. cbn. eexists. split; [reflexivity|]. rewrite !py_insert_length. lia.
  Qed.
  Lemma lift_child_removed (f f1 : flstate) m x i tr L :
    (0 <= i)%Z -> child_removed M_dec f m x i = (f1, tr, None) -> length (fl_items f) <= length L ->
    exists L1, child_removed M_dec (with_items f L) m x i = (with_items f1 L1, tr, None) /\
      length L1 + length (fl_items f) = length L + length (fl_items f1).
  Proof.
    unfold child_removed. intros Hi E H. cbn [with_items fl_children fl_master fl_items fl_cont fl_kids fl_listen].
    destruct (py_del (fl_children f m) i) as [l|e]; [|discriminate].
    destruct (py_del (fl_items f) _) as [it|e] eqn:Ed; [|discriminate]. injection E as <- <-.
    assert (Hk : (0 <= Z.of_nat (fl_offset M_dec (fl_children f) m (fl_master f)) + i)%Z) by lia.
    destruct (py_del_more _ _ L _ Hk Ed H) as (L1 & E1 & E2). rewrite E1. eexists. split; [reflexivity|]. exact E2.
  Qed.
  Lemma lift_ch_insert m xs : forall idx (f f1 : flstate) tr L,
    ch_insert_loop M_dec m xs idx f = (f1, tr) ->
    exists L1, ch_insert_loop M_dec m xs idx (with_items f L) = (with_items f1 L1, tr) /\
      length L1 + length (fl_items f) = length L + length (fl_items f1).
  Proof.
    induction xs as [|x xs IH]; intros idx f f1 tr L; cbn [ch_insert_loop].
    - intros [= <- <-]. exists L. split; [reflexivity|lia].
    - intros E. destruct (child_inserted M_dec f m x (Z.of_nat idx)) as [fa ta] eqn:Ea.
      destruct (ch_insert_loop M_dec m xs (S idx) fa) as [fb tb] eqn:Eb. injection E as <- <-.
      destruct (lift_child_inserted _ _ _ _ _ _ L Ea) as (La & -> & Ha).
      destruct (IH _ _ _ _ La Eb) as (Lb & -> & Hb). exists Lb. split; [reflexivity|lia].
  Qed.
  Lemma lift_ch_remove m xs : forall (f f1 : flstate) tr L,
    ch_remove_loop M_dec m xs f = (f1, tr, None) -> length (fl_items f) <= length L ->
    exists L1, ch_remove_loop M_dec m xs (with_items f L) = (with_items f1 L1, tr, None) /\
      length L1 + length (fl_items f) = length L + length (fl_items f1).
  Proof.
    induction xs as [|x xs IH]; intros f f1 tr L; cbn [ch_remove_loop].
    - intros [= <- <-] H. exists L. split; [reflexivity|lia].
    - intros E H. destruct (child_removed M_dec f m x (Z.of_nat (length xs))) as [[fa ta] ea] eqn:Ea.
      destruct ea as [ea|]; [discriminate|].
      destruct (ch_remove_loop M_dec m xs fa) as [[fb tb] eb] eqn:Eb. injection E as <- <- ->.
      destruct (lift_child_removed _ _ _ _ _ _ L (Zle_0_nat _) Ea H) as (La & -> & Ha).
      destruct (IH _ _ _ La Eb ltac:(lia)) as (Lb & -> & Hb). exists Lb. split; [reflexivity|lia].
  Qed.
  Lemma lift_master_inserted (f f1 : flstate) m i tr L :
    master_inserted M_dec f m i = (f1, tr, None) ->
    exists L1, master_inserted M_dec (with_items f L) m i = (with_items f1 L1, tr, None) /\
      length L1 + length (fl_items f) = length L + length (fl_items f1).
  Proof.
    unfold master_inserted. cbn [with_items fl_children fl_master fl_items fl_cont fl_kids fl_listen].
    destruct (fl_in M_dec m (fl_master f)); [discriminate|]. intros E.
    set (fa := Fl _ _ _ _ (fl_items f) _) in E.
    destruct (ch_insert_loop M_dec m (fl_kids f m) 0 fa) as [fb tb] eqn:Eb. injection E as <- <-.
    destruct (lift_ch_insert _ _ _ _ _ _ L Eb) as (Lb & Eq & Hb).
    change (Fl (fl_cont f) (fl_kids f) (py_insert i m (fl_master f)) (fl_children f) L (m :: fl_listen f)) with (with_items fa L).
    rewrite Eq. exists Lb. split; [reflexivity|]. exact Hb.
  Qed.
  Lemma lift_master_removed (f f1 : flstate) m i tr L :
    master_removed M_dec f m i = (f1, tr, None) -> length (fl_items f) <= length L ->
    exists L1, master_removed M_dec (with_items f L) m i = (with_items f1 L1, tr, None) /\
      length L1 + length (fl_items f) = length L + length (fl_items f1).
  Proof.
    unfold master_removed. intros E H. cbn [with_items fl_kids].
    change (Fl (fl_cont f) (fl_kids f) (fl_master f) (fl_children f) L (fl_listen f)) with (with_items f L).
    destruct (ch_remove_loop M_dec m (rev (fl_kids f m)) f) as [[fa ta] ea] eqn:Ea. destruct ea as [ea|]; [discriminate|].
    destruct (lift_ch_remove _ _ _ _ _ L Ea H) as (La & -> & Ha).
    cbn [with_items fl_children fl_master fl_items fl_cont fl_kids fl_listen].
    destruct (py_del (fl_master fa) i) as [ms|]; [|discriminate]. cbv zeta in E |- *.
    destruct (fl_in M_dec m (fl_listen fa)); [|discriminate].
    injection E as <- <- Ee. rewrite Ee. exists La. split; [reflexivity|]. exact Ha.
  Qed.
  Lemma lift_remove_loop ms : forall (f f1 : flstate) tr L,
    fl_remove_loop M_dec ms f = (f1, tr, None) -> length (fl_items f) <= length L ->
    exists L1, fl_remove_loop M_dec ms (with_items f L) = (with_items f1 L1, tr, None) /\
      length L1 + length (fl_items f) = length L + length (fl_items f1).
  Proof.
    induction ms as [|m ms IH]; intros f f1 tr L; cbn [fl_remove_loop].
    - intros [= <- <-] H. exists L. split; [reflexivity|lia].
    - intros E H. change (fl_master (with_items f L)) with (fl_master f).
      destruct (master_removed M_dec f m _) as [[fa ta] ea] eqn:Ea. destruct ea as [ea|]; [discriminate|].
      destruct (fl_remove_loop M_dec ms fa) as [[fb tb] eb] eqn:Eb. injection E as <- <- ->.
      destruct (lift_master_removed _ _ _ _ _ L Ea H) as (La & -> & Ha).
      destruct (IH _ _ _ La Eb ltac:(lia)) as (Lb & -> & Hb). exists Lb. split; [reflexivity|lia].
  Qed.
  Lemma lift_insert_loop ms : forall idx (f f1 : flstate) tr L,
    fl_insert_loop M_dec ms idx f = (f1, tr, None) ->
    exists L1, fl_insert_loop M_dec ms idx (with_items f L) = (with_items f1 L1, tr, None) /\
      length L1 + length (fl_items f) = length L + length (fl_items f1).
  Proof.
    induction ms as [|m ms IH]; intros idx f f1 tr L; cbn [fl_insert_loop].
    - intros [= <- <-]. exists L. split; [reflexivity|lia].
    - intros E. destruct (master_inserted M_dec f m (Z.of_nat idx)) as [[fa ta] ea] eqn:Ea. destruct ea as [ea|]; [discriminate|].
      destruct (fl_insert_loop M_dec ms (S idx) fa) as [[fb tb] eb] eqn:Eb. injection E as <- <- ->.
      destruct (lift_master_inserted _ _ _ _ _ L Ea) as (La & -> & Ha).
      destruct (IH _ _ _ _ La Eb) as (Lb & -> & Hb). exists Lb. split; [reflexivity|lia].
  Qed.

  Lemma lift_step (f f1 : flstate) o tr e L :
    fl_step M_dec f o = (f1, tr, e) -> fl_inv f -> fl_proper f o -> length (fl_items f) <= length L ->
    exists L1, fl_step M_dec (with_items f L) o = (with_items f1 L1, tr, e) /\
      length L1 + length (fl_items f) = length L + length (fl_items f1).
  Proof.
    intros E Hinv Ho H. pose proof Hinv as (Hok & Sy & Hma).
    assert (Same : exists L1, with_items f L = with_items f L1 /\ length L1 + length (fl_items f) = length L + length (fl_items f)).
    { exists L. split; [reflexivity|lia]. }
    destruct o as [i m|i|m i x|m i|c]; cbn [fl_step fl_proper] in *;
      cbn [with_items fl_children fl_master fl_items fl_cont fl_kids fl_listen].
    - unfold masters in *. destruct (fl_cont f) as [l|] eqn:Ec.
      + assert (e = None).
        { apply master_inserted_lemma in E; [apply E|destruct Hok; split; assumption|exact Sy|simpl; rewrite Hma; exact Ho]. }
        subst e. destruct (lift_master_inserted _ _ _ _ _ L E) as (L1 & E1 & H1). exists L1. split; [exact E1|exact H1].
      + injection E as <- <- <-. exists L. split; [unfold with_items; rewrite Ec; reflexivity|lia].
    - unfold masters in *. destruct (fl_cont f) as [l|] eqn:Ec.
      2:{ injection E as <- <- <-. exists L. split; [unfold with_items; rewrite Ec; reflexivity|lia]. }
      destruct (py_get l i) as [m|] eqn:Eg.
      2:{ injection E as <- <- <-. exists L. split; [unfold with_items; rewrite Ec; reflexivity|lia]. }
      destruct (py_del l i) as [l'|] eqn:Ed.
      2:{ injection E as <- <- <-. exists L. split; [unfold with_items; rewrite Ec; reflexivity|lia]. }
      assert (Hs : exists l1 l2, l = l1 ++ m :: l2 /\ l' = l1 ++ l2).
      { unfold py_get in Eg. unfold py_del in Ed. destruct (py_index (length l) i) as [k|]; [|discriminate].
        destruct (nth_error l k) as [m'|] eqn:En; [|discriminate]. injection Eg as ->.
        apply nth_error_split in En as (l1 & l2 & -> & <-). rewrite delete_at_app in Ed. injection Ed as <-. eauto. }
      destruct Hs as (l1 & l2 & El & ->).
      assert (e = None).
      { apply (master_removed_lemma _ _ _ _ l1 l2) in E; [apply E|destruct Hok; split; assumption|exact Sy|simpl; rewrite Hma; exact El|simpl; rewrite Hma; exact Ed]. }
      subst e. destruct (lift_master_removed _ _ _ _ _ L E H) as (L1 & E1 & H1). exists L1. split; [exact E1|exact H1].
    - destruct (fl_in M_dec m (fl_listen f)) eqn:Ein.
      + destruct (child_inserted M_dec (with_kids f _) m x i) as [fa ta] eqn:Ea. injection E as <- <- <-.
        destruct (lift_child_inserted _ _ _ _ _ _ L Ea) as (L1 & E1 & H1).
        unfold with_kids, with_items in *. cbn [fl_children fl_master fl_items fl_cont fl_kids fl_listen] in *.
        rewrite E1. exists L1. split; [reflexivity|exact H1].
      + injection E as <- <- <-. exists L. split; [reflexivity|cbn; lia].
    - destruct (py_get (fl_kids f m) i) as [x|] eqn:Eg; [|injection E as <- <- <-; exists L; split; [reflexivity|lia]].
      destruct (py_del (fl_kids f m) i) as [l'|] eqn:Ed; [|injection E as <- <- <-; exists L; split; [reflexivity|lia]].
      destruct (fl_in M_dec m (fl_listen f)) eqn:Ein; [|injection E as <- <- <-; exists L; split; [reflexivity|cbn; lia]].
      assert (e = None).
      { set (s1 := with_kids f _) in E. assert (Ok1 : fl_ok s1) by (apply with_kids_ok; exact Hok).
        assert (Hs : exists l1 l2, fl_kids f m = l1 ++ x :: l2 /\ i = Z.of_nat (length l1)).
        { unfold py_get in Eg. unfold py_del in Ed. destruct (py_index (length (fl_kids f m)) i) as [k|] eqn:Ek; [|discriminate].
          assert (k = Z.to_nat i). { unfold py_index in Ek. repeat (match type of Ek with context [if ?b then _ else _] => destruct b eqn:? end; try discriminate). all: injection Ek; lia. }
          destruct (nth_error (fl_kids f m) k) as [m'|] eqn:En; [|discriminate]. injection Eg as ->.
          apply nth_error_split in En as (l1 & l2 & El & Hk). exists l1, l2. split; [exact El|lia]. }
        destruct Hs as (c1 & c2 & Ek & ->). apply fl_in_spec in Ein. apply (ok_listen f Hok) in Ein.
        destruct (child_removed_lemma _ _ _ _ _ c2 _ _ _ E Ok1 Ein) as (p & q & _ & _ & _ & _ & _ & _ & _ & He & _); [|exact He].
        simpl. rewrite (Sy m Ein). exact Ek. }
      subst e. destruct (lift_child_removed _ _ _ _ _ _ L Ho E H) as (L1 & E1 & H1).
      unfold with_kids, with_items in *. cbn [fl_children fl_master fl_items fl_cont fl_kids fl_listen] in *.
      exists L1. split; [exact E1|exact H1].
    - unfold fl_set_container in *.
      cbn [with_items fl_children fl_master fl_items fl_cont fl_kids fl_listen].
      change (Fl (fl_cont f) (fl_kids f) (fl_master f) (fl_children f) L (fl_listen f)) with (with_items f L).
      assert (P1 : exists s1 t1 L1,
        (match fl_cont f with None => (f, [], None) | Some old => fl_remove_loop M_dec (rev old) f end) = (s1, t1, None) /\
        (match fl_cont f with None => (with_items f L, [], None) | Some old => fl_remove_loop M_dec (rev old) (with_items f L) end) = (with_items s1 L1, t1, None) /\
        length L1 + length (fl_items f) = length L + length (fl_items s1) /\
        fl_ok s1 /\ fl_synced s1 /\ fl_master s1 = []).
      { unfold masters in Hma. destruct (fl_cont f) as [old|] eqn:Ec.
        - destruct (fl_remove_loop M_dec (rev old) f) as [[s1 t1] e1] eqn:E1.
          destruct (fl_remove_loop_lemma _ _ _ _ _ _ E1 Hok Sy) as (-> & Ok1 & Sy1 & _ & M1 & Ob1); [rewrite rev_involutive; exact Hma|].
          destruct (lift_remove_loop _ _ _ _ L E1 H) as (L1 & E2 & H2).
          exists s1, t1, L1. split; [first [exact E1|reflexivity]|]. split; [exact E2|]. auto.
        - exists f, [], L. repeat split; auto; try apply Hok. }
      destruct P1 as (s1 & t1 & L1 & Eq1 & Eq2 & Hl & Ok1 & Sy1 & M1). rewrite Eq1 in E. rewrite Eq2.
      destruct c as [l|].
      + destruct (fl_insert_loop M_dec l 0 (with_fl_cont s1 (Some l))) as [[s3 t3] e3] eqn:E3. injection E as <- <- <-.
        assert (e3 = None).
        { apply fl_insert_loop_lemma in E3; [apply E3|destruct Ok1; split; assumption|exact Sy1|simpl; rewrite M1; reflexivity|simpl; rewrite M1; exact Ho]. }
        subst e3. destruct (lift_insert_loop _ _ _ _ _ L1 E3) as (L3 & E4 & H4).
        change (with_fl_cont (with_items s1 L1) (Some l)) with (with_items (with_fl_cont s1 (Some l)) L1).
        rewrite E4. exists L3. split; [reflexivity|]. cbn in H4. lia.
      + injection E as <- <- <-. exists L1. split; [reflexivity|]. exact Hl.
  Qed.
End P.
