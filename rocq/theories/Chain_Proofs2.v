(** A downstream list keeps its invariants under the notifications of its container. *)
From Coq Require Import List ZArith Bool Arith Permutation Sorted Lia.
From Verif Require Import PyBase Filtered_Model Filtered_Spec Filtered_Proofs Filtered_Proofs2 Filtered_Proofs3 Chain_Model Chain_Spec Chain_Proofs.
Import ListNotations.

Section P.
  Context {A C K : Type} (A_dec : forall a b : A, {a = b} + {a <> b}) (lt : K -> K -> bool).
  Notation fstate := (fstate A C K).
  Notation inb := (inb A_dec).
  Notation inv := (inv (A := A) (C := C) (K := K)).
  Notation uns := (uns (A := A) (C := C) (K := K)).
  Notation sor := (sor (A := A) (C := C) lt).
  Notation deliver := (deliver A_dec lt).
  Notation deliver1 := (deliver1 A_dec lt).

  Definition sets (s s' : fstate) : Prop :=
    fs_filter s' = fs_filter s /\ fs_key s' = fs_key s /\ fs_rev s' = fs_rev s /\ fs_level s' = fs_level s /\ fs_content s' = fs_content s.
  Lemma sets_refl s : sets s s.
  Proof. repeat split. Qed.
  Lemma sets_trans s1 s2 s3 : sets s1 s2 -> sets s2 s3 -> sets s1 s3.
  Proof. unfold sets. intuition congruence. Qed.
  Lemma frame_sets (s s' : fstate) : frame s s' -> sets s s'.
  Proof. unfold frame, sets. tauto. Qed.

  Lemma deliver_app (s : fstate) t1 t2 :
    deliver s (t1 ++ t2) = let '(s1, u1) := deliver s t1 in let '(s2, u2) := deliver s1 t2 in (s2, u1 ++ u2).
  Proof.
    revert s. induction t1 as [|e t1 IH]; intros s; simpl; [destruct (deliver s t2); reflexivity|].
    destruct (deliver1 s e) as [s1 u1]. rewrite IH. destruct (deliver s1 t1) as [s2 u2].
    destruct (deliver s2 t2) as [s3 u3]. rewrite app_assoc. reflexivity.
  Qed.

  (** what is kept: [good s s'] *)
  Definition kept (s s' : fstate) : Prop :=
    inv s' /\ sets s s' /\ (uns s -> uns s') /\ (strict_weak_order lt -> sor s -> sor s').
  Lemma kept_trans s1 s2 s3 : kept s1 s2 -> kept s2 s3 -> kept s1 s3.
  Proof. intros (_ & A2 & A3 & A4) (B1 & B2 & B3 & B4). split; [exact B1|]. split; [eapply sets_trans; eassumption|]. auto. Qed.
  Lemma kept_refl s : inv s -> kept s s.
  Proof. intros H. split; [exact H|]. split; [apply sets_refl|]. auto. Qed.

  Lemma inv_conn (s : fstate) l : inv s -> fs_cont s = Some l -> fs_conn s = true /\ fs_master s = l.
  Proof. intros [_ H] E. unfold link in H. rewrite E in H. exact H. Qed.

  Lemma deliver_quiet (s : fstate) e l s' t :
    deliver1 s e = (s', t) -> quiet e = true -> inv s -> fs_cont s = Some l -> kept s s' /\ fs_cont s' = Some l.
  Proof.
    unfold deliver1, Chain_Model.deliver1. intros E Hq H Ec. destruct (inv_conn _ _ H Ec) as [Hc Hm]. rewrite Ec, Hc in E.
    destruct e; cbn in Hq; try discriminate; cbn [f_step fst] in E; injection E as <- <-; try (split; [apply kept_refl; exact H|exact Ec]).
    split; [|exact Ec]. destruct H as [H Hl]. split; [split; [exact H|exact Hl]|]. split; [repeat split|]. split; [auto|].
    intros _ Hs k Hk [Ho|Ho]; [apply Hs; [exact Hk|left; exact Ho]|discriminate].
  Qed.

  Lemma deliver_ins (s : fstate) x k l s' t :
    deliver1 s (FIns x k) = (s', t) -> inv s -> fs_cont s = Some l -> ~ In x l -> kept s s' /\ fs_cont s' = Some (insert_at k x l).
  Proof.
    unfold deliver1, Chain_Model.deliver1. intros E H Ec Hx. destruct (inv_conn _ _ H Ec) as [Hc Hm]. rewrite Ec in E.
    cbn [f_step] in E. rewrite Ec, Hc in E.
    destruct (item_inserted A_dec lt (with_cont s (Some (py_insert (Z.of_nat k) x l)) true) x (Z.of_nat k)) as [[s1 t1] e1] eqn:E1.
    injection E as <- <-. destruct H as [H Hl].
    destruct (item_inserted_inv A_dec lt _ _ _ _ _ _ E1) as (-> & H1 & Hm1 & F1 & U1 & S1 & I1); [exact H|cbn; rewrite Hm; exact Hx|].
    destruct F1 as (Fc & Fn & Fso & Ff & Fk & Fr & Fl & Fw). cbn in *. rewrite py_insert_nat in *.
    split; [|exact Fc]. split; [split; [exact H1|unfold link; rewrite Fc, Hm1, Hm; auto]|].
    split; [repeat split; assumption|]. auto.
  Qed.

  Lemma deliver_rem (s : fstate) x l1 l2 s' t :
    deliver1 s (FRem x (length l1)) = (s', t) -> inv s -> fs_cont s = Some (l1 ++ x :: l2) ->
    kept s s' /\ fs_cont s' = Some (l1 ++ l2).
  Proof.
    unfold deliver1, Chain_Model.deliver1. intros E H Ec. destruct (inv_conn _ _ H Ec) as [Hc Hm]. rewrite Ec, Hc in E.
    rewrite delete_at_app in E. destruct H as [H Hl].
    destruct (item_removed A_dec (with_cont s (Some (l1 ++ l2)) true) x (Z.of_nat (length l1))) as [[s1 t1] e1] eqn:E1.
    injection E as <- <-.
    destruct (item_removed_inv A_dec lt _ _ _ l1 l2 _ _ _ E1) as (-> & H1 & Hm1 & F1 & U1 & S1 & I1); [exact H|exact Hm| |].
    { cbn. rewrite Hm. apply py_index_nat. rewrite app_length. simpl. lia. }
    destruct F1 as (Fc & Fn & Fso & Ff & Fk & Fr & Fl & Fw). cbn in *.
    split; [|exact Fc]. split; [split; [exact H1|unfold link; rewrite Fc, Hm1; auto]|].
    split; [repeat split; assumption|]. auto.
  Qed.

  (** removals in the order of the list, each at the last index *)
  Lemma deliver_pop xs : forall (s : fstate) m s' t,
    deliver s (pop_loop xs m) = (s', t) -> length xs = length m -> fs_conn s = true -> fs_cont s = Some m -> fs_master s = m ->
    NoDup xs -> (forall y, In y (fs_listen s) <-> In y xs) -> NoDup (fs_items s) ->
    ((fs_level s <= 0)%Z -> forall y, In y (fs_items s) -> In y xs) ->
    sets s s' /\ fs_conn s' = true /\ fs_cont s' = Some [] /\ fs_master s' = [] /\ (forall y, ~ In y (fs_listen s')) /\
    NoDup (fs_items s') /\ ((fs_level s <= 0)%Z -> fs_items s' = []) /\ ((0 < fs_level s)%Z -> fs_items s' = fs_items s) /\ fs_sorted s' = fs_sorted s.
  Proof.
    induction xs as [|x xs IH]; intros s m s' t E Hlen Hc Ec Hm Hnd Hl Hi Hsub.
    - destruct m; [|discriminate]. cbn in E. injection E as <- <-. split; [apply sets_refl|]. do 3 (split; [assumption|]).
      split; [intros y Hy; apply Hl in Hy; exact Hy|]. split; [exact Hi|]. split; [|split; reflexivity].
      intros Hlev. specialize (Hsub Hlev). destruct (fs_items s) as [|a l]; [reflexivity|]. destruct (Hsub a (or_introl eq_refl)).
    - assert (Hne : m <> []) by (destruct m; [discriminate|congruence]).
      destruct (exists_last Hne) as (m' & y & Em). rewrite Em in E, Hlen, Ec, Hm. clear m Hne Em.
      assert (Hlen' : length xs = length m') by (rewrite app_length in Hlen; simpl in Hlen; lia).
      cbn [pop_loop] in E. rewrite removelast_last in E. cbn [Chain_Model.deliver] in E.
      destruct (deliver1 s (FRem x (length m'))) as [s1 t1] eqn:E1.
      destruct (deliver s1 (pop_loop xs m')) as [s2 t2] eqn:E2. injection E as <- <-.
      unfold deliver1, Chain_Model.deliver1 in E1. rewrite Ec, Hc, delete_at_app, app_nil_r in E1.
      unfold item_removed in E1. cbn [fs_master with_cont fs_listen] in E1. rewrite Hm in E1.
      unfold py_del in E1. rewrite (py_index_nat (length (m' ++ [y])) (length m')) in E1 by (rewrite app_length; simpl; lia).
      rewrite delete_at_app, app_nil_r in E1.
      rewrite (proj2 (inb_spec A_dec x (fs_listen s))) in E1 by (apply Hl; left; reflexivity).
      apply NoDup_cons_iff in Hnd as [Hx Hnd'].
      set (s0 := with_master (with_cont s (Some m') true) m' (remove A_dec x (fs_listen s))) in *.
      destruct (removed_master A_dec s0 x) as [s3 t3] eqn:E3. cbn [fst] in E1. injection E1 as <- <-.
      assert (Hl0 : forall z, In z (remove A_dec x (fs_listen s)) <-> In z xs).
      { intros z. split.
        - intros Hz. apply in_remove in Hz as [Hz Hzx]. apply Hl in Hz as [Hz|Hz]; [congruence|exact Hz].
        - intros Hz. apply in_in_remove; [intros ->; contradiction|]. apply Hl. right. exact Hz. }
      assert (G : sets s s3 /\ fs_conn s3 = true /\ fs_cont s3 = Some m' /\ fs_master s3 = m' /\
                  fs_listen s3 = remove A_dec x (fs_listen s) /\ NoDup (fs_items s3) /\ fs_sorted s3 = fs_sorted s /\
                  ((fs_level s <= 0)%Z -> forall z, In z (fs_items s3) -> In z xs) /\ ((0 < fs_level s)%Z -> fs_items s3 = fs_items s)).
      { destruct (removed_master_cases A_dec _ _ _ _ E3) as [[-> Hcase]|(i1 & i2 & Ei & Hni & -> & Hlev)]; cbn [fs_items fs_level s0 with_items with_master with_cont] in *.
        - split; [repeat split|]. do 4 (split; [reflexivity|]). split; [exact Hi|]. split; [reflexivity|]. split; [|reflexivity].
          intros Hlev z Hz. destruct Hcase as [Hcase|Hcase]; [lia|]. destruct (Hsub Hlev z Hz) as [->|Hz']; [contradiction|exact Hz'].
        - split; [repeat split|]. do 4 (split; [reflexivity|]). rewrite Ei in Hi. apply nodup_app_parts in Hi as (H1 & H2 & H3 & H4).
          split; [exact H3|]. split; [reflexivity|]. split; [|intros; lia].
          intros _ z Hz. assert (Hz' : In z (fs_items s)) by (rewrite Ei; apply in_app_iff in Hz; apply in_app_iff; simpl; tauto).
          destruct (Hsub Hlev z Hz') as [->|Hr]; [contradiction|exact Hr]. }
      destruct G as (G1 & G2 & G3 & G4 & G5 & G6 & G7 & G8 & G9).
      assert (Hlv : fs_level s3 = fs_level s) by apply G1.
      destruct (IH _ _ _ _ E2) as (R1 & R2 & R3 & R4 & R5 & R6 & R7 & R8 & R9); auto.
      { intros z. rewrite G5. apply Hl0. }
      { rewrite Hlv. exact G8. }
      rewrite Hlv in *. split; [eapply sets_trans; eassumption|]. do 4 (split; [assumption|]). split; [exact R6|].
      split; [exact R7|]. split; [intros Hp; rewrite R8, G9 by exact Hp; reflexivity|congruence].
  Qed.

  Lemma deliver_pop_kept (s : fstate) l s' t :
    deliver s (pop_loop l l) = (s', t) -> inv s -> fs_cont s = Some l -> kept s s' /\ fs_cont s' = Some [].
  Proof.
    intros E H Ec. destruct (inv_conn _ _ H Ec) as [Hc Hm]. destruct H as [[(Hnd & Hl & Hi) Hp] _]. rewrite Hm in *.
    destruct (deliver_pop l s l s' t E) as (R1 & R2 & R3 & R4 & R5 & R6 & R7 & R8 & R9); auto.
    { intros Hlev y Hy. specialize (Hp Hlev). rewrite Hp in Hy. apply filter_In in Hy. tauto. }
    assert (Hlv : fs_level s' = fs_level s) by apply R1.
    split; [|exact R3]. split; [split; [split; [split; [rewrite R4; constructor|split; [|exact R6]]|]|]|].
    - intros y. rewrite R4. split; [intros Hy; destruct (R5 y Hy)|intros []].
    - intros Hlev. rewrite R4, R7 by lia. constructor.
    - unfold link. rewrite R3. auto.
    - split; [exact R1|]. split.
      + intros _ Hlev _. rewrite R4, R7 by lia. reflexivity.
      + intros _ Hs k Hk Ho. destruct (Z_le_gt_dec (fs_level s) 0) as [Hle|Hgt].
        * rewrite R7 by exact Hle. constructor.
        * rewrite R8 by lia. destruct R1 as (Ef & Ek & Er & El & Ew). rewrite Er, Ew. apply Hs; [congruence|].
          right. destruct Ho as [Ho|Ho]; [lia|congruence].
  Qed.

  Lemma deliver_feeds l tr l' : feeds l tr l' -> forall (s : fstate) s' t,
    deliver s tr = (s', t) -> inv s -> fs_cont s = Some l -> kept s s' /\ fs_cont s' = Some l'.
  Proof.
    induction 1 as [l|l e tr l' Hq _ IH|l x k tr l' Hx _ IH|l l1 x l2 tr l' -> _ IH|l tr l' _ IH]; intros s s' t E H Ec.
    - injection E as <- <-. split; [apply kept_refl; exact H|exact Ec].
    - cbn in E. destruct (deliver1 s e) as [s1 t1] eqn:E1. destruct (deliver s1 tr) as [s2 t2] eqn:E2. injection E as <- <-.
      destruct (deliver_quiet _ _ _ _ _ E1 Hq H Ec) as [K1 C1]. destruct (IH _ _ _ E2 (proj1 K1) C1) as [K2 C2].
      split; [eapply kept_trans; eassumption|exact C2].
    - cbn in E. destruct (deliver1 s (FIns x k)) as [s1 t1] eqn:E1. destruct (deliver s1 tr) as [s2 t2] eqn:E2. injection E as <- <-.
      destruct (deliver_ins _ _ _ _ _ _ E1 H Ec Hx) as [K1 C1]. destruct (IH _ _ _ E2 (proj1 K1) C1) as [K2 C2].
      split; [eapply kept_trans; eassumption|exact C2].
    - cbn in E. destruct (deliver1 s (FRem x (length l1))) as [s1 t1] eqn:E1. destruct (deliver s1 tr) as [s2 t2] eqn:E2. injection E as <- <-.
      destruct (deliver_rem _ _ _ _ _ _ E1 H Ec) as [K1 C1]. destruct (IH _ _ _ E2 (proj1 K1) C1) as [K2 C2].
      split; [eapply kept_trans; eassumption|exact C2].
    - rewrite deliver_app in E. destruct (deliver s (pop_loop l l)) as [s1 t1] eqn:E1. destruct (deliver s1 tr) as [s2 t2] eqn:E2. injection E as <- <-.
      destruct (deliver_pop_kept _ _ _ _ E1 H Ec) as [K1 C1]. destruct (IH _ _ _ E2 (proj1 K1) C1) as [K2 C2].
      split; [eapply kept_trans; eassumption|exact C2].
  Qed.

  Lemma deliver_none (s : fstate) tr : fs_cont s = None -> deliver s tr = (s, []).
  Proof.
    intros H. induction tr as [|e tr IH]; [reflexivity|]. cbn. unfold Chain_Model.deliver1. rewrite H, IH. reflexivity.
  Qed.
End P.
