(** What the operations do to the objects. *)
From Coq Require Import Arith Bool List Lia Permutation.
From Verif Require Import PyBase Recorder_Model Recorder_Spec Recorder_Proofs.
Import ListNotations.

Lemma NoDup_app_remove_l {X} (l l' : list X) : NoDup (l ++ l') -> NoDup l'.
Proof. induction l as [|x l IH]; [auto|]. intros H. inversion H; auto. Qed.
Lemma NoDup_app_remove_r {X} (l l' : list X) : NoDup (l ++ l') -> NoDup l.
Proof. intros H. apply (NoDup_app_remove_l l' l). rewrite (Permutation_app_comm l' l). exact H. Qed.

Section Worlds.
  Context {V : Type} (item : nat -> bool).
  Notation obj := (@obj V).
  Notation world := (@world V).
  Implicit Types (o x c : obj) (w : world) (a : @op V).

  Lemma ids_labels o : ids o = map fst (labels o).
  Proof. unfold ids, labels. rewrite map_map. reflexivity. Qed.
  Lemma all_ids_app w1 w2 : all_ids (w1 ++ w2) = all_ids w1 ++ all_ids w2.
  Proof. unfold all_ids, all_nodes. rewrite flat_map_app, map_app. reflexivity. Qed.
  Lemma all_ids_cons o w : all_ids (o :: w) = ids o ++ all_ids w.
  Proof. unfold all_ids, all_nodes. cbn [flat_map]. rewrite map_app. reflexivity. Qed.
  Lemma all_ids_perm w w' : Permutation w w' -> Permutation (all_ids w) (all_ids w').
  Proof. intros H. unfold all_ids, all_nodes. apply Permutation_map, Permutation_flat_map, H. Qed.
  Lemma in_all_nodes o w : In o (all_nodes w) <-> exists r, In r w /\ In o (nodes r).
  Proof. apply in_flat_map. Qed.
  Lemma ids_in_all o w : In o (all_nodes w) -> In (id_of o) (all_ids w).
  Proof. intros H. unfold all_ids. apply in_map, H. Qed.
  Lemma ids_sub o x i : In x (nodes o) -> In i (ids x) -> In i (ids o).
  Proof.
    unfold ids. intros Hx Hi. apply in_map_iff in Hi. destruct Hi as (y & <- & Hy). apply in_map. exact (nodes_trans o x y Hx Hy).
  Qed.
  Lemma ids_all o w i : In o (all_nodes w) -> In i (ids o) -> In i (all_ids w).
  Proof.
    intros Ho Hi. apply in_all_nodes in Ho. destruct Ho as (r & Hr & Ho). pose proof (ids_sub r o i Ho Hi) as H.
    unfold ids in H. apply in_map_iff in H. destruct H as (y & <- & Hy). apply ids_in_all, in_all_nodes. eauto.
  Qed.

  Lemma lookup_some i w o : lookup i w = Some o -> In o (all_nodes w) /\ id_of o = i.
  Proof. unfold lookup. intros H. apply find_some in H. destruct H as [H1 H2]. apply Nat.eqb_eq in H2. auto. Qed.
  Lemma nodup_inj {X Y} (f : X -> Y) (l : list X) (x y : X) : NoDup (map f l) -> In x l -> In y l -> f x = f y -> x = y.
  Proof.
    induction l as [|z l IH]; [intros _ []|]. cbn [map]. intros Hn Hx Hy E. inversion Hn as [|? ? H1 H2]; subst.
    destruct Hx as [->|Hx], Hy as [->|Hy]; auto.
    - exfalso. apply H1. rewrite E. apply in_map, Hy.
    - exfalso. apply H1. rewrite <- E. apply in_map, Hx.
  Qed.
  Lemma lookup_in w o : NoDup (all_ids w) -> In o (all_nodes w) -> lookup (id_of o) w = Some o.
  Proof.
    intros Hn Ho. unfold lookup. destruct (find (fun x => id_of x =? id_of o) (all_nodes w)) as [y|] eqn:E.
    - apply find_some in E. destruct E as [E1 E2]. apply Nat.eqb_eq in E2. f_equal. exact (nodup_inj (@id_of V) _ y o Hn E1 Ho E2).
    - pose proof (find_none _ _ E o Ho) as H. cbv beta in H. rewrite Nat.eqb_refl in H. discriminate.
  Qed.
  Lemma lookup_none i w : lookup i w = None -> ~ In i (all_ids w).
  Proof.
    unfold lookup, all_ids. intros H Hi. apply in_map_iff in Hi. destruct Hi as (y & <- & Hy).
    pose proof (find_none _ _ H y Hy) as E. cbv beta in E. rewrite Nat.eqb_refl in E. discriminate.
  Qed.

  Lemma hits_count i o : hits (is_id i) o = count_occ Nat.eq_dec (ids o) i.
  Proof.
    rewrite ids_labels. unfold hits. induction (labels o) as [|[j ps] l IH]; [reflexivity|]. cbn [filter map fst].
    unfold is_id at 1. cbn [fst]. destruct (Nat.eqb_spec j i) as [->|Hne].
    - rewrite count_occ_cons_eq by reflexivity. cbn [length]. rewrite IH. reflexivity.
    - rewrite count_occ_cons_neq by exact Hne. exact IH.
  Qed.
  Lemma hits_once i o : NoDup (ids o) -> hits (is_id i) o <= 1.
  Proof. intros H. rewrite hits_count. apply NoDup_count_occ. exact H. Qed.
  Lemma hits_absent i o : ~ In i (ids o) -> hits (is_id i) o = 0.
  Proof. intros H. rewrite hits_count. apply count_occ_not_In. exact H. Qed.
  Lemma upd_absent i f o : ~ In i (ids o) -> upd (is_id i) f o = o.
  Proof. intros H. apply upd_none. apply hits_none. apply hits_absent, H. Qed.
  Lemma nodup_root o w : NoDup (all_ids w) -> In o (all_nodes w) -> NoDup (ids o).
  Proof.
    intros Hn Ho. apply in_all_nodes in Ho. destruct Ho as (r & Hr & Ho). apply in_split in Hr. destruct Hr as (w1 & w2 & ->).
    rewrite all_ids_app, all_ids_cons in Hn. apply NoDup_app_remove_l in Hn. apply NoDup_app_remove_r in Hn.
    destruct (nodes_sub r o Ho) as (q & Hq). destruct (around q r o Hq) as (rest & Hr). specialize (Hr o). rewrite (put_same q r o Hq) in Hr.
    rewrite ids_labels in Hn. rewrite (Permutation_map fst Hr), map_app in Hn. apply NoDup_app_remove_r in Hn. rewrite ids_labels. exact Hn.
  Qed.
  Lemma place i w o :
    NoDup (all_ids w) -> lookup i w = Some o ->
    exists w1 r w2 q, w = w1 ++ r :: w2 /\ sub q r = Some o /\ forall f, map (upd (is_id i) f) w = w1 ++ put q (f o) r :: w2.
  Proof.
    intros Hn Hl. apply lookup_some in Hl. destruct Hl as [Ho Hi]. pose proof Ho as Ho'. apply in_all_nodes in Ho.
    destruct Ho as (r & Hr & Ho). destruct (nodes_sub r o Ho) as (q & Hq).
    apply in_split in Hr. destruct Hr as (w1 & w2 & ->). exists w1, r, w2, q. split; [reflexivity|]. split; [exact Hq|]. intros f.
    assert (In i (ids r)) as Hir by (apply (ids_sub r o i Ho); rewrite <- Hi; apply in_map, nodes_self).
    rewrite all_ids_app, all_ids_cons in Hn.
    assert (forall y, In y w1 \/ In y w2 -> ~ In i (ids y)) as Hout.
    { intros y Hy Hc. destruct Hy as [Hy|Hy]; apply in_split in Hy; destruct Hy as (u1 & u2 & ->).
      - rewrite all_ids_app, all_ids_cons, <- app_assoc in Hn. apply NoDup_app_remove_l in Hn. rewrite <- app_assoc in Hn.
        apply in_split in Hc. destruct Hc as (c1 & c2 & Ec). rewrite Ec, <- app_assoc in Hn. apply NoDup_app_remove_l in Hn.
        cbn [app] in Hn. inversion Hn as [|? ? Hx _]; subst. apply Hx. rewrite !in_app_iff. tauto.
      - apply NoDup_app_remove_l in Hn. apply in_split in Hir. destruct Hir as (c1 & c2 & Ec).
        rewrite Ec, <- app_assoc in Hn. apply NoDup_app_remove_l in Hn. cbn [app] in Hn. inversion Hn as [|? ? Hx _]; subst. apply Hx.
        rewrite all_ids_app, all_ids_cons, !in_app_iff. tauto. }
    rewrite map_app. cbn [map]. rewrite (upd_put (is_id i) f q r o); [| |exact Hq|unfold is_id; apply Nat.eqb_eq; exact Hi].
    - f_equal; [|f_equal]; rewrite <- map_id; apply map_ext_in; intros y Hy; apply upd_absent, Hout; auto.
    - apply hits_once. apply NoDup_app_remove_l in Hn. apply NoDup_app_remove_r in Hn. exact Hn.
  Qed.

  (** an item put in is taken from those with no parent *)
  Lemma taken_perm a w : NoDup (all_ids w) ->
    (match a with Insert _ _ _ _ | SetItem _ _ (Some _) => taken a w <> None | _ => True end) ->
    Permutation w (match taken a w with Some c => [c] | None => [] end ++ left_over a w).
  Proof.
    assert (forall c : nat, NoDup (all_ids w) -> find (is_root c) w <> None ->
      Permutation w (match find (is_root c) w with Some y => [y] | None => [] end ++ filter (fun o => negb (is_root c o)) w)) as H.
    { intros c. induction w as [|y w IH]; [intros _ H; elim H; reflexivity|]. intros Hn Hf. cbn [find filter] in *.
      rewrite all_ids_cons in Hn. unfold is_root in *. destruct (Nat.eqb_spec (id_of y) c) as [E|E]; cbn [negb app].
      - constructor. assert (filter (fun o => negb (id_of o =? c)) w = w) as ->; [|reflexivity].
        assert (forall z, In z w -> negb (id_of z =? c) = true) as Hz.
        { intros z Hz. apply negb_true_iff, Nat.eqb_neq. intros Ec. rewrite <- E in Ec.
          assert (In (id_of y) (ids y)) as Hy by (apply in_map, nodes_self).
          apply in_split in Hy. destruct Hy as (c1 & c2 & Ey). rewrite Ey, <- app_assoc in Hn. apply NoDup_app_remove_l in Hn. cbn [app] in Hn.
          inversion Hn as [|? ? Hx _]; subst. apply Hx. apply in_or_app. right. rewrite <- Ec. apply ids_in_all, in_all_nodes.
          exists z. split; [exact Hz|apply nodes_self]. }
        clear -Hz. induction w as [|z w IH]; [reflexivity|]. cbn [filter]. rewrite (Hz z (or_introl eq_refl)). f_equal. apply IH.
        intros y Hy. apply Hz. right. exact Hy.
      - apply NoDup_app_remove_l in Hn. rewrite <- Permutation_middle. constructor. apply IH; assumption. }
    destruct a as [i p v|i k n c|i k n|i k [c|]]; cbn [taken left_over]; intros Hn Ht; try reflexivity; apply H; assumption.
  Qed.

  Lemma labels_slot k o : nth_error (slots o) k <> None ->
    exists rest, Permutation (labels o) (flat_map labels (slot k o) ++ rest) /\
      forall l, Permutation (labels (set_slot k l o)) (flat_map labels l ++ rest).
  Proof.
    destruct o as [a ss]. cbn [slots]. destruct (nth_error ss k) as [l0|] eqn:E; [|intros H; elim H; reflexivity]. intros _.
    unfold slot. cbn [slots]. rewrite (nth_nth_error k ss [] l0 E). apply nth_error_split in E. destruct E as (s1 & s2 & -> & Hk).
    exists (a :: flat_map (flat_map labels) s1 ++ flat_map (flat_map labels) s2). split; [|intros l'; unfold set_slot; cbn [label slots]; rewrite (set_nth_split k _ _ s1 s2 Hk)];
      rewrite labels_eq, flat_map_split; (etransitivity; [|apply Permutation_middle]); constructor; apply Permutation_app_swap_app.
  Qed.
  Lemma insert_perm {X} n (x : X) (l : list X) : Permutation (insert_at n x l) (x :: l).
  Proof. unfold insert_at. rewrite <- Permutation_middle. constructor. rewrite firstn_skipn. reflexivity. Qed.
  Lemma delete_perm {X} n (x : X) (l : list X) : nth_error l n = Some x -> Permutation l (x :: delete_at n l).
  Proof.
    intros E. apply nth_error_split in E. destruct E as (l1 & l2 & -> & Hn). rewrite <- Hn, delete_at_app. symmetry. apply Permutation_middle.
  Qed.
  Lemma forest_labels w : all_ids w = map fst (flat_map labels w).
  Proof.
    induction w as [|o w IH]; [reflexivity|]. rewrite all_ids_cons, IH, ids_labels. cbn [flat_map]. rewrite map_app. reflexivity.
  Qed.
  Lemma act_ids a w o :
    possible item a w o = true ->
    Permutation (all_ids (dropped a o) ++ ids (act a (taken a w) o)) (all_ids (match taken a w with Some c => [c] | None => [] end) ++ ids o).
  Proof.
    rewrite !forest_labels, !ids_labels, <- !map_app. destruct a as [i p v|i k n c|i k n|i k c]; cbn [possible dropped act]; intros H.
    - cbn [taken flat_map app]. destruct o as [[j ps] ss]. unfold set_prop. cbn [slots id_of props_of label fst snd].
      rewrite !labels_eq. reflexivity.
    - apply andb_prop in H. destruct H as [H H3]. apply andb_prop in H. destruct H as [H1 _]. apply Nat.ltb_lt in H1.
      apply Permutation_map. destruct (taken _ w) as [x|]; [|discriminate].
      destruct (labels_slot k o) as (rest & P1 & P2); [apply nth_error_Some; exact H1|]. rewrite P2, P1. cbn [flat_map app].
      rewrite (Permutation_flat_map labels (insert_perm n x (slot k o))). cbn [flat_map]. rewrite app_nil_r, <- app_assoc. reflexivity.
    - apply andb_prop in H. destruct H as [H H3]. apply andb_prop in H. destruct H as [H1 _]. apply Nat.ltb_lt in H1, H3.
      apply Permutation_map. destruct (nth_error (slot k o) n) as [x|] eqn:E; [|apply nth_error_None in E; lia].
      destruct (labels_slot k o) as (rest & P1 & P2); [apply nth_error_Some; exact H1|]. rewrite P2, P1. cbn [taken flat_map app].
      rewrite (Permutation_flat_map labels (delete_perm n x (slot k o) E)). cbn [flat_map]. rewrite app_nil_r, <- app_assoc. reflexivity.
    - apply andb_prop in H. destruct H as [H H3]. apply andb_prop in H. destruct H as [H1 _]. apply Nat.ltb_lt in H1.
      apply Permutation_map. destruct (labels_slot k o) as (rest & P1 & P2); [apply nth_error_Some; exact H1|]. rewrite P2, P1.
      apply Permutation_app_swap_app.
  Qed.
  Lemma possible_taken a w o : possible item a w o = true ->
    match a with Insert _ _ _ _ | SetItem _ _ (Some _) => taken a w <> None | _ => True end.
  Proof.
    destruct a as [i p v|i k n c|i k n|i k [c|]]; cbn [possible]; auto; intros H; apply andb_prop in H; destruct H as [_ H];
      destruct (taken _ w); [discriminate|discriminate|discriminate|discriminate].
  Qed.
  Lemma change_cases w a w' : NoDup (all_ids w) -> change item w a = Some w' ->
    exists o, In o (all_nodes (left_over a w)) /\ id_of o = target a /\ lookup (target a) w = Some o /\ possible item a w o = true /\
      w' = dropped a o ++ map (upd (is_id (target a)) (act a (taken a w))) (left_over a w) /\ NoDup (all_ids (left_over a w)).
  Proof.
    intros Hn. unfold change. destruct (lookup (target a) (left_over a w)) as [o|] eqn:E; [|discriminate].
    destruct (possible item a w o) eqn:Ep; [|discriminate]. intros [= <-]. exists o. destruct (lookup_some _ _ _ E) as [H1 H2].
    pose proof (taken_perm a w Hn (possible_taken a w o Ep)) as P.
    assert (NoDup (all_ids (left_over a w))) as Hr.
    { rewrite (all_ids_perm _ _ P), all_ids_app in Hn. apply NoDup_app_remove_l in Hn. exact Hn. }
    repeat split; auto. rewrite <- H2. apply lookup_in; [exact Hn|]. unfold all_nodes. rewrite (Permutation_flat_map nodes P).
    rewrite flat_map_app. apply in_or_app. right. exact H1.
  Qed.
  Lemma change_ids w a w' : NoDup (all_ids w) -> change item w a = Some w' -> Permutation (all_ids w') (all_ids w).
  Proof.
    intros Hn H. destruct (change_cases w a w' Hn H) as (o & Ho & Hi & Hl & Hp & -> & Hr).
    pose proof (taken_perm a w Hn (possible_taken a w o Hp)) as P.
    destruct (place (target a) (left_over a w) o Hr) as (w1 & r & w2 & q & E & Hq & Hf).
    { rewrite <- Hi. apply lookup_in; assumption. }
    rewrite Hf. rewrite (all_ids_perm _ _ P), all_ids_app, E, !all_ids_app, !all_ids_cons.
    destruct (around q r o Hq) as (rest & Ha). pose proof (Ha o) as Hs. rewrite (put_same q r o Hq) in Hs.
    specialize (Ha (act a (taken a w) o)).
    rewrite !ids_labels. rewrite (Permutation_map fst Ha), (Permutation_map fst Hs), !map_app, <- !ids_labels.
    pose proof (act_ids a w o Hp) as Hact. rewrite <- !app_assoc.
    rewrite (Permutation_app_swap_app (all_ids w1) (ids (act a (taken a w) o))), (Permutation_app_swap_app (all_ids w1) (ids o)).
    rewrite (app_assoc (all_ids (dropped a o))), (app_assoc (all_ids (match taken a w with Some c => [c] | None => [] end))).
    apply Permutation_app_tail. exact Hact.
  Qed.
  Lemma change_nodup w a w' : NoDup (all_ids w) -> change item w a = Some w' -> NoDup (all_ids w').
  Proof. intros Hn H. rewrite (change_ids w a w' Hn H). exact Hn. Qed.

  Lemma act_id a (c : option obj) o : id_of (act a c o) = id_of o.
  Proof. destruct a; cbn [act]; try reflexivity. destruct c; reflexivity. Qed.
  Lemma upd_id i a (c : option obj) o : id_of (upd (is_id i) (act a c) o) = id_of o.
  Proof. destruct o as [[j ps] ss]. cbn [upd]. destruct (is_id i (j, ps)); [apply act_id|reflexivity]. Qed.
  (** the children of the object stay there or are left with no parent *)
  Lemma act_children a w o l x :
    possible item a w o = true -> In l (slots o) -> In x l ->
    In x (concat (slots (act a (taken a w) o))) \/ In x (dropped a o).
  Proof.
    intros Hp Hl Hx. destruct (In_nth_error _ _ Hl) as (j & Hj).
    assert (forall k l', j <> k -> In x (concat (slots (set_slot k l' o)))) as Hother.
    { intros k l' Hne. apply in_concat. exists l. split; [|exact Hx]. apply (nth_error_In _ j). unfold set_slot. cbn [slots].
      rewrite nth_error_set_nth. destruct (Nat.eqb_spec j k); [contradiction|exact Hj]. }
    assert (forall k l', j = k -> In x l' -> In x (concat (slots (set_slot k l' o)))) as Hsame.
    { intros k l' <- Hin. apply in_concat. exists l'. split; [|exact Hin]. apply (nth_error_In _ j). unfold set_slot. cbn [slots].
      rewrite nth_error_set_nth, Nat.eqb_refl, Hj. reflexivity. }
    assert (forall k, j = k -> slot k o = l) as Hslot by (intros k <-; unfold slot; exact (nth_nth_error j _ [] l Hj)).
    destruct a as [i p v|i k n c|i k n|i k c]; cbn [act dropped possible] in *.
    - left. apply in_concat. exists l. auto.
    - left. apply andb_prop in Hp. destruct Hp as [_ Hp]. destruct (taken _ w) as [y|]; [|discriminate].
      destruct (Nat.eq_dec j k) as [E|E]; [|auto]. apply Hsame; [exact E|]. rewrite (Hslot k E).
      apply (Permutation_in x (Permutation_sym (insert_perm n y l))). right. exact Hx.
    - destruct (Nat.eq_dec j k) as [E|E]; [|auto]. rewrite (Hslot k E) in *. destruct (nth_error l n) as [y|] eqn:En.
      + apply (Permutation_in x (delete_perm n y l En)) in Hx. destruct Hx as [->|Hx]; [right; left; reflexivity|].
        left. apply Hsame; [exact E|exact Hx].
      + apply andb_prop in Hp. destruct Hp as [_ Hp]. apply Nat.ltb_lt in Hp. apply nth_error_None in En. lia.
    - destruct (Nat.eq_dec j k) as [E|E]; [|auto]. right. rewrite (Hslot k E). exact Hx.
  Qed.
  (** every object stays, with the operation done to what it contains *)
  Lemma change_nodes w a w' m :
    NoDup (all_ids w) -> change item w a = Some w' -> In m (all_nodes w) ->
    In (upd (is_id (target a)) (act a (taken a w)) m) (all_nodes w').
  Proof.
    intros Hn H Hm. destruct (change_cases w a w' Hn H) as (o & Ho & Hi & Hl & Hp & -> & Hr).
    pose proof (taken_perm a w Hn (possible_taken a w o Hp)) as P.
    assert (forall r, In r (match taken a w with Some c => [c] | None => [] end) -> ~ In (target a) (ids r)) as Htk.
    { intros r Hin Hc. rewrite (all_ids_perm _ _ P), all_ids_app in Hn. destruct (taken a w) as [c|]; [|destruct Hin].
      destruct Hin as [->|[]]. rewrite all_ids_cons, app_nil_r in Hn. apply in_split in Hc. destruct Hc as (c1 & c2 & Ec).
      rewrite Ec, <- app_assoc in Hn. apply NoDup_app_remove_l in Hn. cbn [app] in Hn. inversion Hn as [|? ? Hx _]; subst. apply Hx.
      apply in_or_app. right. rewrite <- Hi. apply ids_in_all, Ho. }
    unfold all_nodes in Hm. rewrite (Permutation_flat_map nodes P), flat_map_app in Hm. apply in_app_or in Hm. destruct Hm as [Hm|Hm].
    - (* in the item put in *)
      apply in_flat_map in Hm. destruct Hm as (c & Hc & Hm). specialize (Htk c Hc).
      rewrite (upd_absent (target a) (act a (taken a w)) m) by (intros E; exact (Htk (ids_sub c m _ Hm E))).
      destruct (taken a w) as [x|] eqn:Et; [|destruct Hc]. destruct Hc as [->|[]].
      destruct (place (target a) (left_over a w) o Hr) as (w1 & r & w2 & q & E & Hq & Hf).
      { rewrite <- Hi. apply lookup_in; assumption. }
      rewrite Hf. apply in_all_nodes. exists (put q (act a (Some c) o) r). split; [rewrite !in_app_iff; simpl; tauto|].
      assert (In m (nodes (act a (Some c) o))) as Hin.
      { destruct a as [i p v|i k n y|i k n|i k y]; cbn [taken] in Et; try discriminate; cbn [act possible] in *.
        - apply andb_prop in Hp. destruct Hp as [Hp _]. apply andb_prop in Hp. destruct Hp as [Hp _]. apply Nat.ltb_lt in Hp.
          unfold set_slot. right. apply in_children. exists (insert_at n c (slot k o)), c. split; [|split; [|exact Hm]].
          + apply (nth_error_In _ k). rewrite nth_error_set_nth, Nat.eqb_refl. destruct (nth_error (slots o) k) eqn:Ek; [reflexivity|].
            apply nth_error_None in Ek. lia.
          + apply (Permutation_in c (Permutation_sym (insert_perm n c _))). left. reflexivity.
        - apply andb_prop in Hp. destruct Hp as [Hp _]. apply andb_prop in Hp. destruct Hp as [Hp _]. apply Nat.ltb_lt in Hp.
          unfold set_slot. right. apply in_children. exists [c], c. split; [|split; [left; reflexivity|exact Hm]].
          apply (nth_error_In _ k). rewrite nth_error_set_nth, Nat.eqb_refl. destruct (nth_error (slots o) k) eqn:Ek; [reflexivity|].
          apply nth_error_None in Ek. lia. }
      refine (nodes_trans _ _ _ _ Hin). clear -Hq. revert r Hq. induction q as [|[k i] q IH]; intros r Hq; [apply nodes_self|].
      cbn [sub put] in *. destruct (nth_error (slots r) k) as [l|] eqn:E1; [|discriminate]. destruct (nth_error l i) as [z|] eqn:E2; [|discriminate].
      unfold set_slot. right. apply in_children. eexists (set_nth i _ l), _. split; [|split; [|exact (IH z Hq)]].
      + apply (nth_error_In _ k). rewrite nth_error_set_nth, Nat.eqb_refl, E1. reflexivity.
      + apply (nth_error_In _ i). rewrite nth_error_set_nth, Nat.eqb_refl, E2. reflexivity.
    - apply in_flat_map in Hm. destruct Hm as (r & Hin & Hm).
      destruct (nodes_upd (is_id (target a)) (act a (taken a w)) (fun c => In c (dropped a o)) r m) as [Hu|(c & Hc & Hmc)].
      + apply hits_once. apply (nodup_root r (left_over a w) Hr). apply in_all_nodes. exists r. split; [exact Hin|apply nodes_self].
      + intros x Hx Ex l c Hlx Hc. unfold is_id in Ex. apply Nat.eqb_eq in Ex.
        assert (x = o) as ->.
        { apply (nodup_inj (@id_of V) (all_nodes (left_over a w))); [exact Hr|apply in_all_nodes; eauto|exact Ho|]. rewrite Hi. exact Ex. }
        exact (act_children a w o l c Hp Hlx Hc).
      + exact Hm.
      + apply in_all_nodes. eexists. split; [apply in_or_app; right; apply in_map; exact Hin|exact Hu].
      + rewrite upd_absent.
        * apply in_all_nodes. exists c. split; [apply in_or_app; left; exact Hc|exact Hmc].
        * intros E. apply (ids_sub c m _ Hmc) in E.
          assert (exists l, In l (slots o) /\ In c l) as (l & H1 & H2).
          { destruct a as [i p v|i k n y|i k n|i k y]; cbn [dropped] in Hc; try destruct Hc.
            - destruct (nth_error (slot k o) n) as [z|] eqn:En; [|destruct Hc]. destruct Hc as [->|[]]. apply nth_error_In in En.
              unfold slot in En. destruct (nth_in_or_default k (slots o) []) as [Hk|Hk]; [eauto|rewrite Hk in En; destruct En].
            - unfold slot in Hc. destruct (nth_in_or_default k (slots o) []) as [Hk|Hk]; [eauto|rewrite Hk in Hc; destruct Hc]. }
          pose proof (nodup_root o (left_over a w) Hr Ho) as Hno. destruct o as [[j ps] ss]. cbn [slots id_of label fst] in *. subst j.
          assert (hits (is_id (target a)) c = 0).
          { pose proof (hits_child (is_id (target a)) (target a, ps) ss l c H1 H2) as Hh.
            pose proof (hits_once (target a) _ Hno). unfold is_id in Hh at 2. cbn [fst] in Hh. rewrite Nat.eqb_refl in Hh. lia. }
          rewrite hits_count in H0. apply count_occ_not_In in H0. contradiction.
  Qed.
  Lemma change_lookup w a w' i o :
    NoDup (all_ids w) -> change item w a = Some w' -> lookup i w = Some o ->
    lookup i w' = Some (upd (is_id (target a)) (act a (taken a w)) o).
  Proof.
    intros Hn H Hl. destruct (lookup_some _ _ _ Hl) as [H1 H2]. rewrite <- H2, <- (upd_id (target a) a (taken a w) o).
    apply lookup_in; [exact (change_nodup w a w' Hn H)|]. exact (change_nodes w a w' o Hn H H1).
  Qed.
End Worlds.
