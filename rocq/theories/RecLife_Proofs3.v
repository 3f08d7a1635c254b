(** Closing recorders and replaying in the same world: proofs, replay on another object. *)
From Coq Require Import Arith Bool List Permutation Lia.
From Verif Require Import PyBase Recorder_Model Recorder_Spec Recorder_Proofs Recorder_Proofs2 Recorder_Proofs3 RecLife_Model RecLife_Spec RecLife_Proofs RecLife_Proofs2.
Import ListNotations.

Lemma labels_nodes {A} (n : node A) a : In a (labels n) <-> exists m, In m (nodes n) /\ label m = a.
Proof. unfold labels. rewrite in_map_iff. split; intros (m & H1 & H2); eauto. Qed.
Lemma upd_labels {A} (is : A -> bool) f (n : node A) a :
  In a (labels (upd is f n)) -> In a (labels n) \/ exists x, In x (nodes n) /\ is (label x) = true /\ In a (labels (f x)).
Proof.
  induction n as [b ss IH] using node_deep. cbn [upd]. destruct (is b) eqn:E.
  - intros H. right. exists (Node b ss). split; [apply nodes_self|]. auto.
  - rewrite labels_eq. intros [<-|H]; [left; rewrite labels_eq; left; reflexivity|].
    apply in_flat_map in H. destruct H as (l' & Hl' & H). apply in_map_iff in Hl'. destruct Hl' as (l & <- & Hl).
    apply in_flat_map in H. destruct H as (y' & Hy' & H). apply in_map_iff in Hy'. destruct Hy' as (y & <- & Hy).
    rewrite Forall_forall in IH. specialize (IH l Hl). rewrite Forall_forall in IH. destruct (IH y Hy H) as [H1|(x & H1 & H2 & H3)].
    + left. rewrite labels_eq. right. apply in_flat_map. exists l. split; [exact Hl|]. apply in_flat_map. eauto.
    + right. exists x. split; [|auto]. cbn [nodes]. right. apply in_children. eauto.
Qed.
Lemma set_nth_out {X} k (x : X) l : length l <= k -> set_nth k x l = l.
Proof. intros H. unfold set_nth. rewrite (proj2 (nth_error_None l k) H). reflexivity. Qed.

Section P.
  Context {V : Type} (item : nat -> bool) (recordable : nat -> nat -> bool).
  Notation obj := (node (nat * list V)).
  Notation world := (@world V).
  Notation life := (life V).
  Notation lrun := (lrun item recordable).
  Notation hear := (hear item recordable).
  Notation change := (change item).
  Notation call_on := (call_on item recordable).
  Notation live := (live item recordable).
  Implicit Types (o x : obj) (w : world) (s : life).

  (** ** what the log and the recorder know of *)
  Definition plain (e : entry) : Prop := match e with EInsert _ k _ _ | ERemove _ k _ => item k = false | ESet _ _ _ => True end.
  Definition known (s : life) : Prop :=
    NoDup (all_ids (l_world s)) /\
    (forall e c, In e (l_log s) -> In c (reads e) -> In c (all_ids (l_world s))) /\
    (forall r m, l_rec s = Some r -> In m (nodes r) -> In (fst (label m)) (all_ids (l_world s))) /\
    Forall plain (l_log s).

  Lemma mk_labels (q : path) o a : In a (labels (mk q o)) -> In (fst a) (ids o).
  Proof. intros H. rewrite <- (mk_ids o q). apply in_map, H. Qed.
  Lemma set_slot_labels {A} k (l : list (node A)) (n : node A) a :
    In a (labels (set_slot k l n)) -> In a (labels n) \/ exists x : node A, In x l /\ In a (labels x).
  Proof.
    destruct n as [b ss]. unfold set_slot. cbn [label slots]. rewrite !labels_eq. intros [H|H]; [left; left; exact H|].
    apply in_flat_map in H. destruct H as (l' & Hl' & H). apply In_nth_error in Hl'. destruct Hl' as (j & Hj). rewrite nth_error_set_nth in Hj.
    destruct (j =? k).
    - destruct (nth_error ss j); [|discriminate]. injection Hj as <-. apply in_flat_map in H. right. exact H.
    - left. right. apply in_flat_map. exists l'. split; [exact (nth_error_In _ _ Hj)|exact H].
  Qed.
  Lemma slot_labels {A} k (n x : node A) a : In x (slot k n) -> In a (labels x) -> In a (labels n).
  Proof.
    destruct n as [b ss]. unfold slot. cbn [slots]. intros H Ha. rewrite labels_eq. right. apply in_flat_map.
    destruct (nth_in_or_default k ss []) as [Hk|Hk]; [|rewrite Hk in H; destruct H]. eexists. split; [exact Hk|]. apply in_flat_map. eauto.
  Qed.
  Lemma react_labels (a : @op V) c (r : rcd) b : In b (labels (react a c r)) -> In b (labels r) \/ exists y : obj, c = Some y /\ In (fst b) (ids y).
  Proof.
    destruct a as [i p v|i k n c'|i k n|i k c']; cbn [react]; [auto| | |].
    - destruct (shifts_up n (slot k r)); [auto|]. destruct c as [y|]; [|auto]. intros H. apply set_slot_labels in H. destruct H as [H|(x & Hx & H)]; [auto|].
      unfold insert_at in Hx. apply in_app_or in Hx. destruct Hx as [Hx|[<-|Hx]].
      + left. apply (slot_labels k r x); [|exact H]. rewrite <- (firstn_skipn n (slot k r)). apply in_or_app. auto.
      + right. exists y. split; [reflexivity|exact (mk_labels _ y b H)].
      + left. apply (slot_labels k r x); [|exact H]. rewrite <- (firstn_skipn n (slot k r)). apply in_or_app. auto.
    - destruct (shifts_down n (slot k r)); [auto|]. intros H. apply set_slot_labels in H. destruct H as [H|(x & Hx & H)]; [auto|].
      left. apply (slot_labels k r x); [|exact H]. unfold delete_at in Hx. apply in_app_or in Hx. destruct Hx as [Hx|Hx].
      + rewrite <- (firstn_skipn n (slot k r)). apply in_or_app. auto.
      + rewrite <- (firstn_skipn (S n) (slot k r)). apply in_or_app. auto.
    - intros H. apply set_slot_labels in H. destruct H as [H|(x & [] & _)]. auto.
  Qed.
  Lemma hear_known s a : known s -> known (hear s a).
  Proof.
    intros (Hn & Hr & Hm & Hp). unfold RecLife_Model.hear, step. cbn [st_world st_rec st_log].
    destruct (change (l_world s) a) as [w'|] eqn:Ec.
    2:{ destruct s as [w0 [r|] L]; cbn in *; split; auto. }
    pose proof (change_nodup item _ _ _ Hn Ec) as Hn'. pose proof (change_ids item _ _ _ Hn Ec) as P.
    assert (Hin : forall j, In j (all_ids (l_world s)) -> In j (all_ids w')) by (intros j Hj; rewrite P; exact Hj).
    destruct (l_rec s) as [r|] eqn:Er; (split; [exact Hn'|]); cbn [l_world l_rec l_log].
    - destruct (change_cases item _ _ _ Hn Ec) as (x & _ & Ex & Hx & Hpo & _).
      assert (Htk : forall c, taken a (l_world s) = Some c -> In c (l_world s)) by (intros c; apply taken_in).
      assert (Hall : forall c j, In c (l_world s) -> In j (ids c) -> In j (all_ids (l_world s))).
      { intros c j Hc Hj. apply (ids_all c); [|exact Hj]. apply in_all_nodes. exists c. split; [exact Hc|apply nodes_self]. }
      split; [|split].
      + intros e c He Hc. apply in_app_or in He. apply Hin. destruct He as [He|He]; [exact (Hr e c He Hc)|].
        apply in_flat_map in He. destruct He as (m & _ & He). destruct a as [i p v|i k n c'|i k n|i k c']; cbn [logs] in He.
        * destruct (recordable i p); [|destruct He]. destruct He as [<-|[]]. destruct Hc as [<-|[]]. cbn [target] in Ex, Hx. rewrite <- Ex.
          apply ids_in_all. apply (lookup_some i), Hx.
        * destruct (shifts_up n (slot k m)); [destruct He|]. destruct He as [<-|[]]. destruct Hc as [<-|[]].
          cbn [possible] in Hpo. apply andb_prop in Hpo. destruct Hpo as [_ Hpo]. destruct (taken _ (l_world s)) as [y|] eqn:Et; [|discriminate].
          pose proof (taken_lookup _ _ _ _ _ _ Hn Et) as Hy. destruct (lookup_some _ _ _ Hy) as [H1 <-]. apply ids_in_all, H1.
        * destruct (shifts_down n (slot k m)); [destruct He|]. destruct (nth_error (slot k m) n); [|destruct He]. destruct He as [<-|[]]. destruct Hc.
        * destruct He.
      + intros r' m [= <-] Hin'. apply Hin. assert (Hl : In (label m) (labels (upd (is_id (target a)) (react a (taken a (l_world s))) r))) by (apply labels_nodes; eauto).
        apply upd_labels in Hl. assert (Hold : forall z, In (label m) (labels z) -> In z (nodes r) -> In (fst (label m)) (all_ids (l_world s))).
        { intros z Hz Hzr. apply labels_nodes in Hz. destruct Hz as (m' & Hm' & <-). apply (Hm r m' eq_refl). exact (nodes_trans r z m' Hzr Hm'). }
        destruct Hl as [Hl|(z & Hz & _ & Hl)]; [exact (Hold r Hl (nodes_self r))|]. apply react_labels in Hl.
        destruct Hl as [Hl|(y & Hy & Hl)]; [exact (Hold z Hl Hz)|]. exact (Hall y _ (Htk y Hy) Hl).
      + apply Forall_app. split; [exact Hp|]. rewrite Forall_forall. intros e He. apply in_flat_map in He. destruct He as (m & _ & He).
        destruct a as [i p v|i k n c'|i k n|i k c']; cbn [logs] in He.
        * destruct (recordable i p); [|destruct He]. destruct He as [<-|[]]. exact I.
        * destruct (shifts_up n (slot k m)); [destruct He|]. destruct He as [<-|[]]. cbn [possible plain] in *.
          destruct (item k); [|reflexivity]. rewrite andb_false_r in Hpo. discriminate.
        * destruct (shifts_down n (slot k m)); [destruct He|]. destruct (nth_error (slot k m) n); [|destruct He]. destruct He as [<-|[]]. cbn [possible plain] in *.
          destruct (item k); [|reflexivity]. rewrite andb_false_r in Hpo. discriminate.
        * destruct He.
    - split; [intros e c He Hc; apply Hin; exact (Hr e c He Hc)|]. split; [discriminate|exact Hp].
  Qed.
  Lemma lrun_known l : forall s, known s -> known (lrun s l).
  Proof.
    induction l as [|d l IH]; intros s H; [exact H|]. change (lrun s (d :: l)) with (lrun (lstep item recordable s d) l). apply IH.
    destruct d as [a|]; cbn [lstep]; [apply hear_known, H|]. unfold close. destruct H as (H1 & H2 & H3 & H4). destruct (l_rec s) eqn:E.
    - split; [exact H1|]. split; [exact H2|]. split; [discriminate|exact H4].
    - split; [exact H1|]. split; [exact H2|]. split; [rewrite E; exact H3|exact H4].
  Qed.
  Lemma open_known w r o : NoDup (all_ids w) -> lookup r w = Some o -> known (open w o).
  Proof.
    intros Hn Hl. split; [exact Hn|]. split; [intros e c []|]. split; [|constructor]. intros r' m [= <-] Hm. cbn [open l_world].
    apply (ids_all o); [apply (lookup_some r), Hl|]. apply (mk_labels []). apply labels_nodes. eauto.
  Qed.

  (** ** copies *)
  Lemma copy_erase b o : erase (copy b o) = erase o.
  Proof.
    induction o as [[i ps] ss IH] using node_deep. cbn [copy erase snd]. f_equal. rewrite map_map. apply map_ext_in. intros l Hl.
    rewrite map_map. apply map_ext_in. intros y Hy. rewrite Forall_forall in IH. specialize (IH l Hl). rewrite Forall_forall in IH. exact (IH y Hy).
  Qed.
  Lemma copy_ids b o : ids (copy b o) = map (Nat.add b) (ids o).
  Proof.
    rewrite !ids_labels. induction o as [[i ps] ss IH] using node_deep. cbn [copy]. rewrite !labels_eq. cbn [map fst]. f_equal.
    induction IH as [|l ss Hl IH IHss]; [reflexivity|]. cbn [map flat_map]. rewrite !map_app, IHss. f_equal. clear -Hl.
    induction Hl as [|y l Hy Hl IH]; [reflexivity|]. cbn [map flat_map]. rewrite !map_app, IH, Hy. reflexivity.
  Qed.
  Lemma fresh_above w j : In j (all_ids w) -> j < fresh w.
  Proof.
    intros H. unfold fresh. apply Nat.lt_succ_r. change (map (@id_of V) (all_nodes w)) with (all_ids w).
    pose proof (proj1 (list_max_le (all_ids w) (list_max (all_ids w))) (Nat.le_refl _)) as F. rewrite Forall_forall in F. exact (F j H).
  Qed.
  Lemma fresh_mono w w' : incl (all_ids w) (all_ids w') -> fresh w <= fresh w'.
  Proof.
    intros H. unfold fresh. apply le_n_S. apply list_max_le. rewrite Forall_forall. intros j Hj.
    pose proof (fresh_above w' j (H j Hj)) as Hf. unfold fresh in Hf. lia.
  Qed.

  Lemma walk_at q : forall o,
    match walk item q o with
    | Ok x => sub q o = Some x
    | Err e => forall f, at_path item q f (erase o) = Err e
    end.
  Proof.
    induction q as [|[k n] q IH]; intros o; cbn [walk sub at_path]; [reflexivity|].
    rewrite erase_slots. destruct (nth_error (slots o) k) as [l|] eqn:El.
    - destruct (nth_error l n) as [x|] eqn:En.
      + specialize (IH x). destruct (walk item q x) as [y|e]; [exact IH|]. intros f. rewrite nth_error_map. unfold Recorder_Model.obj in *. rewrite El. cbn [option_map].
        rewrite nth_error_map, En. cbn [option_map]. rewrite (IH f). reflexivity.
      + intros f. rewrite nth_error_map. unfold Recorder_Model.obj in *. rewrite El. cbn [option_map]. rewrite nth_error_map, En. reflexivity.
    - intros f. rewrite nth_error_map. unfold Recorder_Model.obj in *. rewrite El. reflexivity.
  Qed.
  Lemma at_path_err f q : forall (t x : @tree V) (e : exn), sub q t = Some x -> f x = Err e -> at_path item q f t = Err e.
  Proof.
    induction q as [|[k n] q IH]; intros t x e; cbn [sub at_path]; [intros [= ->]; auto|].
    destruct (nth_error (slots t) k) as [l|]; [|discriminate]. destruct (nth_error l n) as [y|]; [|discriminate]. intros H1 H2.
    rewrite (IH y x e H1 H2). reflexivity.
  Qed.
  Lemma erase_slot k o : slot k (erase o) = map erase (slot k o).
  Proof. unfold slot. rewrite erase_slots. change (@nil (node (list V))) with (map (@erase V) []). apply map_nth. Qed.
  Lemma put_ids q o x y j : sub q o = Some x -> In j (ids (put q y o)) -> In j (ids y) \/ In j (ids o).
  Proof.
    intros Hq H. destruct (around q o x Hq) as (rest & Ha). rewrite ids_labels in H. rewrite (Permutation_map fst (Ha y)), map_app in H.
    apply in_app_or in H. rewrite !ids_labels. destruct H as [H|H]; [auto|]. right. pose proof (Ha x) as Hs. rewrite (put_same q o x Hq) in Hs.
    rewrite (Permutation_map fst Hs), map_app. apply in_or_app. auto.
  Qed.

  (** ** the loop *)
  Section Loop.
    Context (s0 : life) (r : nat) (o2 : obj).
    Hypothesis Hknown : known s0.
    Hypothesis Hlook : lookup r (l_world s0) = Some o2.
    Hypothesis Hstr : stranger s0 o2.

    Definition meets (s : life) (t : @tree V) : Prop :=
      NoDup (all_ids (l_world s)) /\ l_log s = l_log s0 /\ l_rec s = l_rec s0 /\ incl (all_ids (l_world s0)) (all_ids (l_world s)) /\
      (exists o, lookup r (l_world s) = Some o /\ erase o = t /\ forall j, In j (ids o) -> In j (ids o2) \/ fresh (l_world s0) <= j) /\
      forall c x, lookup c (l_world s0) = Some x -> apart x o2 -> lookup c (l_world s) = Some x.

    Lemma outside j x : In j (ids o2) \/ fresh (l_world s0) <= j -> forall c, lookup c (l_world s0) = Some x -> apart x o2 -> ~ In j (ids x).
    Proof.
      intros [H|H] c Hc Ha Hj; [exact (Ha j Hj H)|]. assert (In j (all_ids (l_world s0))) as Hi by (apply (ids_all x); [apply (lookup_some c), Hc|exact Hj]).
      apply fresh_above in Hi. lia.
    Qed.
    Lemma hear_deaf s a w' : l_rec s = l_rec s0 -> change (l_world s) a = Some w' -> In (target a) (ids o2) \/ fresh (l_world s0) <= target a ->
      hear s a = Life w' (l_rec s) (l_log s).
    Proof.
      intros Er Ec Ht. unfold RecLife_Model.hear, step. cbn [st_world st_rec st_log]. rewrite Ec. destruct (l_rec s) as [rc|] eqn:E; [|reflexivity].
      destruct Hknown as (_ & _ & Hm & _). destruct Hstr as [_ Hst].
      assert (Hd : forall m, In m (nodes rc) -> is_id (target a) (label m) = false).
      { intros m Hm'. unfold is_id. apply Nat.eqb_neq. intros Eq. destruct Ht as [Ht|Ht].
        - apply (Hst rc m (eq_sym Er) Hm'). rewrite Eq. exact Ht.
        - specialize (Hm rc m (eq_sym Er) Hm'). apply fresh_above in Hm. lia. }
      cbn [st_world st_rec st_log]. rewrite (upd_none _ _ rc Hd).
      replace (filter (fun m => is_id (target a) (label m)) (nodes rc)) with (@nil rcd).
      - cbn [flat_map]. rewrite app_nil_r. reflexivity.
      - symmetry. clear -Hd. induction (nodes rc) as [|m l IH]; [reflexivity|]. cbn [filter]. rewrite (Hd m (or_introl eq_refl)).
        apply IH. intros m' Hm'. apply Hd. right. exact Hm'.
    Qed.
    (** an operation on an object of [o2]'s *)
    Lemma meets_step s t a o q x (y : obj) :
      meets s t -> lookup r (l_world s) = Some o -> sub q o = Some x -> target a = id_of x ->
      forall W, W = match taken a W with Some z => z :: l_world s | None => l_world s end ->
      NoDup (all_ids W) -> change W a <> None -> act a (taken a W) x = y ->
      (forall j, In j (ids y) -> In j (ids x) \/ fresh (l_world s0) <= j) ->
      meets (hear (Life W (l_rec s) (l_log s)) a) (put q (erase y) t).
    Proof.
      intros (Hn & HL & HR & Hi & (o' & Ho' & Et & Hj) & Hc) Ho Hq Htar W EW HnW Hch Hact Hids.
      assert (o' = o) as -> by congruence. clear Ho'. destruct (change W a) as [w'|] eqn:Ec; [|congruence]. clear Hch.
      assert (Hx : In x (nodes o)) by exact (sub_nodes q o x Hq).
      assert (Ht : In (target a) (ids o2) \/ fresh (l_world s0) <= target a) by (apply Hj; rewrite Htar; apply in_map, Hx).
      rewrite (hear_deaf (Life W (l_rec s) (l_log s)) a w' HR Ec Ht). cbn [l_rec l_log].
      assert (Hsub : forall z, In z (all_nodes (l_world s)) -> In z (all_nodes W)).
      { intros z Hz. rewrite EW. destruct (taken a W); [|exact Hz]. unfold all_nodes. cbn [flat_map]. apply in_or_app. right. exact Hz. }
      assert (Hlk : forall c z, lookup c (l_world s) = Some z -> lookup c W = Some z).
      { intros c z Hz. destruct (lookup_some _ _ _ Hz) as [H1 <-]. apply lookup_in; [exact HnW|]. apply Hsub, H1. }
      assert (HinW : incl (all_ids (l_world s)) (all_ids W)).
      { intros j Hj'. unfold all_ids in Hj'. apply in_map_iff in Hj'. destruct Hj' as (z & <- & Hz). apply ids_in_all, Hsub, Hz. }
      split; [exact (change_nodup item _ _ _ HnW Ec)|]. split; [exact HL|]. split; [exact HR|].
      split; [intros j Hj'; cbn [l_world]; rewrite (change_ids item _ _ _ HnW Ec); apply HinW, Hi, Hj'|].
      pose proof (change_lookup item _ _ _ r o HnW Ec (Hlk r o Ho)) as Hr'.
      assert (Hno : NoDup (ids o)) by (apply (nodup_root o (l_world s) Hn), (lookup_some r), Ho).
      rewrite (upd_put (is_id (target a)) _ q o x) in Hr'; [|apply hits_once, Hno|exact Hq|unfold is_id; apply Nat.eqb_eq; rewrite Htar; reflexivity].
      rewrite Hact in Hr'. split.
      - exists (put q y o). split; [exact Hr'|]. split; [rewrite erase_put, Et; reflexivity|]. intros j Hj'.
        apply (put_ids q o x) in Hj'; [|exact Hq]. destruct Hj' as [Hj'|Hj']; [|auto]. apply Hids in Hj'. destruct Hj' as [Hj'|Hj']; [|auto].
        apply Hj. exact (ids_sub o x j Hx Hj').
      - intros c z Hz Ha. cbn [l_world]. rewrite (change_lookup item _ _ _ c z HnW Ec (Hlk c z (Hc c z Hz Ha))).
        rewrite upd_absent; [reflexivity|]. exact (outside (target a) z Ht c Hz Ha).
    Qed.

    Lemma call_meets s t e : meets s t -> In e (l_log s0) ->
      match call item (l_world s0) e t with
      | Ok t' => exists s', call_on s r e = Ok s' /\ meets s' t'
      | Err x => call_on s r e = Err x
      end.
    Proof.
      intros Hm He. pose proof Hm as (Hn & HL & HR & Hi & (o & Ho & Et & Hj) & Hc). pose proof Hknown as (Hn0 & Hrd & _ & Hpl).
      rewrite Forall_forall in Hpl. specialize (Hpl e He). destruct Hstr as [Hs1 _].
      assert (Hread : forall c, In c (reads e) -> exists x, lookup c (l_world s0) = Some x /\ lookup c (l_world s) = Some x).
      { intros c Hce. specialize (Hrd e c He Hce). unfold all_ids in Hrd. apply in_map_iff in Hrd. destruct Hrd as (x & <- & Hx).
        pose proof (lookup_in _ x Hn0 Hx) as Lx. exists x. split; [exact Lx|]. apply Hc; [exact Lx|]. exact (Hs1 e (id_of x) x He Hce Lx). }
      unfold RecLife_Model.call_on. rewrite Ho. subst t. destruct e as [q i p|q k n c|q k n]; cbn [call reads plain] in *.
      - pose proof (walk_at q o) as Hw. destruct (walk item q o) as [x|e]; [|rewrite Hw; reflexivity].
        destruct (Hread i (or_introl eq_refl)) as (z & Hz0 & Hz). rewrite Hz0, Hz. pose proof (erase_sub q o) as Es. rewrite Hw in Es. cbn [option_map] in Es.
        destruct (nth_error (props_of z) p) as [v|] eqn:Ev; [|rewrite (at_path_err _ q _ _ AttributeError Es); reflexivity].
        rewrite (at_path_put item _ q (erase o) (erase x) (erase (set_prop p v x)) Es); [|rewrite erase_label, erase_slots; reflexivity].
        exists (hear s (SetProp (id_of x) p v)). split; [reflexivity|].
        assert (Hx : lookup (id_of x) (l_world s) = Some x).
        { apply lookup_in; [exact Hn|]. destruct (lookup_some _ _ _ Ho) as [H1 _]. apply in_all_nodes in H1. destruct H1 as (ro & Hro & H1).
          apply in_all_nodes. exists ro. split; [exact Hro|]. exact (nodes_trans ro o x H1 (sub_nodes q o x Hw)). }
        destruct (Nat.lt_ge_cases p (length (props_of x))) as [Hp|Hp].
        + replace (hear s (SetProp (id_of x) p v)) with (hear (Life (l_world s) (l_rec s) (l_log s)) (SetProp (id_of x) p v)) by (destruct s; reflexivity).
          apply (meets_step s (erase o) (SetProp (id_of x) p v) o q x (set_prop p v x) Hm Ho Hw eq_refl (l_world s)); [reflexivity|exact Hn| |reflexivity|intros j Hj'; left; destruct x as [[j' ps] ss]; exact Hj'].
          rewrite (set_change item _ _ p v x Hn Hx Hp). discriminate.
        + assert (E : set_prop p v x = x) by (unfold set_prop; rewrite set_nth_out by exact Hp; destruct x as [[j ps] ss]; reflexivity).
          rewrite E. rewrite (put_same q (erase o) (erase x) Es).
          replace (hear s (SetProp (id_of x) p v)) with s; [exact Hm|].
          unfold RecLife_Model.hear, step, Recorder_Model.change. cbn [st_world target left_over]. rewrite Hx. cbn [possible].
          rewrite (proj2 (Nat.ltb_ge _ _) Hp). destruct s as [w1 [rc|] L]; reflexivity.
      - pose proof (walk_at q o) as Hw. destruct (walk item q o) as [x|e]; [|rewrite Hw; reflexivity].
        destruct (Hread c (or_introl eq_refl)) as (z & Hz0 & Hz). rewrite Hz0, Hz. pose proof (erase_sub q o) as Es. rewrite Hw in Es. cbn [option_map] in Es.
        cbn zeta. assert (Elen : length (slots (erase x)) = length (slots x)) by (rewrite erase_slots, map_length; reflexivity).
        destruct (k <? length (slots x)) eqn:Ek; [|rewrite (at_path_err _ q _ _ KeyError Es); [reflexivity|rewrite Elen, Ek; reflexivity]].
        set (b := fresh (l_world s)). set (z' := copy b z). set (a := Insert (V:=V) (id_of x) k n (id_of z')).
        set (y := set_slot k (insert_at n z' (slot k x)) x).
        rewrite (at_path_put item _ q (erase o) (erase x) (erase y) Es).
        2:{ rewrite Elen, Ek. unfold y. rewrite erase_set_slot, erase_slot. unfold insert_at. rewrite map_app. cbn [map].
            rewrite <- firstn_map, <- skipn_map. unfold z'. rewrite copy_erase. reflexivity. }
        eexists. split; [reflexivity|].
        assert (Hzin : In z (all_nodes (l_world s))) by apply (lookup_some c), Hz.
        assert (Hnz : NoDup (ids z')).
        { unfold z'. rewrite copy_ids. apply FinFun.Injective_map_NoDup; [intros ? ?; lia|]. exact (nodup_root z _ Hn Hzin). }
        assert (Hbig : forall j, In j (ids z') -> b <= j) by (unfold z'; rewrite copy_ids; intros j H; apply in_map_iff in H; destruct H as (? & <- & _); lia).
        assert (Hb : fresh (l_world s0) <= b) by (apply fresh_mono, Hi).
        assert (HnW : NoDup (all_ids (z' :: l_world s))).
        { rewrite all_ids_cons. clear -Hnz Hn Hbig. unfold b in *. induction (ids z') as [|j l IH]; [exact Hn|]. inversion Hnz; subst. cbn [app]. constructor.
          - intros H. apply in_app_or in H. destruct H as [H|H]; [contradiction|]. apply fresh_above in H. specialize (Hbig j (or_introl eq_refl)). lia.
          - apply IH; [assumption|]. intros j' H. apply Hbig. right. exact H. }
        assert (Htk : taken a (z' :: l_world s) = Some z').
        { unfold a. cbn [taken find]. unfold is_root at 1. rewrite Nat.eqb_refl. reflexivity. }
        assert (Hleft : left_over a (z' :: l_world s) = l_world s).
        { unfold a. cbn [left_over filter]. unfold is_root at 1. rewrite Nat.eqb_refl. cbn [negb].
          assert (H : forall u, In u (l_world s) -> negb (is_root (id_of z') u) = true).
          { intros u Hu. apply Bool.negb_true_iff, Nat.eqb_neq. intros E. assert (In (id_of u) (all_ids (l_world s))) as H.
            { apply ids_in_all, in_all_nodes. exists u. split; [exact Hu|apply nodes_self]. }
            apply fresh_above in H. rewrite E in H. assert (b <= id_of z') by (apply Hbig; apply in_map, nodes_self). unfold b in *. lia. }
          revert H. generalize (id_of z'). clear. intros i H. induction (l_world s) as [|u l IH]; [reflexivity|]. cbn [filter]. rewrite (H u (or_introl eq_refl)). f_equal. apply IH.
          intros v Hv. apply H. right. exact Hv. }
        assert (Hx : lookup (id_of x) (l_world s) = Some x).
        { apply lookup_in; [exact Hn|]. destruct (lookup_some _ _ _ Ho) as [H1 _]. apply in_all_nodes in H1. destruct H1 as (ro & Hro & H1).
          apply in_all_nodes. exists ro. split; [exact Hro|]. exact (nodes_trans ro o x H1 (sub_nodes q o x Hw)). }
        assert (Hpos : possible item a (z' :: l_world s) x = true) by (unfold a; cbn [possible]; fold a; rewrite Ek, Hpl, Htk; reflexivity).
        apply (meets_step s (erase o) a o q x y Hm Ho Hw eq_refl (z' :: l_world s)); [rewrite Htk; reflexivity|exact HnW| | |].
        + unfold Recorder_Model.change. rewrite Hleft. change (target a) with (id_of x). rewrite Hx, Hpos. discriminate.
        + rewrite Htk. reflexivity.
        + intros j Hj'. pose proof (act_ids item a (z' :: l_world s) x Hpos) as P. rewrite Htk in P. change (act a (Some z') x) with y in P.
          change (dropped a x) with (@nil obj) in P. assert (P' : Permutation (ids y) (ids z' ++ ids x)) by (rewrite <- (all_one z'); exact P).
          assert (Hj2 : In j (ids z' ++ ids x)) by (rewrite <- P'; exact Hj').
          apply in_app_or in Hj2. destruct Hj2 as [H|H]; [right|left; exact H]. apply Hbig in H. lia.
      - pose proof (walk_at q o) as Hw. destruct (walk item q o) as [x|e]; [|rewrite Hw; reflexivity].
        pose proof (erase_sub q o) as Es. rewrite Hw in Es. cbn [option_map] in Es.
        destruct (nth_error (slots x) k) as [l|] eqn:El.
        2:{ rewrite (at_path_err _ q _ _ AttributeError Es); [reflexivity|]. rewrite erase_slots, nth_error_map. unfold Recorder_Model.obj in *. rewrite El. reflexivity. }
        assert (Esl : slot k x = l) by (unfold slot; apply nth_nth_error, El).
        destruct (nth_error l n) as [u|] eqn:Eu.
        2:{ rewrite (at_path_err _ q _ _ IndexError Es); [reflexivity|]. rewrite erase_slots, nth_error_map. unfold Recorder_Model.obj in *. rewrite El. cbn [option_map].
            rewrite nth_error_map, Eu. reflexivity. }
        set (a := Remove (V:=V) (id_of x) k n). set (y := set_slot k (delete_at n l) x).
        rewrite (at_path_put item _ q (erase o) (erase x) (erase y) Es).
        2:{ rewrite erase_slots, nth_error_map. unfold Recorder_Model.obj in *. rewrite El. cbn [option_map]. rewrite nth_error_map, Eu. cbn [option_map]. unfold y. rewrite erase_set_slot.
            unfold delete_at. rewrite map_app, firstn_map, skipn_map. reflexivity. }
        eexists. split; [reflexivity|].
        assert (Hx : lookup (id_of x) (l_world s) = Some x).
        { apply lookup_in; [exact Hn|]. destruct (lookup_some _ _ _ Ho) as [H1 _]. apply in_all_nodes in H1. destruct H1 as (ro & Hro & H1).
          apply in_all_nodes. exists ro. split; [exact Hro|]. exact (nodes_trans ro o x H1 (sub_nodes q o x Hw)). }
        assert (Hpos : possible item a (l_world s) x = true).
        { unfold a. cbn [possible]. rewrite Hpl, Esl. assert (k < length (slots x)) as H1 by (apply nth_error_Some; congruence). assert (n < length l) as H2 by (apply nth_error_Some; congruence).
          apply Nat.ltb_lt in H1, H2. rewrite H1, H2. reflexivity. }
        replace (hear s a) with (hear (Life (l_world s) (l_rec s) (l_log s)) a) by (destruct s; reflexivity).
        apply (meets_step s (erase o) a o q x y Hm Ho Hw eq_refl (l_world s)); [reflexivity|exact Hn| | |].
        + unfold Recorder_Model.change. change (left_over a (l_world s)) with (l_world s). change (target a) with (id_of x). rewrite Hx, Hpos. discriminate.
        + unfold a. cbn [act]. rewrite Esl. reflexivity.
        + intros j Hj'. left. pose proof (act_ids item a (l_world s) x Hpos) as P. change (taken a (l_world s)) with (@None obj) in P.
          assert (Ey : act a None x = y) by (unfold a; cbn [act]; rewrite Esl; reflexivity). 
          apply (Permutation_in j P). apply in_or_app. right. unfold Recorder_Model.obj in *. rewrite Ey. exact Hj'.
    Qed.

    Lemma live_meets L2 : forall L1 s t, l_log s0 = L1 ++ L2 -> meets s t ->
      match apply item (l_world s0) L2 t with
      | Ok t' => exists s', live (S (length L2)) r (length L1) s = Done s' /\ meets s' t'
      | Err x => exists s' t', live (S (length L2)) r (length L1) s = Raised x s' /\ meets s' t'
      end.
    Proof.
      induction L2 as [|e L2 IH]; intros L1 s t E Hm; pose proof Hm as (_ & HL & _).
      - cbn [apply length RecLife_Model.live]. rewrite HL, E, app_nil_r, (proj2 (nth_error_None L1 (length L1))) by lia. eauto.
      - change (live (S (length (e :: L2))) r (length L1) s) with
          (match nth_error (l_log s) (length L1) with
           | None => Done s
           | Some e => match call_on s r e with Ok s' => live (S (length L2)) r (S (length L1)) s' | Err x => Raised x s end
           end).
        rewrite HL, E, nth_error_app2, Nat.sub_diag by lia. cbn [nth_error apply].
        assert (He : In e (l_log s0)) by (rewrite E; apply in_or_app; right; left; reflexivity).
        pose proof (call_meets s t e Hm He) as Hcall. destruct (call item (l_world s0) e t) as [t'|x]; [|rewrite Hcall; eauto].
        destruct Hcall as (s' & -> & Hm'). replace (S (length L1)) with (length (L1 ++ [e])) by (rewrite app_length; simpl; lia).
        apply IH; [|exact Hm']. rewrite E, <- app_assoc. reflexivity.
    Qed.
    Lemma meets_start : meets s0 (erase o2).
    Proof.
      destruct Hknown as (Hn & _). split; [exact Hn|]. split; [reflexivity|]. split; [reflexivity|]. split; [apply incl_refl|].
      split; [exists o2; auto|auto].
    Qed.
  End Loop.
End P.
