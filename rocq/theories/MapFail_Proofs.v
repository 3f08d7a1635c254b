(** Lemmas about mapped lists whose functions raise. *)
From Coq Require Import List ZArith Bool Arith Permutation Lia.
From Verif Require Import PyBase MapFail_Model MapFail_Spec.
Import ListNotations.

Section P.
  Context {A B : Type} (mapf : nat -> A -> res B) (unmapf : nat -> B -> option exn).
  Notation qstate := (qstate A B).
  Notation q_step := (q_step mapf unmapf).
  Notation q_run := (q_run mapf unmapf).

  Lemma q_observes_app (t1 t2 : list (qev A B)) l l1 l2 : q_observes l t1 l1 -> q_observes l1 t2 l2 -> q_observes l (t1 ++ t2) l2.
  Proof.
    revert l. induction t1 as [|e t1 IH]; intros l H1 H2; [simpl in H1; subst; exact H2|].
    destruct e as [a r|b ok|b i|b i]; cbn [app q_observes] in *; try (apply IH; assumption).
    destruct H1 as [Hg (l0 & Hd & H1)]. split; [exact Hg|]. exists l0. split; [exact Hd|]. apply IH; assumption.
  Qed.

  (** what a piece of a trace does to the items *)
  Definition moved (s : qstate) (t : list (qev A B)) (s' : qstate) : Prop :=
    q_observes (q_items s) t (q_items s') /\ Permutation (q_items s ++ made t) (q_items s' ++ unmade t).
  Lemma made_app t1 t2 : made (A := A) (B := B) (t1 ++ t2) = made t1 ++ made t2.
  Proof. induction t1 as [|[a [b|e]|b ok|b i|b i] t1 IH]; cbn; rewrite ?IH; reflexivity. Qed.
  Lemma unmade_app t1 t2 : unmade (A := A) (B := B) (t1 ++ t2) = unmade t1 ++ unmade t2.
  Proof. induction t1 as [|[a r|b [|]|b i|b i] t1 IH]; cbn; rewrite ?IH; reflexivity. Qed.
  Lemma moved_app s t1 s1 t2 s2 : moved s t1 s1 -> moved s1 t2 s2 -> moved s (t1 ++ t2) s2.
  Proof.
    intros [O1 P1] [O2 P2]. split; [eapply q_observes_app; eassumption|]. rewrite made_app, unmade_app, app_assoc, P1.
    rewrite <- app_assoc, (Permutation_app_comm (unmade t1)), app_assoc, P2, <- app_assoc. apply Permutation_app_head, Permutation_app_comm.
  Qed.
  Lemma moved_nil (s s' : qstate) : q_items s' = q_items s -> moved s [] s'.
  Proof. intros H. split; cbn; rewrite H; [reflexivity|reflexivity]. Qed.
  Lemma moved_items (s0 s s' : qstate) t : q_items s0 = q_items s -> moved s0 t s' -> moved s t s'.
  Proof. intros H [O P]. split; rewrite <- H; assumption. Qed.

  Lemma insert_perm (i : Z) (b : B) l : Permutation (py_insert i b l) (b :: l).
  Proof.
    unfold py_insert, insert_at. rewrite <- Permutation_middle. constructor. rewrite firstn_skipn. reflexivity.
  Qed.
  Lemma delete_perm (l : list B) k b : nth_error l k = Some b -> Permutation l (b :: delete_at k l).
  Proof.
    intros H. apply nth_error_split in H as (l1 & l2 & -> & <-). unfold delete_at.
    rewrite firstn_app, Nat.sub_diag, firstn_O, app_nil_r, firstn_all, skipn_app.
    replace (S (length l1) - length l1) with 1 by lia. rewrite skipn_all2 by lia. cbn. rewrite Permutation_middle. reflexivity.
  Qed.

  Lemma q_inserted_moved (s : qstate) x i s' t e : q_inserted mapf s x i = (s', t, e) ->
    moved s t s' /\ q_cont s' = q_cont s /\ q_live s' = q_live s.
  Proof.
    unfold q_inserted. destruct (mapf (q_maps s) x) as [b|e0]; intros [= <- <- <-]; (split; [|split; reflexivity]); split; cbn; try reflexivity.
    rewrite insert_perm, app_nil_r. rewrite <- Permutation_cons_append. reflexivity.
  Qed.
  Lemma q_removed_moved (s : qstate) i s' t e : q_removed unmapf s i = (s', t, e) ->
    moved s t s' /\ q_cont s' = q_cont s /\ q_live s' = q_live s.
  Proof.
    unfold q_removed. destruct (py_get (q_items s) i) as [b|e0] eqn:Eg; [|intros [= <- <- <-]; split; [apply moved_nil; reflexivity|split; reflexivity]].
    destruct (py_del (q_items s) i) as [l|e0] eqn:Ed; [|intros [= <- <- <-]; split; [apply moved_nil; reflexivity|split; reflexivity]].
    destruct (unmapf _ _); intros [= <- <- <-]; (split; [|split; reflexivity]); split; cbn; try reflexivity.
    - split; [exact Eg|]. exists l. auto.
    - unfold py_get in Eg. unfold py_del in Ed. destruct (py_index _ i) as [k|]; [|discriminate]. injection Ed as <-.
      destruct (nth_error _ k) as [b'|] eqn:En; [|discriminate]. injection Eg as ->.
      rewrite app_nil_r, <- Permutation_cons_append. apply delete_perm, En.
  Qed.
  Lemma q_remove_loop_moved xs : forall (s : qstate) s' t e, q_remove_loop unmapf xs s = (s', t, e) ->
    moved s t s' /\ q_cont s' = q_cont s /\ q_live s' = q_live s.
  Proof.
    induction xs as [|x xs IH]; intros s s' t e; cbn [q_remove_loop].
    - intros [= <- <- <-]. split; [apply moved_nil; reflexivity|auto].
    - destruct (q_removed unmapf s _) as [[s1 t1] e1] eqn:E1. destruct (q_removed_moved _ _ _ _ _ E1) as (M1 & C1 & L1).
      destruct e1 as [e1|]; [intros [= <- <- <-]; auto|]. destruct (q_remove_loop unmapf xs s1) as [[s2 t2] e2] eqn:E2.
      intros [= <- <- <-]. destruct (IH _ _ _ _ E2) as (M2 & C2 & L2). split; [eapply moved_app; eassumption|split; congruence].
  Qed.
  Lemma q_insert_loop_moved xs : forall idx (s : qstate) s' t e, q_insert_loop mapf xs idx s = (s', t, e) ->
    moved s t s' /\ q_cont s' = q_cont s /\ q_live s' = q_live s.
  Proof.
    induction xs as [|x xs IH]; intros idx s s' t e; cbn [q_insert_loop].
    - intros [= <- <- <-]. split; [apply moved_nil; reflexivity|auto].
    - destruct (q_inserted mapf s x _) as [[s1 t1] e1] eqn:E1. destruct (q_inserted_moved _ _ _ _ _ _ E1) as (M1 & C1 & L1).
      destruct e1 as [e1|]; [intros [= <- <- <-]; auto|]. destruct (q_insert_loop mapf xs _ s1) as [[s2 t2] e2] eqn:E2.
      intros [= <- <- <-]. destruct (IH _ _ _ _ _ E2) as (M2 & C2 & L2). split; [eapply moved_app; eassumption|split; congruence].
  Qed.
  Lemma q_attach_moved (s : qstate) c s' t e : q_attach mapf s c = (s', t, e) ->
    moved s t s' /\ q_cont s' = c /\ q_live s' = match c with Some _ => true | None => false end.
  Proof.
    unfold q_attach. destruct c as [l|]; [|intros [= <- <- <-]; split; [apply moved_nil; reflexivity|auto]].
    intros E. apply q_insert_loop_moved in E as (M & C & L). auto.
  Qed.
  Lemma q_set_moved (s : qstate) c s' t e : q_set_container mapf unmapf s c = (s', t, e) ->
    moved s t s' /\ ((e <> None /\ stuck s') \/ (q_cont s' = c /\ q_live s' = match c with Some _ => true | None => false end)).
  Proof.
    unfold q_set_container. destruct (q_cont s) as [old|] eqn:Ec.
    - destruct (q_live s) eqn:El.
      + destruct (q_remove_loop unmapf (rev old) _) as [[s1 t1] e1] eqn:E1. destruct (q_remove_loop_moved _ _ _ _ _ E1) as (M1 & C1 & L1). cbn in C1, L1.
        destruct e1 as [e1|].
        * intros [= <- <- <-]. split; [exact M1|]. left. split; [discriminate|]. split; congruence.
        * destruct (q_attach mapf s1 c) as [[s2 t2] e2] eqn:E2. intros [= <- <- <-]. apply q_attach_moved in E2 as (M2 & C2 & L2).
          split; [eapply moved_app; eassumption|]. auto.
      + intros [= <- <- <-]. split; [apply moved_nil; reflexivity|]. left. split; [discriminate|]. split; congruence.
    - intros E. apply q_attach_moved in E as (M & C & L). auto.
  Qed.
  Lemma q_step_moved (s : qstate) o s' t e : q_step s o = (s', t, e) -> moved s t s'.
  Proof.
    destruct o as [i x|i|c]; cbn [MapFail_Model.q_step].
    - destruct (q_cont s) as [l|]; [|intros [= <- <- <-]; apply moved_nil; reflexivity].
      destruct (q_live s); [|intros [= <- <- <-]; apply moved_nil; reflexivity].
      destruct (q_inserted mapf _ x i) as [[s1 t1] e1] eqn:E1. intros [= <- <- <-]. apply q_inserted_moved in E1 as (M & _). exact M.
    - destruct (q_cont s) as [l|]; [|intros [= <- <- <-]; apply moved_nil; reflexivity].
      destruct (py_del l i) as [l'|]; [|intros [= <- <- <-]; apply moved_nil; reflexivity].
      destruct (q_live s); [|intros [= <- <- <-]; apply moved_nil; reflexivity].
      destruct (q_removed unmapf _ i) as [[s1 t1] e1] eqn:E1. intros [= <- <- <-]. apply q_removed_moved in E1 as (M & _). exact M.
    - intros E. apply q_set_moved in E as [M _]. exact M.
  Qed.
  Lemma q_run_moved h : forall (s : qstate) s' t es, q_run s h = (s', t, es) -> moved s t s'.
  Proof.
    induction h as [|o h IH]; intros s s' t es; cbn [MapFail_Model.q_run]; [intros [= <- <- <-]; apply moved_nil; reflexivity|].
    destruct (q_step s o) as [[s1 t1] e1] eqn:E1. destruct (q_run s1 h) as [[s2 t2] es2] eqn:E2. intros [= <- <- <-].
    eapply moved_app; [eapply q_step_moved; exact E1|eapply IH; exact E2].
  Qed.

  (** ** stuck *)
  Lemma q_step_stuck (s : qstate) o : stuck s ->
    let '(s', t, e) := q_step s o in stuck s' /\ q_items s' = q_items s /\ t = [] /\ (is_set o = true -> e = Some AttributeError).
  Proof.
    intros [Hc Hl]. destruct o as [i x|i|c]; cbn [MapFail_Model.q_step].
    - destruct (q_cont s) as [l|] eqn:Ec; [|congruence]. rewrite Hl. repeat split; try discriminate.
    - destruct (q_cont s) as [l|] eqn:Ec; [|congruence]. destruct (py_del l i) as [l'|]; [|repeat split; try discriminate; congruence].
      rewrite Hl. repeat split; try discriminate.
    - unfold q_set_container. destruct (q_cont s) as [l|] eqn:Ec; [|congruence]. rewrite Hl. repeat split; congruence.
  Qed.

  (** ** no failures *)
  Lemma py_insert_map {X Y} (f : X -> Y) i x l : map f (py_insert i x l) = py_insert i (f x) (map f l).
  Proof. unfold py_insert, insert_at. rewrite map_length, map_app, firstn_map, skipn_map. reflexivity. Qed.
  Lemma py_del_map {X Y} (f : X -> Y) l i : py_del (map f l) i = match py_del l i with Ok l' => Ok (map f l') | Err e => Err e end.
  Proof.
    unfold py_del. rewrite map_length. destruct (py_index _ _) as [k|]; [|reflexivity]. unfold delete_at. rewrite map_app, firstn_map, skipn_map. reflexivity.
  Qed.
  Lemma py_get_del {X} (l : list X) i l' : py_del l i = Ok l' -> exists b, py_get l i = Ok b.
  Proof.
    unfold py_del, py_get. destruct (py_index (length l) i) as [k|] eqn:E; [|discriminate]. intros _. apply py_index_lt in E.
    destruct (nth_error l k) as [b|] eqn:En; [eauto|]. apply nth_error_None in En. lia.
  Qed.

  Lemma q_removed_ok (s : qstate) i l : (forall n b, unmapf n b = None) -> py_del (q_items s) i = Ok l ->
    exists t n, q_removed unmapf s i = (Qs (q_cont s) (q_live s) l (q_maps s) n, t, None).
  Proof.
    intros Hu Hd. unfold q_removed. destruct (py_get_del _ _ _ Hd) as [b ->]. rewrite Hd, Hu. eauto.
  Qed.
  (** removal of the last items *)
  Lemma q_remove_loop_ok xs : (forall n b, unmapf n b = None) -> forall s : qstate,
    (length xs <= length (q_items s) ->
     exists t n, q_remove_loop unmapf xs s = (Qs (q_cont s) (q_live s) (firstn (length (q_items s) - length xs) (q_items s)) (q_maps s) n, t, None)) /\
    (length (q_items s) < length xs ->
     exists t n, q_remove_loop unmapf xs s = (Qs (q_cont s) (q_live s) [] (q_maps s) n, t, Some IndexError)).
  Proof.
    intros Hu. induction xs as [|x xs IH]; intros s; cbn [q_remove_loop length].
    - split; [|lia]. intros _. rewrite Nat.sub_0_r, firstn_all. destruct s. eauto.
    - destruct (q_items s) as [|b0 l0] eqn:Ei using rev_ind.
      + split; [cbn; lia|]. intros _. unfold q_removed. rewrite Ei. cbn. destruct s. cbn in Ei. subst. eauto.
      + clear IHl0. assert (Hd : py_del (q_items s) (Z.of_nat (length (q_items s)) - 1) = Ok l0).
        { rewrite Ei, app_length. cbn [length]. replace (Z.of_nat (length l0 + 1) - 1)%Z with (Z.of_nat (length l0)) by lia.
          unfold py_del. rewrite app_length. cbn [length]. rewrite py_index_nat by lia. f_equal. unfold delete_at.
          rewrite firstn_app, Nat.sub_diag, firstn_all, firstn_O, app_nil_r, skipn_all2 by (rewrite app_length; cbn; lia). apply app_nil_r. }
        rewrite <- Ei in *. destruct (q_removed_ok s _ _ Hu Hd) as (t & n & ->).
        destruct (IH (Qs (q_cont s) (q_live s) l0 (q_maps s) n)) as [H1 H2]. cbn [q_items q_cont q_live q_maps] in *.
        rewrite Ei, app_length. cbn [length]. split; intros Hl.
        * destruct H1 as (t2 & n2 & ->); [lia|]. exists (t ++ t2), n2. f_equal. f_equal. f_equal. rewrite firstn_app.
          replace (length l0 + 1 - S (length xs)) with (length l0 - length xs) by lia.
          replace (length l0 - length xs - length l0) with 0 by lia. rewrite firstn_O, app_nil_r. reflexivity.
        * destruct H2 as (t2 & n2 & ->); [lia|]. eauto.
  Qed.
  Lemma q_insert_loop_ok (f : A -> B) xs : (forall n x, In x xs -> mapf n x = Ok (f x)) -> forall idx (s : qstate), idx = length (q_items s) ->
    exists t n, q_insert_loop mapf xs idx s = (Qs (q_cont s) (q_live s) (q_items s ++ map f xs) n (q_unmaps s), t, None).
  Proof.
    intros Hm. induction xs as [|x xs IH]; intros idx s Hi; cbn [q_insert_loop map].
    - rewrite app_nil_r. destruct s. eauto.
    - unfold q_inserted. rewrite Hm by (left; reflexivity). destruct (IH ltac:(intros; apply Hm; right; assumption) (S idx) (Qs (q_cont s) (q_live s) (py_insert (Z.of_nat idx) (f x) (q_items s)) (S (q_maps s)) (q_unmaps s))) as (t & n & E).
      { cbn. unfold py_insert. rewrite insert_at_length. lia. }
      rewrite E. cbn [q_items q_cont q_live q_unmaps]. exists ([QMap x (Ok (f x)); QIns (f x) (Z.of_nat idx)] ++ t), n. f_equal. f_equal. f_equal.
      subst idx. unfold py_insert. rewrite py_insert_pos_nat by lia. unfold insert_at. rewrite firstn_all, skipn_all, <- app_assoc. reflexivity.
  Qed.

  Definition shown_ok (f : A -> B) (s : qstate) : Prop :=
    match q_cont s with Some l => q_live s = true /\ q_items s = map f l | None => q_items s = [] end.
  Lemma q_step_ok (f : A -> B) (s : qstate) o : (forall n x, mapf n x = Ok (f x)) -> (forall n b, unmapf n b = None) -> shown_ok f s ->
    let '(s', t, e) := q_step s o in shown_ok f s' /\ (e <> None -> exists i, o = QRemove i /\ e = Some IndexError /\ s' = s).
  Proof.
    intros Hm Hu H. destruct o as [i x|i|c]; cbn [MapFail_Model.q_step].
    - destruct (q_cont s) as [l|] eqn:Ec; [|split; [exact H|congruence]]. unfold shown_ok in H. rewrite Ec in H. destruct H as [Hl Hi].
      rewrite Hl. unfold q_inserted. rewrite Hm. cbn. split; [|congruence]. split; [reflexivity|]. rewrite Hi. symmetry. apply py_insert_map.
    - destruct (q_cont s) as [l|] eqn:Ec; [|split; [exact H|congruence]]. pose proof H as H0. unfold shown_ok in H. rewrite Ec in H. destruct H as [Hl Hi].
      destruct (py_del l i) as [l'|e0] eqn:Ed.
      + rewrite Hl. destruct (q_removed_ok (Qs (Some l') true (q_items s) (q_maps s) (q_unmaps s)) i (map f l') Hu) as (t & n & ->).
        { cbn. rewrite Hi, py_del_map, Ed. reflexivity. }
        cbn. split; [|congruence]. auto.
      + split; [exact H0|]. intros _. exists i. split; [reflexivity|]. split; [|reflexivity]. unfold py_del in Ed. destruct (py_index _ _); congruence.
    - assert (At : forall s0, q_items s0 = [] -> let '(s', t, e) := q_attach mapf s0 c in shown_ok f s' /\ e = None).
      { intros s0 H0. unfold q_attach. destruct c as [l|]; [|split; [exact H0|reflexivity]].
        destruct (q_insert_loop_ok f l (fun n x _ => Hm n x) 0 (Qs (Some l) true (q_items s0) (q_maps s0) (q_unmaps s0))) as (t & n & ->); [cbn; rewrite H0; reflexivity|].
        split; [|reflexivity]. unfold shown_ok. cbn. rewrite H0. auto. }
      unfold q_set_container, shown_ok in *. destruct (q_cont s) as [old|] eqn:Ec.
      + destruct H as [-> Hi]. destruct (q_remove_loop_ok (rev old) Hu (Qs (Some old) false (q_items s) (q_maps s) (q_unmaps s))) as [H1 _].
        cbn [q_items q_cont q_live q_maps] in H1. rewrite Hi, rev_length, map_length, Nat.sub_diag in H1. destruct H1 as (t & n & E); [lia|].
        rewrite Hi, E. cbn [firstn]. specialize (At (Qs (Some old) false [] (q_maps s) n) eq_refl). destruct (q_attach mapf _ c) as [[s2 t2] e2].
        destruct At as [At ->]. split; [exact At|congruence].
      + specialize (At s H). destruct (q_attach mapf s c) as [[s2 t2] e2]. destruct At as [At ->]. split; [exact At|congruence].
  Qed.

  (** ** edits before the items that fail *)
  Lemma filter_firstn (good : A -> bool) k l : forallb good (firstn k l) = true -> filter good l = firstn k l ++ filter good (skipn k l).
  Proof.
    intros H. rewrite <- (firstn_skipn k l) at 1. rewrite filter_app. f_equal. clear -H. induction (firstn k l) as [|y m IH]; [reflexivity|].
    cbn in H. apply andb_prop in H as [H1 H2]. cbn. rewrite H1, IH by exact H2. reflexivity.
  Qed.
  Lemma q_step_before (good : A -> bool) (f : A -> B) (s : qstate) l o :
    (forall n x, mapf n x = if good x then Ok (f x) else Err HandlerError) -> (forall n b, unmapf n b = None) ->
    q_cont s = Some l -> q_live s = true -> q_items s = map f (filter good l) -> before_bad good l o ->
    let '(s', t, e) := q_step s o in q_cont s' = Some (edited l o) /\ q_live s' = true /\ q_items s' = map f (filter good (edited l o)).
  Proof.
    intros Hm Hu Hc Hl Hi Hb. destruct o as [i x|i|c]; cbn [MapFail_Model.q_step before_bad edited] in *; [| |destruct Hb].
    - destruct Hb as (k & -> & Hk & Hg). rewrite Hc, Hl. unfold q_inserted. cbn [q_maps q_items q_cont q_live q_unmaps].
      assert (Ef : filter good (py_insert (Z.of_nat k) x l) = firstn k l ++ (if good x then [x] else []) ++ filter good (skipn k l)).
      { unfold py_insert. rewrite py_insert_pos_nat by exact Hk. unfold insert_at. rewrite filter_app. f_equal.
        - clear -Hg. induction (firstn k l) as [|y m IH]; [reflexivity|]. cbn in *. apply andb_prop in Hg as [H1 H2]. rewrite H1, IH by exact H2. reflexivity.
        - cbn. destruct (good x); reflexivity. }
      rewrite Hm. destruct (good x); cbn; (split; [reflexivity|]); (split; [reflexivity|]); rewrite Ef, Hi, (filter_firstn good k l Hg).
      + unfold py_insert. rewrite py_insert_pos_nat by (rewrite map_length, app_length, firstn_length; lia).
        unfold insert_at. rewrite firstn_map, skipn_map, firstn_app, skipn_app, firstn_length.
        replace (k - Nat.min k (length l)) with 0 by lia. rewrite firstn_O, app_nil_r, firstn_firstn, Nat.min_id.
        rewrite (skipn_all2 (firstn k l)) by (rewrite firstn_length; lia). rewrite skipn_O. cbn [app]. rewrite map_app. reflexivity.
      + reflexivity.
    - destruct Hb as (k & -> & Hk & Hg). rewrite Hc.
      assert (Ed : py_del l (Z.of_nat k) = Ok (delete_at k l)) by (unfold py_del; rewrite py_index_nat by exact Hk; reflexivity). rewrite Ed, Hl.
      assert (Hg' : forallb good (firstn k l) = true).
      { apply forallb_forall. intros y Hy. rewrite forallb_forall in Hg. apply Hg. destruct (nth_error l k) as [z|] eqn:En; [|apply nth_error_None in En; lia].
        apply nth_error_split in En as (l1 & l2 & -> & <-). rewrite firstn_app, Nat.sub_diag, firstn_all, firstn_O, app_nil_r in Hy.
        rewrite firstn_app. apply in_or_app. left. rewrite firstn_all2 by lia. exact Hy. }
      assert (Ef : filter good (delete_at k l) = delete_at k (filter good l)).
      { unfold delete_at. rewrite filter_app, (filter_firstn good (S k) l Hg), firstn_app, skipn_app, firstn_length, firstn_firstn.
        replace (Nat.min k (S k)) with k by lia. replace (k - Nat.min (S k) (length l)) with 0 by lia. rewrite firstn_O, app_nil_r.
        replace (S k - Nat.min (S k) (length l)) with 0 by lia. rewrite skipn_O, (skipn_all2 (firstn (S k) l)) by (rewrite firstn_length; lia). cbn [app].
        f_equal. clear -Hg'. induction (firstn k l) as [|y m IH]; [reflexivity|]. cbn in *. apply andb_prop in Hg' as [H1 H2]. rewrite H1, IH by exact H2. reflexivity. }
      destruct (q_removed_ok (Qs (Some (delete_at k l)) true (q_items s) (q_maps s) (q_unmaps s)) (Z.of_nat k) (map f (filter good (delete_at k l))) Hu) as (t & n & ->).
      { cbn. rewrite Hi, py_del_map. unfold py_del. rewrite py_index_nat; [rewrite Ef; reflexivity|].
        rewrite (filter_firstn good (S k) l Hg), app_length, firstn_length. lia. }
      cbn. auto.
  Qed.
End P.
