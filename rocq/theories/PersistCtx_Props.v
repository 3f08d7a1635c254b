(** Property C73 of PersistentObjectContext. *)
From Coq Require Import ZArith Bool List Lia Arith.
From Verif Require Import PyBase PersistCtx_Model PersistCtx_Spec.
Import ListNotations.

Section Props.
  Context {U : Type} (U_dec : forall x y : U, {x = y} + {x <> y}) (uuid : nat -> U).
  Notation run := (run U_dec uuid). Notation step := (step U_dec uuid).

  Definition wf (c : ctx U) : Prop := NoDup (map fst (c_subs c)) /\ NoDup (map fst (c_objs c)).
  Lemma wf_step c o : wf c -> wf (fst (step c o)).
  Proof.
    intros [W1 W2]. destruct o as [r|r|u s|r]; cbn.
    - split; cbn; [exact W1 | now apply dict_set_nodup].
    - unfold unregister. cbn. destruct (dict_get U_dec (uuid r) (c_objs c)); cbn; split; cbn; auto using dict_del_nodup.
    - unfold subscribe. destruct (get_registered_object U_dec u _); [destruct (s_reg s) |]; cbn; split; cbn; auto using dict_set_nodup.
    - now split.
  Qed.
  Lemma wf_run l c : wf c -> wf (run l c).
  Proof. revert c. induction l as [|o l IH]; intros c W; [exact W |]. cbn. apply IH. now apply wf_step. Qed.
  Lemma wf_make : wf ctx_make. Proof. split; constructor. Qed.

  Lemma is_u_true u r : is_u U_dec uuid u r = true -> uuid r = u.
  Proof. unfold is_u. destruct (U_dec (uuid r) u); congruence. Qed.
  Lemma is_u_false u r : is_u U_dec uuid u r = false -> u <> uuid r.
  Proof. unfold is_u. destruct (U_dec (uuid r) u); congruence. Qed.
  Lemma deref_existing (c : ctx U) w : deref c w = existing (c_dead c) w.
  Proof.
    destruct w as [r|]; [| reflexivity]. cbn. unfold alive. destruct (in_dec Nat.eq_dec r (c_dead c)) as [I|N].
    - replace (existsb (Nat.eqb r) (c_dead c)) with true; [reflexivity |]. symmetry. apply existsb_exists. exists r. split; [exact I |].
      apply Nat.eqb_refl.
    - destruct (existsb (Nat.eqb r) (c_dead c)) eqn:E; [| reflexivity]. apply existsb_exists in E as (x & I & E).
      apply Nat.eqb_eq in E as <-. contradiction.
  Qed.

  Lemma step_obj u c o : wf c -> dict_get U_dec u (c_objs (fst (step c o))) = current1 U_dec uuid u (dict_get U_dec u (c_objs c)) o.
  Proof.
    intros [W1 W2]. destruct o as [r|r|u' s|r]; cbn.
    - rewrite dict_get_set. unfold is_u. destruct (U_dec u (uuid r)), (U_dec (uuid r) u); congruence.
    - unfold unregister. cbn. unfold is_u. destruct (dict_get U_dec (uuid r) (c_objs c)) as [x|] eqn:E; cbn.
      + rewrite dict_get_del by exact W2. destruct (U_dec u (uuid r)), (U_dec (uuid r) u); congruence.
      + destruct (U_dec (uuid r) u) as [<-|]; [exact E | reflexivity].
    - unfold subscribe. destruct (get_registered_object U_dec u' _); [destruct (s_reg s) |]; reflexivity.
    - reflexivity.
  Qed.
  Lemma step_dead c o : c_dead (fst (step c o)) = match o with Die r => r :: c_dead c | _ => c_dead c end.
  Proof.
    destruct o as [r|r|u' s|r]; cbn; try reflexivity.
    - unfold unregister. cbn. now destruct (dict_get U_dec (uuid r) (c_objs c)).
    - unfold subscribe. now destruct (get_registered_object U_dec u' _); [destruct (s_reg s) |].
  Qed.
  Lemma run_dead h c r : In r (c_dead (run h c)) <-> In r (c_dead c) \/ In (Die r) h.
  Proof.
    revert c. induction h as [|o h IH]; intros c; cbn; [tauto |]. fold (run h (fst (step c o))). rewrite IH, step_dead.
    destruct o as [r'|r'|u' s|r']; cbn; intuition congruence.
  Qed.
  Lemma run_dead_in h (c : ctx U) : c_dead (run h c) = dead_in h ++ c_dead c.
  Proof.
    revert c. induction h as [|o h IH]; intros c; [reflexivity |]. cbn. fold (run h (fst (step c o))). rewrite IH, step_dead.
    unfold dead_in. cbn. destruct o; cbn; try reflexivity. now rewrite <- app_assoc.
  Qed.
  Lemma run_obj u h c : wf c -> dict_get U_dec u (c_objs (run h c)) = fold_left (current1 U_dec uuid u) h (dict_get U_dec u (c_objs c)).
  Proof.
    revert c. induction h as [|o h IH]; intros c W; [reflexivity |]. cbn. fold (run h (fst (step c o))).
    rewrite IH by now apply wf_step. now rewrite step_obj.
  Qed.

  (** The registered object of a uuid is the one registered last and not unregistered since, if it still exists. *)
  Theorem ctx_registered (h : list (op U)) (u : U) (r : nat) :
    get_registered_object U_dec u (run h ctx_make) = Some r <-> current U_dec uuid u h = Some r /\ ~ died h r.
  Proof.
    unfold get_registered_object. rewrite run_obj by apply wf_make. cbn [c_objs ctx_make dict_get]. fold (current U_dec uuid u h).
    rewrite deref_existing. unfold died. destruct (current U_dec uuid u h) as [x|]; cbn; [| intuition congruence].
    pose proof (run_dead h ctx_make x) as D. cbn in D.
    destruct (in_dec Nat.eq_dec x (c_dead (run h ctx_make))) as [I|N].
    - split; [discriminate |]. intros [[= <-] X]. tauto.
    - split; [intros [= <-]; tauto | tauto].
  Qed.

  (** ** subscribers *)
  Definition others (id : nat) (l : list sub) : Prop := Forall (fun s => s_id s <> id) l.
  (** [id] is subscribed to [u] only, by [s] *)
  Definition subscribed (u : U) (s : sub) (c : ctx U) : Prop :=
    (exists l1 l2, subs_of U_dec c u = l1 ++ s :: l2 /\ others (s_id s) l1 /\ others (s_id s) l2) /\
    forall u', u' <> u -> others (s_id s) (subs_of U_dec c u').
  Definition unsubscribed (id : nat) (c : ctx U) : Prop := forall u, others id (subs_of U_dec c u).

  Lemma others_reg id l r : others id l -> filter (for_sub id) (flat_map (fun s => if s_reg s then [ToldReg (s_id s) r] else []) l) = [].
  Proof.
    induction 1 as [|s l N _ IH]; [reflexivity |]. cbn [flat_map]. rewrite filter_app, IH, app_nil_r. destruct (s_reg s); [| reflexivity].
    cbn. apply Nat.eqb_neq in N. now rewrite N.
  Qed.
  Lemma others_gone id l o : others id l -> filter (for_sub id) (flat_map (fun s => if s_unreg s then [ToldGone (s_id s) o] else []) l) = [].
  Proof.
    induction 1 as [|s l N _ IH]; [reflexivity |]. cbn [flat_map]. rewrite filter_app, IH, app_nil_r. destruct (s_unreg s); [| reflexivity].
    cbn. apply Nat.eqb_neq in N. now rewrite N.
  Qed.
  Lemma one_reg s l1 l2 r : others (s_id s) l1 -> others (s_id s) l2 ->
    filter (for_sub (s_id s)) (flat_map (fun s => if s_reg s then [ToldReg (s_id s) r] else []) (l1 ++ s :: l2)) = if s_reg s then [ToldReg (s_id s) r] else [].
  Proof.
    intros O1 O2. rewrite flat_map_app. cbn [flat_map]. rewrite !filter_app, others_reg, others_reg, app_nil_r by assumption.
    destruct (s_reg s); [| reflexivity]. cbn. now rewrite Nat.eqb_refl.
  Qed.
  Lemma one_gone s l1 l2 o : others (s_id s) l1 -> others (s_id s) l2 ->
    filter (for_sub (s_id s)) (flat_map (fun s => if s_unreg s then [ToldGone (s_id s) o] else []) (l1 ++ s :: l2)) = if s_unreg s then [ToldGone (s_id s) o] else [].
  Proof.
    intros O1 O2. rewrite flat_map_app. cbn [flat_map]. rewrite !filter_app, others_gone, others_gone, app_nil_r by assumption.
    destruct (s_unreg s); [| reflexivity]. cbn. now rewrite Nat.eqb_refl.
  Qed.

  Lemma subs_of_set c u l u' objs dead log : subs_of U_dec (Ctx (dict_set U_dec u l (c_subs c)) objs dead log) u' = if U_dec u' u then l else subs_of U_dec c u'.
  Proof. unfold subs_of. cbn. rewrite dict_get_set. now destruct (U_dec u' u). Qed.
  Lemma subs_of_del c u u' objs dead log : wf c ->
    subs_of U_dec (Ctx (dict_del U_dec u (c_subs c)) objs dead log) u' = if U_dec u' u then [] else subs_of U_dec c u'.
  Proof. intros [W _]. unfold subs_of. cbn. rewrite dict_get_del by exact W. now destruct (U_dec u' u). Qed.

  (** one step, for a subscriber that is not subscribed *)
  Lemma unsub_step id c o : wf c -> unsubscribed id c -> not_sub id o ->
    unsubscribed id (fst (step c o)) /\ filter (for_sub id) (c_log (fst (step c o))) = filter (for_sub id) (c_log c).
  Proof.
    intros W H N. destruct o as [r|r|u' s|r]; cbn.
    - split; [exact H |]. rewrite !filter_app. cbn. unfold subs_of at 1. cbn. fold (subs_of U_dec c (uuid r)).
      rewrite others_reg by apply H. now rewrite app_nil_r.
    - unfold unregister. cbn. destruct (dict_get U_dec (uuid r) (c_objs c)); cbn; rewrite !filter_app, others_gone by apply H; cbn.
      + split; [| now rewrite app_nil_r]. intros u. rewrite subs_of_del by exact W. destruct (U_dec u (uuid r)); [constructor | apply H].
      + split; [exact H | now rewrite app_nil_r].
    - assert (G : forall log, unsubscribed id (Ctx (dict_set U_dec u' (subs_of U_dec c u' ++ [s]) (c_subs c)) (c_objs c) (c_dead c) log)).
      { intros log u. rewrite subs_of_set. destruct (U_dec u u') as [->|]; [| apply H]. apply Forall_app. split; [apply H |]. now repeat constructor. }
      unfold subscribe. destruct (get_registered_object U_dec u' _) as [r|]; [| now split; [apply G |]]. destruct (s_reg s); [| now split; [apply G |]].
      cbn. split; [apply G |]. rewrite filter_app. cbn in *. apply Nat.eqb_neq in N. now rewrite N, app_nil_r.
    - now split.
  Qed.
  Lemma unsub_run id h c : wf c -> unsubscribed id c -> Forall (not_sub id) h ->
    unsubscribed id (run h c) /\ filter (for_sub id) (c_log (run h c)) = filter (for_sub id) (c_log c).
  Proof.
    intros W H N. revert c W H. induction N as [|o h No _ IH]; intros c W H; [auto |]. cbn. fold (run h (fst (step c o))).
    destruct (unsub_step id c o W H No) as [H1 H2]. rewrite <- H2. apply IH; [now apply wf_step | exact H1].
  Qed.

  Lemma sub_run u s h c : wf c -> subscribed u s c -> Forall (not_sub (s_id s)) h ->
    filter (for_sub (s_id s)) (c_log (run h c)) =
      filter (for_sub (s_id s)) (c_log c) ++ calls U_dec uuid u s (dict_get U_dec u (c_objs c)) (c_dead c) h.
  Proof.
    intros W H N. revert c W H. induction N as [|o h No Nh IH]; intros c W H; [symmetry; apply app_nil_r |].
    change (run (o :: h) c) with (run h (fst (step c o))). pose proof (wf_step c o W) as W'.
    destruct H as [(l1 & l2 & E & O1 & O2) Hu].
    assert (Same : forall objs dead log, (exists l1 l2, subs_of U_dec (Ctx (c_subs c) objs dead log) u = l1 ++ s :: l2 /\ others (s_id s) l1 /\ others (s_id s) l2) /\
                    (forall u', u' <> u -> others (s_id s) (subs_of U_dec (Ctx (c_subs c) objs dead log) u'))).
    { intros objs dead log. split; [exists l1, l2; now repeat split | exact Hu]. }
    destruct o as [r|r|u' s'|r]; cbn [calls].
    - (* register *)
      rewrite IH; [| exact W' | apply Same]. cbn. rewrite !filter_app, dict_get_set. cbn. rewrite app_nil_r, <- app_assoc.
      unfold subs_of at 1. cbn. fold (subs_of U_dec c (uuid r)). f_equal. unfold is_u. destruct (U_dec (uuid r) u) as [Eu|Nu].
      + rewrite Eu, E, one_reg by assumption. destruct (U_dec u u); [reflexivity | congruence].
      + rewrite others_reg by now apply Hu. destruct (U_dec u (uuid r)); [congruence | reflexivity].
    - (* unregister *)
      cbn in *. unfold unregister in *. cbn in *. unfold is_u. destruct (U_dec (uuid r) u) as [Eu|Nu].
      + rewrite Eu in *. rewrite deref_existing in *. destruct (dict_get U_dec u (c_objs c)) as [x|] eqn:X; cbn [fst] in *.
        * assert (Z : unsubscribed (s_id s) (Ctx (dict_del U_dec u (c_subs c)) (dict_del U_dec u (c_objs c)) (c_dead c)
                        (c_log c ++ flat_map (fun s0 => if s_unreg s0 then [ToldGone (s_id s0) (existing (c_dead c) (Some x))] else []) (subs_of U_dec c u) ++
                           [Fired None (existing (c_dead c) (Some x))]))).
          { intros v. rewrite subs_of_del by exact W. destruct (U_dec v u); [constructor | now apply Hu]. }
          destruct (unsub_run (s_id s) h _ W' Z Nh) as [_ ->]. cbn [c_log]. rewrite E, !filter_app, one_gone by assumption. cbn. now rewrite !app_nil_r.
        * rewrite IH; [| exact W' | apply Same]. unfold add_log. cbn. rewrite X, E, !filter_app, one_gone by assumption. cbn. now rewrite app_nil_r, <- app_assoc.
      + destruct (dict_get U_dec (uuid r) (c_objs c)) as [x|] eqn:X; cbn [fst] in *.
        * rewrite IH; [| exact W' |]. 
          -- unfold add_log. cbn. rewrite !filter_app, others_gone by now apply Hu. cbn. rewrite app_nil_r. f_equal. f_equal.
             destruct W as [_ W2]. rewrite dict_get_del by exact W2. destruct (U_dec u (uuid r)); congruence.
          -- split.
             ++ exists l1, l2. rewrite subs_of_del by exact W. destruct (U_dec u (uuid r)); [congruence | now repeat split].
             ++ intros v Nv. rewrite subs_of_del by exact W. destruct (U_dec v (uuid r)); [constructor | now apply Hu].
        * rewrite IH; [| exact W' | apply Same]. unfold add_log. cbn. rewrite !filter_app, others_gone by now apply Hu. cbn. now rewrite app_nil_r.
    - (* subscribe *)
      assert (G : forall objs dead log, subscribed u s (Ctx (dict_set U_dec u' (subs_of U_dec c u' ++ [s']) (c_subs c)) objs dead log)).
      { cbn in No. intros objs dead log. split.
        - rewrite subs_of_set. destruct (U_dec u u') as [->|]; [| exists l1, l2; now repeat split]. exists l1, (l2 ++ [s']). rewrite E, <- app_assoc.
          repeat split; auto. apply Forall_app. split; [exact O2 | now repeat constructor].
        - intros v Nv. rewrite subs_of_set. destruct (U_dec v u') as [->|]; [| now apply Hu]. apply Forall_app. split; [now apply Hu | now repeat constructor]. }
      rewrite IH; [| exact W' |].
      + cbn in *. unfold subscribe in *. destruct (get_registered_object U_dec u' _) as [r|]; [destruct (s_reg s') |]; cbn in *; [| reflexivity | reflexivity].
        rewrite filter_app. cbn. cbn in No. apply Nat.eqb_neq in No. now rewrite No, app_nil_r.
      + cbn. unfold subscribe. destruct (get_registered_object U_dec u' _) as [r|]; [destruct (s_reg s') |]; cbn; apply G.
    - rewrite IH; [reflexivity | exact W' |]. apply Same.
  Qed.

  (** A subscriber is told exactly this: the object at the subscription if it is registered, each later registration,
      and the unregistration, which ends the subscription. *)
  Theorem ctx_subscriber (h1 h2 : list (op U)) (u : U) (s : sub) :
    Forall (not_sub (s_id s)) h1 -> Forall (not_sub (s_id s)) h2 ->
    filter (for_sub (s_id s)) (c_log (run (h1 ++ Subscribe u s :: h2) ctx_make)) =
      first_call s (existing (dead_in h1) (current U_dec uuid u h1)) ++ calls U_dec uuid u s (current U_dec uuid u h1) (dead_in h1) h2.
  Proof.
    intros N1 N2. set (c1 := run h1 ctx_make). replace (dead_in h1) with (c_dead c1) by (unfold c1; rewrite run_dead_in; apply app_nil_r).
 unfold PersistCtx_Model.run at 1. rewrite fold_left_app. fold (run h1 ctx_make). fold c1. cbn [fold_left].
    fold (run h2 (fst (step c1 (Subscribe u s)))).
    pose proof (wf_run h1 ctx_make wf_make) as W. fold c1 in W.
    destruct (unsub_run (s_id s) h1 ctx_make wf_make (fun _ => Forall_nil _) N1) as [Un Lg]. fold c1 in Un, Lg. cbn in Lg.
    pose proof (wf_step c1 (Subscribe u s) W) as W'.
    assert (Cur : dict_get U_dec u (c_objs c1) = current U_dec uuid u h1) by now apply run_obj, wf_make.
    assert (G : forall log, subscribed u s (Ctx (dict_set U_dec u (subs_of U_dec c1 u ++ [s]) (c_subs c1)) (c_objs c1) (c_dead c1) log)).
    { intros log. split.
      - exists (subs_of U_dec c1 u), []. rewrite subs_of_set. destruct (U_dec u u); [| congruence]. repeat split; [apply Un | constructor].
      - intros v Nv. rewrite subs_of_set. destruct (U_dec v u); [congruence | apply Un]. }
    assert (Sb : subscribed u s (fst (step c1 (Subscribe u s)))).
    { cbn. unfold subscribe. destruct (get_registered_object U_dec u _); [destruct (s_reg s) |]; apply G. }
    rewrite (sub_run u s h2 _ W' Sb N2). rewrite step_dead, step_obj by exact W. cbn [current1]. rewrite Cur.
    f_equal. cbn. unfold subscribe.
    set (c2 := Ctx (dict_set U_dec u (subs_of U_dec c1 u ++ [s]) (c_subs c1)) (c_objs c1) (c_dead c1) (c_log c1)).
    replace (get_registered_object U_dec u c2) with (existing (c_dead c1) (current U_dec uuid u h1))
      by (unfold get_registered_object; rewrite deref_existing, <- Cur; reflexivity).
    unfold first_call. destruct (existing (c_dead c1) (current U_dec uuid u h1)) as [r|]; [| exact Lg]. destruct (s_reg s); [| exact Lg].
    cbn. rewrite filter_app, Lg. cbn. now rewrite Nat.eqb_refl.
  Qed.

  (** Once an object with the uuid has been unregistered, the subscriber is never called again, whatever happens. *)
  Theorem ctx_subscription_dropped (h1 h2 h3 : list (op U)) (r : nat) (s : sub) :
    Forall (not_sub (s_id s)) h1 -> Forall (not_sub (s_id s)) h2 -> Forall (not_sub (s_id s)) h3 ->
    let h := h1 ++ Subscribe (uuid r) s :: h2 ++ [Unregister r] in
    current U_dec uuid (uuid r) (h1 ++ Subscribe (uuid r) s :: h2) <> None ->
    filter (for_sub (s_id s)) (c_log (run (h ++ h3) ctx_make)) = filter (for_sub (s_id s)) (c_log (run h ctx_make)).
  Proof.
    intros N1 N2 N3 h H. unfold h. set (u := uuid r) in *.
    replace ((h1 ++ Subscribe u s :: h2 ++ [Unregister r]) ++ h3) with (h1 ++ Subscribe u s :: (h2 ++ Unregister r :: h3))
      by (rewrite <- app_assoc; cbn; now rewrite <- app_assoc).
    rewrite !ctx_subscriber; try assumption; try (apply Forall_app; split; [assumption |]; constructor; [exact I | auto]).
    f_equal. unfold current in *. rewrite fold_left_app in H. cbn [fold_left current1] in H.
    generalize dependent (fold_left (current1 U_dec uuid u) h1 None). generalize (dead_in h1). clear N1 N2 h.
    induction h2 as [|o h2 IH]; intros dead cur H; cbn [app calls].
    - unfold is_u. fold u. destruct (U_dec u u); [| congruence]. cbn in H. destruct cur; [reflexivity | congruence].
    - cbn [fold_left] in H. destruct o as [r'|r'|u' s'|r']; cbn [current1] in H; try (apply IH; exact H).
      + destruct (is_u U_dec uuid u r'); [f_equal |]; apply IH; exact H.
      + destruct (is_u U_dec uuid u r'); [f_equal; destruct cur; [reflexivity |] |]; apply IH; exact H.
  Qed.

  (** registration_event tells of every registration and of every attempt to unregister. *)
  Theorem ctx_event (h : list (op U)) (o : op U) :
    let c := run h ctx_make in
    filter fired (c_log (fst (step c o))) = filter fired (c_log c) ++
      match o with
      | Register r => [Fired (Some r) None]
      | Unregister r => [Fired None (existing (dead_in h) (current U_dec uuid (uuid r) h))]
      | _ => []
      end.
  Proof.
    intros c.
    assert (R : forall l r, filter fired (flat_map (fun s => if s_reg s then [ToldReg (s_id s) r] else []) l) = []).
    { induction l as [|s l IH]; intros r; [reflexivity |]. cbn [flat_map]. rewrite filter_app, IH. now destruct (s_reg s). }
    assert (G : forall l x, filter fired (flat_map (fun s => if s_unreg s then [ToldGone (s_id s) x] else []) l) = []).
    { induction l as [|s l IH]; intros x; [reflexivity |]. cbn [flat_map]. rewrite filter_app, IH. now destruct (s_unreg s). }
    assert (X : forall u, deref c (dict_get U_dec u (c_objs c)) = existing (dead_in h) (current U_dec uuid u h)).
    { intros u. unfold c. rewrite deref_existing, run_dead_in, run_obj by apply wf_make. cbn. now rewrite app_nil_r. }
    destruct o as [r|r|u s|r]; cbn.
    - now rewrite !filter_app, R.
    - unfold unregister. rewrite X. cbn. destruct (dict_get U_dec (uuid r) (c_objs c)); cbn; now rewrite !filter_app, G.
    - rewrite app_nil_r. unfold subscribe. destruct (get_registered_object U_dec u _); [destruct (s_reg s) |]; cbn; try reflexivity.
      now rewrite filter_app, app_nil_r.
    - now rewrite app_nil_r.
  Qed.

  (** unregister raises exactly when nothing with the uuid is registered; subscribe raises exactly when it is given None
      for a registered object, after subscribing all the same. *)
  Theorem ctx_raises (h : list (op U)) (o : op U) :
    let c := run h ctx_make in
    snd (step c o) = match o with
      | Unregister r => if current U_dec uuid (uuid r) h then Ok tt else Err KeyError
      | Subscribe u s => if existing (dead_in h) (current U_dec uuid u h) then (if s_reg s then Ok tt else Err TypeError) else Ok tt
      | _ => Ok tt
      end.
  Proof.
    intros c.
    assert (Y : forall u, dict_get U_dec u (c_objs c) = current U_dec uuid u h) by (intros u; now apply run_obj, wf_make).
    destruct o as [r|r|u s|r]; cbn; try reflexivity.
    - unfold unregister. cbn. rewrite Y. now destruct (current U_dec uuid (uuid r) h).
    - unfold subscribe. set (c2 := Ctx _ _ _ _).
      replace (get_registered_object U_dec u c2) with (existing (dead_in h) (current U_dec uuid u h)).
      + destruct (existing (dead_in h) (current U_dec uuid u h)); [| reflexivity]. now destruct (s_reg s).
      + unfold get_registered_object. rewrite deref_existing. cbn. rewrite Y. unfold c. now rewrite run_dead_in, app_nil_r.
  Qed.
End Props.

(** FINDING: a subscriber that was told of the unregistration is not told when the object is registered again. *)
Theorem ctx_resubscribe_refuted :
  let s := Sub 0 true true in
  let c := run Nat.eq_dec (fun r => r) [Subscribe 5 s; Register 5; Unregister 5; Register 5] ctx_make in
  get_registered_object Nat.eq_dec 5 c = Some 5 /\ filter (for_sub 0) (c_log c) = [ToldReg 0 5; ToldGone 0 (Some 5)].
Proof. split; reflexivity. Qed.

(** two objects 4 and 5 with the same uuid, two subscribers *)
Example ctx_case :
  let uuid r := Nat.div r 2 in   (* objects 4 and 5 have uuid 2 *)
  let c := run Nat.eq_dec uuid [Register 4; Subscribe 2 (Sub 0 true true); Subscribe 2 (Sub 1 true false); Register 5; Die 5; Unregister 4; Register 4] ctx_make in
  filter (for_sub 0) (c_log c) = [ToldReg 0 4; ToldReg 0 5; ToldGone 0 None] /\
  filter (for_sub 1) (c_log c) = [ToldReg 1 4; ToldReg 1 5] /\
  get_registered_object Nat.eq_dec 2 c = Some 4 /\
  snd (step Nat.eq_dec uuid c (Unregister 6)) = Err KeyError.
Proof. repeat split. Qed.

Print Assumptions ctx_registered.
Print Assumptions ctx_subscriber.
Print Assumptions ctx_subscription_dropped.
Print Assumptions ctx_event.
Print Assumptions ctx_raises.
Print Assumptions ctx_resubscribe_refuted.
