(** Proofs about subscribers of a context that use it themselves. *)
From Coq Require Import List Bool Arith Lia.
From Verif Require Import PyBase CtxNet_Model CtxNet_Spec.
Import ListNotations.

Section Proofs.
  Context {U : Type} (U_dec : forall x y : U, {x = y} + {x <> y}) (uuid : nat -> U).
  Notation ctxnet := (ctxnet U).
  Notation xact := (xact U).
  Notation xstep := (xstep U_dec uuid).
  Notation xrun := (xrun U_dec uuid).
  Notation belief := (belief U_dec).
  Notation times := (times U_dec).
  Notation throughout := (throughout U_dec uuid).
  Notation set_at := (set_at U_dec).
  Implicit Types s : ctxnet.

  Lemma set_at_same {X} (f : U -> X) u x : set_at f u x u = x.
  Proof. unfold CtxNet_Model.set_at. destruct (U_dec u u); [reflexivity|congruence]. Qed.
  Lemma set_at_other {X} (f : U -> X) u x v : v <> u -> set_at f u x v = f v.
  Proof. intros H. unfold CtxNet_Model.set_at. destruct (U_dec v u); [congruence|reflexivity]. Qed.
  Lemma belief_from_app b u id l1 l2 : belief_from U_dec b u id (l1 ++ l2) = belief_from U_dec (belief_from U_dec b u id l1) u id l2.
  Proof. revert b. induction l1 as [|c l1 IH]; intros b; simpl; [reflexivity|apply IH]. Qed.
  Lemma belief_snoc u id l c : belief u id (l ++ [c]) = if about U_dec u id c then match snd c with Here r => Some r | Gone _ => None end else belief u id l.
  Proof. unfold CtxNet_Spec.belief. rewrite belief_from_app. simpl. destruct (about U_dec u id c); reflexivity. Qed.
  Lemma about_spec u id u' id' v : about U_dec u id (u', id', v) = true <-> u' = u /\ id' = id.
  Proof. unfold about. simpl. destruct (U_dec u' u); simpl; rewrite ?Nat.eqb_eq; split; intros H; try tauto; try discriminate; destruct H; congruence. Qed.
  Definition worth (v : news) : option nat := match v with Here r => Some r | Gone _ => None end.
  Lemma belief_told u id l u' id' v : belief u id (l ++ [(u', id', v)]) =
    if U_dec u' u then if Nat.eq_dec id' id then worth v else belief u id l else belief u id l.
  Proof.
    rewrite belief_snoc. destruct (about U_dec u id (u', id', v)) eqn:E.
    - apply about_spec in E as [-> ->]. destruct (U_dec u u); [|congruence]. destruct (Nat.eq_dec id id); [reflexivity|congruence].
    - destruct (U_dec u' u) as [->|]; [|reflexivity]. destruct (Nat.eq_dec id' id) as [->|]; [|reflexivity].
      assert (about U_dec u id (u, id, v) = true) by (apply about_spec; auto). congruence.
  Qed.
  Lemma times_app u id v l1 l2 : times u id v (l1 ++ l2) = times u id v l1 + times u id v l2.
  Proof. apply count_occ_app. Qed.
  Lemma times_one u id v u' id' v' : times u id v [(u', id', v')] = if news_dec U_dec (u', id', v') (u, id, v) then 1 else 0.
  Proof. unfold CtxNet_Spec.times. simpl. destruct (news_dec U_dec (u', id', v') (u, id, v)); reflexivity. Qed.

  (** * Mirrors *)
  (** how the state and the frame about [u] fit: all subscribers know what is so or are still to be told *)
  Definition knows (u : U) s (want : option nat) (from : nat) : Prop :=
    forall id, belief u id (x_told s) = (if in_dec Nat.eq_dec id (subscribers u s) then want else None) \/
               (exists j, from <= j /\ nth_error (subscribers u s) j = Some id).
  Definition fits (u : U) s (f : frame U) : Prop :=
    match f with
    | FTell _ v g k => g = x_gen s u /\ k <= length (subscribers u s) /\ knows u s (worth v) k /\
                       match v with Here r => x_objs s u = Some r | Gone o => True end
    | FFire _ v => knows u s (worth v) (length (subscribers u s)) /\ match v with Here r => x_objs s u = Some r | Gone o => True end
    end.
  Definition good (u : U) s : Prop :=
    (idle u s /\ knows u s (x_objs s u) (length (subscribers u s))) \/
    (exists st1 f st2, x_stack s = st1 ++ f :: st2 /\ frame_of f = u /\ (forall f', In f' (st1 ++ st2) -> frame_of f' <> u) /\ fits u s f).

  Lemma knows_ext u s s' want from : (forall id, belief u id (x_told s') = belief u id (x_told s)) -> subscribers u s' = subscribers u s ->
    knows u s want from -> knows u s' want from.
  Proof. intros B S H id. rewrite B, S. apply H. Qed.
  Lemma knows_end u s want : knows u s want (length (subscribers u s)) <->
    forall id, belief u id (x_told s) = if in_dec Nat.eq_dec id (subscribers u s) then want else None.
  Proof.
    split; intros H id; [|left; apply H]. destruct (H id) as [E|(j & L & E)]; [exact E|].
    assert (nth_error (subscribers u s) j <> None) by congruence. apply nth_error_Some in H0. lia.
  Qed.
  Lemma knows_more u s want from from' : from <= from' -> knows u s want from' -> knows u s want from.
  Proof. intros L H id. destruct (H id) as [E|(j & L2 & E)]; [left; exact E|right; exists j; split; [lia|exact E]]. Qed.

  (** a step of a loop *)
  Lemma tell_fields u v g k st s : let s' := tell u v g k st s in
    x_list s' = x_list s /\ x_gen s' = x_gen s /\ x_objs s' = x_objs s /\ x_raised s' = x_raised s.
  Proof. unfold tell. destruct (nth_error (x_list s u g) k); simpl; auto. Qed.
  Lemma tell_fits u v k st s : k <= length (subscribers u s) -> knows u s (worth v) k ->
    (match v with Here r => x_objs s u = Some r | Gone o => True end) ->
    exists f, x_stack (tell u v (x_gen s u) k st s) = f :: st /\ frame_of f = u /\ fits u (tell u v (x_gen s u) k st s) f.
  Proof.
    intros Lk H Hv. unfold tell. fold (subscribers u s). destruct (nth_error (subscribers u s) k) as [id|] eqn:E.
    - eexists. split; [reflexivity|]. split; [reflexivity|]. cbn [fits x_gen x_objs]. split; [reflexivity|]. split; [|split; [|exact Hv]].
      { change (S k <= length (subscribers u s)). assert (N : nth_error (subscribers u s) k <> None) by congruence. apply nth_error_Some in N. lia. }
      intros id'. cbn [x_told]. rewrite belief_told. destruct (U_dec u u) as [_|C]; [|congruence].
      unfold subscribers. cbn [x_list x_gen]. fold (subscribers u s). destruct (Nat.eq_dec id id') as [<-|Hn].
      + left. destruct (in_dec Nat.eq_dec id (subscribers u s)) as [_|C]; [reflexivity|]. exfalso. apply C. eapply nth_error_In. exact E.
      + destruct (H id') as [B|(j & L & Ej)]; [left; exact B|]. right. exists j. split; [|exact Ej].
        destruct (Nat.eq_dec j k) as [->|]; [congruence|lia].
    - eexists. split; [reflexivity|]. split; [reflexivity|]. cbn [fits x_objs]. split; [|exact Hv]. apply nth_error_None in E.
      intros id. destruct (H id) as [B|(j & L & Ej)]; [left; exact B|]. exfalso.
      assert (N : nth_error (subscribers u s) j <> None) by congruence. apply nth_error_Some in N. lia.
  Qed.
  (** a step of a loop about another *)
  Lemma tell_other u u' v g k st s : u' <> u -> let s' := tell u' v g k st s in
    (forall id, belief u id (x_told s') = belief u id (x_told s)) /\ exists f, x_stack s' = f :: st /\ frame_of f = u'.
  Proof.
    intros H. unfold tell. destruct (nth_error (x_list s u' g) k) as [id|]; simpl; split; eauto.
    - intros id'. rewrite belief_told. destruct (U_dec u' u); [congruence|reflexivity].
  Qed.
  Lemma good_frame u s s' : (forall id, belief u id (x_told s') = belief u id (x_told s)) -> subscribers u s' = subscribers u s ->
    x_gen s' u = x_gen s u -> x_objs s' u = x_objs s u -> forall f, fits u s f -> fits u s' f.
  Proof.
    intros B S G O [u' v g k|u' v]; cbn [fits]; rewrite ?S, ?G, ?O.
    - intros (H1 & H0 & H2 & H3). split; [exact H1|]. split; [exact H0|]. split; [|exact H3]. eapply knows_ext; eassumption.
    - intros (H1 & H2). split; [|exact H2]. eapply knows_ext; eassumption.
  Qed.
  (** frames about others come and go *)
  Lemma good_push u s s' f0 : good u s -> (forall id, belief u id (x_told s') = belief u id (x_told s)) -> subscribers u s' = subscribers u s ->
    x_gen s' u = x_gen s u -> x_objs s' u = x_objs s u -> frame_of f0 <> u -> x_stack s' = f0 :: x_stack s -> good u s'.
  Proof.
    intros H B S G O F St. destruct H as [[I Kn]|(st1 & f & st2 & E & Ef & Ei & Fi)].
    - left. split.
      + intros f. rewrite St. intros [<-|Hf]; [exact F|apply I; exact Hf].
      + rewrite O, S. eapply knows_ext; eassumption.
    - right. exists (f0 :: st1), f, st2. split; [rewrite St, E; reflexivity|]. split; [exact Ef|]. split.
      + intros f' [<-|Hf]; [exact F|apply Ei; exact Hf].
      + eapply good_frame; eassumption.
  Qed.
  Lemma good_top u s s' f0 top' st : good u s -> x_stack s = f0 :: st -> frame_of f0 <> u ->
    (forall id, belief u id (x_told s') = belief u id (x_told s)) -> subscribers u s' = subscribers u s ->
    x_gen s' u = x_gen s u -> x_objs s' u = x_objs s u -> (forall f, In f top' -> frame_of f <> u) -> x_stack s' = top' ++ st -> good u s'.
  Proof.
    intros H Es F0 B S G O F St. destruct H as [[I Kn]|(st1 & f & st2 & E & Ef & Ei & Fi)].
    - left. split.
      + intros f. rewrite St. intros Hf. apply in_app_or in Hf as [Hf|Hf]; [apply F; exact Hf|apply I; rewrite Es; right; exact Hf].
      + rewrite O, S. eapply knows_ext; eassumption.
    - rewrite Es in E. destruct st1 as [|g st1]; [injection E as -> ->; tauto|]. injection E as <- ->. right.
      exists (top' ++ st1), f, st2. split; [rewrite St, <- app_assoc; reflexivity|]. split; [exact Ef|]. split.
      + intros f' Hf. rewrite <- app_assoc in Hf. apply in_app_or in Hf as [Hf|Hf]; [apply F; exact Hf|apply Ei; right; exact Hf].
      + eapply good_frame; eassumption.
  Qed.

  Lemma nth_error_snoc {X} (l : list X) x j y : nth_error l j = Some y -> nth_error (l ++ [x]) j = Some y.
  Proof. intros H. rewrite nth_error_app1; [exact H|]. apply nth_error_Some. congruence. Qed.
  Lemma good_step u s a : good u s -> calm uuid u s a -> good u (xstep s a).
  Proof.
    intros H C. destruct a as [r|r|u' id|]; cbn [calm CtxNet_Model.xstep] in *.
    - set (s1 := Cn (x_list s) (x_gen s) (set_at (x_objs s) (uuid r) (Some r)) (x_stack s) (x_told s) (x_raised s)).
      destruct (U_dec (uuid r) u) as [E|E].
      + specialize (C E). destruct H as [[I Kn]|(st1 & f & st2 & Es & Ef & _)].
        2:{ exfalso. apply (C f); [rewrite Es; apply in_or_app; right; left; reflexivity|exact Ef]. }
        right. subst u. set (u := uuid r) in *. change (x_gen s u) with (x_gen s1 u).
        assert (K0 : knows u s1 (worth (Here r)) 0).
        { intros id. change (subscribers u s1) with (subscribers u s). rewrite knows_end in Kn. specialize (Kn id).
          destruct (in_dec Nat.eq_dec id (subscribers u s)) as [Hi|Hi]; [right|left; exact Kn].
          apply In_nth_error in Hi as (j & Hj). exists j. split; [lia|exact Hj]. }
        assert (O1 : x_objs s1 u = Some r). { unfold s1. cbn [x_objs]. apply set_at_same. }
        destruct (tell_fits u (Here r) 0 (x_stack s) s1 (Nat.le_0_l _) K0 O1) as (f & Sf & Ff & Fi).
        exists [], f, (x_stack s). split; [exact Sf|]. split; [exact Ff|]. split; [exact C|exact Fi].
      + destruct (tell_other u (uuid r) (Here r) (x_gen s (uuid r)) 0 (x_stack s) s1 E) as (B & f & Sf & Ff).
        destruct (tell_fields (uuid r) (Here r) (x_gen s (uuid r)) 0 (x_stack s) s1) as (L & G & O & _).
        apply (good_push u s _ f H).
        * exact B.
        * unfold subscribers. rewrite L, G. reflexivity.
        * rewrite G. reflexivity.
        * rewrite O. unfold s1. cbn [x_objs]. apply set_at_other. congruence.
        * congruence.
        * exact Sf.
    - destruct (U_dec (uuid r) u) as [E|E].
      + specialize (C E). destruct H as [[I Kn]|(st1 & f & st2 & Es & Ef & _)].
        2:{ exfalso. apply (C f); [rewrite Es; apply in_or_app; right; left; reflexivity|exact Ef]. }
        right. subst u. set (u := uuid r) in *.
        assert (K0 : knows u s (worth (Gone (x_objs s u))) 0).
        { intros id. rewrite knows_end in Kn. specialize (Kn id).
          destruct (in_dec Nat.eq_dec id (subscribers u s)) as [Hi|Hi]; [right|left; exact Kn].
          apply In_nth_error in Hi as (j & Hj). exists j. split; [lia|exact Hj]. }
        destruct (tell_fits u (Gone (x_objs s u)) 0 (x_stack s) s (Nat.le_0_l _) K0 Logic.I) as (f & Sf & Ff & Fi).
        exists [], f, (x_stack s). split; [exact Sf|]. split; [exact Ff|]. split; [exact C|exact Fi].
      + destruct (tell_other u (uuid r) (Gone (x_objs s (uuid r))) (x_gen s (uuid r)) 0 (x_stack s) s E) as (B & f & Sf & Ff).
        destruct (tell_fields (uuid r) (Gone (x_objs s (uuid r))) (x_gen s (uuid r)) 0 (x_stack s) s) as (L & G & O & _).
        apply (good_push u s _ f H); try exact B; try exact Sf; try congruence.
        unfold subscribers. rewrite L, G. reflexivity.
    - set (s' := Cn _ _ _ _ _ _). destruct (U_dec u' u) as [->|E].
      + specialize (C eq_refl).
        assert (Sub : subscribers u s' = subscribers u s ++ [id]).
        { unfold subscribers, s'. cbn [x_list x_gen]. rewrite set_at_same. destruct (Nat.eq_dec (x_gen s u) (x_gen s u)); [reflexivity|congruence]. }
        assert (Bel : forall id', belief u id' (x_told s') = if Nat.eq_dec id id' then match x_objs s u with Some r => Some r | None => belief u id' (x_told s) end else belief u id' (x_told s)).
        { intros id'. unfold s'. cbn [x_told]. destruct (x_objs s u) as [r|]; [|destruct (Nat.eq_dec id id'); reflexivity]. rewrite belief_told.
          destruct (U_dec u u); [|congruence]. reflexivity. }
        assert (IN : forall id', In id' (subscribers u s ++ [id]) <-> In id' (subscribers u s) \/ id' = id).
        { intros id'. rewrite in_app_iff. simpl. intuition. }
        destruct H as [[I Kn]|(st1 & f & st2 & Es & Ef & Ei & Fi)].
        * left. split; [exact I|]. rewrite knows_end in Kn |- *. intros id'. rewrite Bel, Sub. change (x_objs s' u) with (x_objs s u).
          specialize (Kn id'). destruct (in_dec Nat.eq_dec id' (subscribers u s ++ [id])) as [Hi|Hi], (in_dec Nat.eq_dec id' (subscribers u s)) as [Hj|Hj], (Nat.eq_dec id id') as [Hd|Hd];
            rewrite ?IN in Hi; try (exfalso; intuition congruence); destruct (x_objs s u); auto; congruence.
        * right. exists st1, f, st2. split; [exact Es|]. split; [exact Ef|]. split; [exact Ei|].
          destruct f as [u0 v g k|u0 v]; cbn [frame_of] in Ef; subst u0; cbn [fits] in *.
          -- destruct Fi as (G & Lk & Kn & Hv). split; [exact G|]. split; [rewrite Sub, app_length; lia|]. split; [|exact Hv]. intros id'. rewrite Bel, Sub.
             destruct (Nat.eq_dec id id') as [<-|Hd].
             { destruct v as [r|o].
               - rewrite Hv. left. cbn [worth]. destruct (in_dec Nat.eq_dec id (subscribers u s ++ [id])) as [_|Hi]; [reflexivity|]. exfalso. apply Hi, IN. auto.
               - right. exists (length (subscribers u s)). split; [exact Lk|]. rewrite nth_error_app2, Nat.sub_diag by lia. reflexivity. }
             { destruct (Kn id') as [B|(j & L & Ej)]; [left|right; exists j; split; [exact L|apply nth_error_snoc; exact Ej]].
               rewrite B. destruct (in_dec Nat.eq_dec id' (subscribers u s)) as [Hj|Hj], (in_dec Nat.eq_dec id' (subscribers u s ++ [id])) as [Hi|Hi]; rewrite ?IN in Hi; try reflexivity; exfalso; intuition congruence. }
          -- destruct v as [r|o].
             2:{ exfalso. apply C. exists o. rewrite Es. apply in_or_app. right. left. reflexivity. }
             destruct Fi as (Kn & Hv). split; [|exact Hv]. rewrite knows_end in Kn. apply knows_end. intros id'. rewrite Bel, Sub, Hv. specialize (Kn id').
             cbn [worth] in *.
             destruct (in_dec Nat.eq_dec id' (subscribers u s ++ [id])) as [Hi|Hi], (in_dec Nat.eq_dec id' (subscribers u s)) as [Hj|Hj], (Nat.eq_dec id id') as [Hd|Hd];
               rewrite ?IN in Hi; try (exfalso; intuition congruence); auto.
      + assert (Sub : subscribers u s' = subscribers u s).
        { unfold subscribers, s'. cbn [x_list x_gen]. rewrite set_at_other by congruence. reflexivity. }
        assert (B : forall id', belief u id' (x_told s') = belief u id' (x_told s)).
        { intros id'. unfold s'. cbn [x_told]. destruct (x_objs s u'); [|reflexivity]. rewrite belief_told. destruct (U_dec u' u); [congruence|reflexivity]. }
        destruct H as [[I Kn]|(st1 & f & st2 & Es & Ef & Ei & Fi)].
        * left. split; [exact I|]. rewrite Sub. change (x_objs s' u) with (x_objs s u). eapply knows_ext; eassumption.
        * right. exists st1, f, st2. split; [exact Es|]. split; [exact Ef|]. split; [exact Ei|]. eapply good_frame; try eassumption; reflexivity.
    - destruct (x_stack s) as [|f0 st] eqn:Es; [exact H|]. destruct (U_dec (frame_of f0) u) as [E|E].
      + assert (F : (forall f', In f' st -> frame_of f' <> u) /\ fits u s f0).
        { destruct H as [[I Kn]|(st1 & f & st2 & Es2 & Ef & Ei & Fi)].
          - exfalso. apply (I f0); [rewrite Es; left; reflexivity|exact E].
          - rewrite Es in Es2. destruct st1 as [|g st1].
            + injection Es2 as <- <-. auto.
            + injection Es2 as <- ->. exfalso. apply (Ei f0); [left; reflexivity|exact E]. }
        destruct F as [Ei Fi]. destruct f0 as [u0 v g k|u0 v]; cbn [frame_of] in E; subst u0; cbn [fits] in Fi.
        * destruct Fi as (-> & Lk & Kn & Hv). destruct (tell_fits u v k st s Lk Kn Hv) as (f & Sf & Ff & Fi). right.
          exists [], f, st. split; [exact Sf|]. split; [exact Ff|]. split; [exact Ei|exact Fi].
        * destruct Fi as (Kn & Hv). destruct v as [r|o].
          -- left. split; [exact Ei|]. cbn [x_objs]. rewrite Hv. exact Kn.
          -- rewrite knows_end in Kn. destruct (x_objs s u) as [r|] eqn:O; left; (split; [exact Ei|]); apply knows_end; intros id; specialize (Kn id); cbn [worth] in Kn.
             ++ unfold subscribers. cbn [x_told x_objs x_list x_gen]. rewrite !set_at_same.
                destruct (in_dec Nat.eq_dec id (x_list s u (S (x_gen s u)))), (in_dec Nat.eq_dec id (subscribers u s)); exact Kn.
             ++ cbn [x_told x_objs]. rewrite O. exact Kn.
      + destruct f0 as [u0 v g k|u0 v]; cbn [frame_of] in E.
        * destruct (tell_other u u0 v g k st s E) as (B & f & Sf & Ff). destruct (tell_fields u0 v g k st s) as (L & G & O & _).
          apply (good_top u s _ _ [f] st H Es E B); try congruence.
          -- unfold subscribers. rewrite L, G. reflexivity.
          -- intros f' [<-|[]]. congruence.
          -- exact Sf.
        * destruct v as [r|o].
          -- apply (good_top u s _ _ [] st H Es E); try reflexivity. intros f [].
          -- destruct (x_objs s u0) as [r|] eqn:O; apply (good_top u s _ _ [] st H Es E); try reflexivity; try (intros f []).
             ++ unfold subscribers. cbn [x_list x_gen]. rewrite set_at_other by congruence. reflexivity.
             ++ cbn [x_gen]. apply set_at_other. congruence.
             ++ cbn [x_objs]. apply set_at_other. congruence.
  Qed.

  Lemma good_run u h s : good u s -> throughout (calm uuid u) s h -> good u (xrun h s).
  Proof. revert s. induction h as [|a h IH]; intros s H T; [exact H|]. destruct T as [C T]. simpl. apply IH; [|exact T]. apply good_step; assumption. Qed.
  Lemma good_new u : good u x_new.
  Proof. left. split; [intros f []|]. apply knows_end. reflexivity. Qed.
  Lemma good_idle u s : good u s -> idle u s -> forall id, belief u id (x_told s) = if in_dec Nat.eq_dec id (subscribers u s) then x_objs s u else None.
  Proof.
    intros [[_ K]|(st1 & f & st2 & E & Ef & _)] I; [apply knows_end; exact K|].
    exfalso. apply (I f); [rewrite E; apply in_or_app; right; left; reflexivity|exact Ef].
  Qed.

  (** * One use of the context, with whatever happens within it *)
  Lemma tell_told u v g k st s : exists l, x_told (tell u v g k st s) = x_told s ++ l /\
    l = match nth_error (x_list s u g) k with Some id => [(u, id, v)] | None => [] end.
  Proof. unfold tell. destruct (nth_error (x_list s u g) k); simpl; eexists; split; try reflexivity. rewrite app_nil_r. reflexivity. Qed.
  Lemma step_told s a : exists l, x_told (xstep s a) = x_told s ++ l.
  Proof.
    destruct a as [r|r|u id|]; cbn [CtxNet_Model.xstep].
    - edestruct tell_told as (l & E & _). rewrite E. cbn [x_told]. eauto.
    - edestruct tell_told as (l & E & _). rewrite E. eauto.
    - cbn [x_told]. destruct (x_objs s u); [eauto|exists []; rewrite app_nil_r; reflexivity].
    - destruct (x_stack s) as [|[u v g k|u [r|o]] st]; try (exists []; rewrite app_nil_r; reflexivity).
      + edestruct tell_told as (l & E & _). rewrite E. eauto.
      + destruct (x_objs s u); exists []; rewrite app_nil_r; reflexivity.
  Qed.
  Lemma step_list s a u g : exists l, x_list (xstep s a) u g = x_list s u g ++ l.
  Proof.
    destruct a as [r|r|u' id|]; cbn [CtxNet_Model.xstep].
    - match goal with |- context [tell ?u ?v ?g ?k ?st ?s] => destruct (tell_fields u v g k st s) as (L & _) end. rewrite L. exists []. rewrite app_nil_r. reflexivity.
    - match goal with |- context [tell ?u ?v ?g ?k ?st ?s] => destruct (tell_fields u v g k st s) as (L & _) end. rewrite L. exists []. rewrite app_nil_r. reflexivity.
    - cbn [x_list]. unfold CtxNet_Model.set_at. destruct (U_dec u u') as [->|]; [|exists []; rewrite app_nil_r; reflexivity].
      destruct (Nat.eq_dec g (x_gen s u')); [eauto|exists []; rewrite app_nil_r; reflexivity].
    - destruct (x_stack s) as [|[u' v g' k|u' [r|o]] st]; try (exists []; rewrite app_nil_r; reflexivity).
      + destruct (tell_fields u' v g' k st s) as (L & _). rewrite L. exists []. rewrite app_nil_r. reflexivity.
      + destruct (x_objs s u'); exists []; rewrite app_nil_r; reflexivity.
  Qed.
  Lemma tell_stack u v g k st s : exists f, x_stack (tell u v g k st s) = f :: st /\
    f = match nth_error (x_list s u g) k with Some id => FTell u v g (S k) | None => FFire u v end.
  Proof. unfold tell. destruct (nth_error (x_list s u g) k); simpl; eauto. Qed.

  Lemma firstn_S {X} (l : list X) k x : nth_error l k = Some x -> firstn (S k) l = firstn k l ++ [x].
  Proof. revert k. induction l as [|y l IH]; intros [|k] H; try discriminate; simpl in *; [congruence|]. f_equal. apply IH. exact H. Qed.

  (** where the use that began on [st] is, [L] the subscribers it began with, [t] what was told before *)
  Definition under (u : U) (v : news) (g : nat) (L : list nat) (st : list (frame U)) (t : list (U * nat * news)) s : Prop :=
    exists top f extra more, x_stack s = top ++ f :: st /\ x_told s = t ++ extra /\ x_list s u g = L ++ more /\
      match f with
      | FTell u' v' g' k => u' = u /\ v' = v /\ g' = g /\ forall id, count_occ Nat.eq_dec (firstn k L) id <= times u id v extra
      | FFire u' v' => u' = u /\ v' = v /\ forall id, count_occ Nat.eq_dec L id <= times u id v extra
      end.
  Lemma under_tell u v g k L st t s : 
    (exists extra more, x_told s = t ++ extra /\ x_list s u g = L ++ more /\ forall id, count_occ Nat.eq_dec (firstn k L) id <= times u id v extra) ->
    under u v g L st t (tell u v g k st s).
  Proof.
    intros (extra & more & T & Li & H). unfold tell. rewrite Li. destruct (nth_error (L ++ more) k) as [id|] eqn:E.
    - exists [], (FTell u v g (S k)), (extra ++ [(u, id, v)]), more. cbn [x_stack x_told x_list]. split; [reflexivity|]. split; [rewrite T, app_assoc; reflexivity|].
      split; [exact Li|]. split; [reflexivity|]. split; [reflexivity|]. split; [reflexivity|]. intros id'. rewrite times_app, times_one. specialize (H id').
      destruct (Nat.lt_ge_cases k (length L)) as [Lk|Lk].
      + rewrite nth_error_app1 in E by exact Lk. rewrite (firstn_S _ _ _ E), count_occ_app. cbn [count_occ].
        destruct (news_dec U_dec (u, id, v) (u, id', v)) as [Q|Q], (Nat.eq_dec id id') as [R|R]; try congruence; lia.
      + rewrite firstn_all2 in H |- * by lia. lia.
    - exists [], (FFire u v), extra, more. cbn [x_stack x_told x_list]. split; [reflexivity|]. split; [exact T|]. split; [exact Li|]. split; [reflexivity|]. split; [reflexivity|].
      apply nth_error_None in E. rewrite app_length in E. rewrite firstn_all2 in H by lia. exact H.
  Qed.
  Lemma times_more u id v l1 l2 n : n <= times u id v l1 -> n <= times u id v (l1 ++ l2).
  Proof. rewrite times_app. lia. Qed.
  Lemma under_other u v g L st t s a top' : under u v g L st t s ->
    (forall top f, x_stack s = top ++ f :: st -> x_stack (xstep s a) = top' top ++ f :: st) -> under u v g L st t (xstep s a).
  Proof.
    intros (top & f & extra & more & S & T & Li & F) Hs. destruct (step_told s a) as (l & El). destruct (step_list s a u g) as (m & Em).
    exists (top' top), f, (extra ++ l), (more ++ m). split; [apply Hs; exact S|]. split; [rewrite El, T, app_assoc; reflexivity|].
    split; [rewrite Em, Li, app_assoc; reflexivity|]. destruct f as [u' v' g' k|u' v'].
    - destruct F as (? & ? & ? & F). repeat split; auto. intros id. apply times_more, F.
    - destruct F as (? & ? & F). repeat split; auto. intros id. apply times_more, F.
  Qed.
  Lemma under_step u v g L st t s a : under u v g L st t s -> under u v g L st t (xstep s a) \/
    (x_stack (xstep s a) = st /\ exists extra, x_told (xstep s a) = t ++ extra /\ forall id, count_occ Nat.eq_dec L id <= times u id v extra).
  Proof.
    intros H. destruct a as [r|r|u' id|].
    - left. cbn [CtxNet_Model.xstep]. match goal with |- under _ _ _ _ _ _ (tell ?u ?v ?g ?k ?st ?s) => destruct (tell_stack u v g k st s) as (f0 & E & _) end.
      apply (under_other u v g L st t s (XRegister r) (fun top => f0 :: top) H). intros top f S. cbn [CtxNet_Model.xstep]. rewrite E, S. reflexivity.
    - left. cbn [CtxNet_Model.xstep]. match goal with |- under _ _ _ _ _ _ (tell ?u ?v ?g ?k ?st ?s) => destruct (tell_stack u v g k st s) as (f0 & E & _) end.
      apply (under_other u v g L st t s (XUnregister r) (fun top => f0 :: top) H). intros top f S. cbn [CtxNet_Model.xstep]. rewrite E, S. reflexivity.
    - left. apply (under_other u v g L st t s (XSubscribe u' id) (fun top => top) H). intros top f S. exact S.
    - destruct H as (top & f & extra & more & S & T & Li & F). destruct top as [|f0 top].
      + cbn [CtxNet_Model.xstep]. rewrite S. cbn [app]. destruct f as [u' v' g' k|u' v'].
        * destruct F as (-> & -> & -> & F). left. apply under_tell. exists extra, more. auto.
        * destruct F as (-> & -> & F). right. destruct v as [r|o]; [|destruct (x_objs s u)]; cbn [x_stack x_told]; split; eauto.
      + left. assert (Hu : under u v g L st t s) by (exists (f0 :: top), f, extra, more; auto).
        destruct f0 as [u0 v0 g0 k0|u0 v0].
        * destruct (tell_stack u0 v0 g0 k0 (top ++ f :: st) s) as (f1 & E & _).
          apply (under_other u v g L st t s XGo (fun tp => f1 :: tl tp) Hu). intros tp f' S'. cbn [CtxNet_Model.xstep].
          rewrite S in S'. rewrite S. cbn [app]. rewrite E. destruct tp as [|f2 tp].
          -- exfalso. injection S' as _ S'. apply (f_equal (@length _)) in S'. rewrite app_length in S'. simpl in S'. lia.
          -- simpl in *. injection S' as _ S'. rewrite S'. reflexivity.
        * apply (under_other u v g L st t s XGo (fun tp => tl tp) Hu). intros tp f' S'. cbn [CtxNet_Model.xstep].
          rewrite S in S'. rewrite S. cbn [app]. assert (R : top ++ f :: st = tl tp ++ f' :: st).
          { destruct tp as [|f2 tp].
            - exfalso. injection S' as _ S'. apply (f_equal (@length _)) in S'. rewrite app_length in S'. simpl in S'. lia.
            - simpl in *. injection S' as _ S'. exact S'. }
          destruct v0 as [r|o]; [exact R|]. destruct (x_objs s u0); exact R.
  Qed.
  Lemma under_busy u v g L st t s : under u v g L st t s -> length st < length (x_stack s).
  Proof. intros (top & f & extra & more & S & _). rewrite S, app_length. simpl. lia. Qed.
  Lemma under_run u v g L st t h : forall s, under u v g L st t s -> runs_until U_dec uuid (length st) s h ->
    x_stack (xrun h s) = st /\ exists extra, x_told (xrun h s) = t ++ extra /\ forall id, count_occ Nat.eq_dec L id <= times u id v extra.
  Proof.
    induction h as [|a h IH]; intros s H [T E].
    - apply under_busy in H. simpl in E. unfold busy in *. lia.
    - destruct T as [B T]. destruct (under_step u v g L st t s a H) as [H'|(E1 & E2)].
      + apply IH; [exact H'|]. split; [exact T|exact E].
      + destruct h as [|b h]; [split; [exact E1|exact E2]|]. exfalso. destruct T as [B' _]. unfold busy in B'. rewrite E1 in B'. lia.
  Qed.
End Proofs.
