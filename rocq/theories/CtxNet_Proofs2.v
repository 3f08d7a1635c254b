(** Proofs about uses of a context within which the same uuid is left alone. *)
From Coq Require Import List Bool Arith Lia.
From Verif Require Import PyBase CtxNet_Model CtxNet_Spec CtxNet_Proofs.
Import ListNotations.

Section Proofs2.
  Context {U : Type} (U_dec : forall x y : U, {x = y} + {x <> y}) (uuid : nat -> U).
  Notation ctxnet := (ctxnet U).
  Notation xact := (xact U).
  Notation xstep := (xstep U_dec uuid).
  Notation xrun := (xrun U_dec uuid).
  Notation set_at := (set_at U_dec).
  Notation concerning := (concerning U_dec).
  Implicit Types s : ctxnet.

  (** lists to come are empty *)
  Definition fresh s : Prop := forall u g, x_gen s u < g -> x_list s u g = [].
  Lemma fresh_step s a : fresh s -> fresh (xstep s a).
  Proof.
    intros H. destruct a as [r|r|u id|]; cbn [CtxNet_Model.xstep]; unfold fresh.
    - match goal with |- context [tell ?u ?v ?g ?k ?st ?s] => destruct (tell_fields u v g k st s) as (L & G & _) end. rewrite L, G. exact H.
    - match goal with |- context [tell ?u ?v ?g ?k ?st ?s] => destruct (tell_fields u v g k st s) as (L & G & _) end. rewrite L, G. exact H.
    - cbn [x_gen x_list]. intros u' g Hg. unfold CtxNet_Model.set_at. destruct (U_dec u' u) as [->|]; [|apply H; exact Hg].
      destruct (Nat.eq_dec g (x_gen s u)); [lia|apply H; exact Hg].
    - destruct (x_stack s) as [|[u' v g' k|u' [r|o]] st]; try exact H.
      + destruct (tell_fields u' v g' k st s) as (L & G & _). rewrite L, G. exact H.
      + destruct (x_objs s u'); [|exact H]. cbn [x_gen x_list]. intros w g. unfold CtxNet_Model.set_at. destruct (U_dec w u') as [->|]; intros Hg; apply H; lia.
  Qed.
  Lemma fresh_run h s : fresh s -> fresh (xrun h s).
  Proof. revert s. induction h as [|a h IH]; intros s H; [exact H|]. simpl. apply IH, fresh_step, H. Qed.
  Lemma reached_fresh s : reached U_dec uuid s -> fresh s.
  Proof. intros (h & ->). apply fresh_run. intros u g _. reflexivity. Qed.

  Lemma concerning_app u l1 l2 : concerning u (l1 ++ l2) = concerning u l1 ++ concerning u l2.
  Proof. apply filter_app. Qed.
  Lemma concerning_one u u' id v : concerning u [(u', id, v)] = if U_dec u' u then [(u', id, v)] else [].
  Proof. unfold CtxNet_Spec.concerning. simpl. destruct (U_dec u' u); reflexivity. Qed.

  Lemma nth_split_skip {X} (l : list X) k x : nth_error l k = Some x -> skipn k l = x :: skipn (S k) l.
  Proof. revert k. induction l as [|y l IH]; intros [|k] H; try discriminate; simpl in *; [congruence|]. apply IH. exact H. Qed.
  (** nothing about [u] changes *)
  Definition apart (u : U) s s' : Prop :=
    (forall g, x_list s' u g = x_list s u g) /\ x_gen s' u = x_gen s u /\ x_objs s' u = x_objs s u /\
    exists l, x_told s' = x_told s ++ l /\ concerning u l = [].
  Lemma tell_apart u u' v g k st s : u' <> u -> apart u s (tell u' v g k st s).
  Proof.
    intros H. destruct (tell_fields u' v g k st s) as (L & G & O & _). destruct (tell_told u' v g k st s) as (l & T & E).
    split; [intros ?; rewrite L; reflexivity|]. split; [rewrite G; reflexivity|]. split; [rewrite O; reflexivity|]. exists l. split; [exact T|].
    rewrite E. destruct (nth_error _ _); [rewrite concerning_one; destruct (U_dec u' u); [congruence|]|]; reflexivity.
  Qed.
  (** the use that began on [st] with the list [L], [o] what is registered, [t] what was told before *)
  Definition alone (u : U) (v : news) (g : nat) (L : list nat) (o : option nat) (st : list (frame U)) (t : list (U * nat * news)) s : Prop :=
    exists top f extra, x_stack s = top ++ f :: st /\ (forall f', In f' top -> frame_of f' <> u) /\ x_told s = t ++ extra /\
      x_list s u g = L /\ x_gen s u = g /\ x_objs s u = o /\
      match f with
      | FTell u' v' g' k => u' = u /\ v' = v /\ g' = g /\ concerning u extra = map (fun id => (u, id, v)) (firstn k L)
      | FFire u' v' => u' = u /\ v' = v /\ concerning u extra = map (fun id => (u, id, v)) L
      end.
  Lemma alone_apart u v g L o st t s s' top f extra top' :
    x_stack s = top ++ f :: st -> x_told s = t ++ extra -> x_list s u g = L -> x_gen s u = g -> x_objs s u = o ->
    match f with
    | FTell u' v' g' k => u' = u /\ v' = v /\ g' = g /\ concerning u extra = map (fun id => (u, id, v)) (firstn k L)
    | FFire u' v' => u' = u /\ v' = v /\ concerning u extra = map (fun id => (u, id, v)) L
    end -> apart u s s' -> x_stack s' = top' ++ f :: st -> (forall f', In f' top' -> frame_of f' <> u) -> alone u v g L o st t s'.
  Proof.
    intros S T Li G O F (A1 & A2 & A3 & l & A4 & A5) S' Hn. exists top', f, (extra ++ l).
    split; [exact S'|]. split; [exact Hn|]. split; [rewrite A4, T, app_assoc; reflexivity|]. split; [rewrite A1; exact Li|]. split; [rewrite A2; exact G|].
    split; [rewrite A3; exact O|]. rewrite concerning_app, A5, app_nil_r. exact F.
  Qed.
  Lemma alone_tell u v g k L o st t s extra : x_told s = t ++ extra -> x_list s u g = L -> x_gen s u = g -> x_objs s u = o ->
    concerning u extra = map (fun id => (u, id, v)) (firstn k L) -> alone u v g L o st t (tell u v g k st s).
  Proof.
    intros T Li G O C. unfold tell. rewrite Li. destruct (nth_error L k) as [id|] eqn:E.
    - exists [], (FTell u v g (S k)), (extra ++ [(u, id, v)]). cbn [x_stack x_told x_list x_gen x_objs]. repeat split; auto.
      + rewrite T, app_assoc. reflexivity.
      + rewrite concerning_app, C, concerning_one, (firstn_S _ _ _ E), map_app. destruct (U_dec u u); [reflexivity|congruence].
    - exists [], (FFire u v), extra. cbn [x_stack x_told x_list x_gen x_objs]. apply nth_error_None in E. rewrite firstn_all2 in C by lia. repeat split; auto.
  Qed.
  Definition ended (u : U) (v : news) (g : nat) (L : list nat) (o : option nat) (t : list (U * nat * news)) s : Prop :=
    (exists extra, x_told s = t ++ extra /\ concerning u extra = map (fun id => (u, id, v)) L) /\
    match v, o with
    | Here _, _ => x_objs s u = o /\ subscribers u s = L
    | Gone _, Some _ => x_objs s u = None /\ subscribers u s = []
    | Gone _, None => x_objs s u = None /\ subscribers u s = L /\ exists e, x_raised s = e ++ [KeyError]
    end.
  Lemma tl_same {X} (top : list X) f0 f st tp f' : (f0 :: top) ++ f :: st = tp ++ f' :: st -> top ++ f :: st = tl tp ++ f' :: st.
  Proof.
    intros S'. destruct tp as [|f2 tp].
    - exfalso. injection S' as _ S'. apply (f_equal (@length _)) in S'. rewrite app_length in S'. simpl in S'. lia.
    - simpl in *. injection S' as _ S'. exact S'.
  Qed.
  Lemma alone_step u v g L o st t s a : fresh s -> alone u v g L o st t s -> leaves uuid u a -> alone u v g L o st t (xstep s a) \/
    (x_stack (xstep s a) = st /\ ended u v g L o t (xstep s a)).
  Proof.
    intros Fr (top & f & extra & S & Hn & T & Li & G & O & F) Lv. destruct a as [r|r|u' id|]; cbn [leaves] in Lv.
    - left. set (s1 := Cn (x_list s) (x_gen s) (set_at (x_objs s) (uuid r) (Some r)) (x_stack s) (x_told s) (x_raised s)).
      change (xstep s (XRegister r)) with (tell (uuid r) (Here r) (x_gen s (uuid r)) 0 (x_stack s) s1).
      destruct (tell_stack (uuid r) (Here r) (x_gen s (uuid r)) 0 (x_stack s) s1) as (f0 & E & Ef).
      pose proof (tell_apart u (uuid r) (Here r) (x_gen s (uuid r)) 0 (x_stack s) s1 Lv) as A.
      apply (alone_apart u v g L o st t s1 _ top f extra (f0 :: top) S T Li G).
      + unfold s1. cbn [x_objs]. rewrite set_at_other by congruence. exact O.
      + exact F.
      + exact A.
      + rewrite E, S. reflexivity.
      + intros f' [<-|Hf]; [|apply Hn; exact Hf]. rewrite Ef. destruct (nth_error _ _); exact Lv.
    - left. cbn [CtxNet_Model.xstep]. set (v0 := Gone (x_objs s (uuid r))).
      destruct (tell_stack (uuid r) v0 (x_gen s (uuid r)) 0 (x_stack s) s) as (f0 & E & Ef).
      pose proof (tell_apart u (uuid r) v0 (x_gen s (uuid r)) 0 (x_stack s) s Lv) as A.
      apply (alone_apart u v g L o st t s _ top f extra (f0 :: top) S T Li G O F A).
      + rewrite E, S. reflexivity.
      + intros f' [<-|Hf]; [|apply Hn; exact Hf]. rewrite Ef. destruct (nth_error _ _); exact Lv.
    - left. apply (alone_apart u v g L o st t s _ top f extra top S T Li G O F); [|exact S|exact Hn].
      cbn [CtxNet_Model.xstep]. split; [intros g'; cbn [x_list]; rewrite set_at_other by congruence; reflexivity|].
      split; [reflexivity|]. split; [reflexivity|]. cbn [x_told]. destruct (x_objs s u') as [r|].
      + eexists. split; [reflexivity|]. rewrite concerning_one. destruct (U_dec u' u); [congruence|reflexivity].
      + exists []. rewrite app_nil_r. split; reflexivity.
    - destruct top as [|f0 top].
      + cbn [CtxNet_Model.xstep]. rewrite S. cbn [app]. destruct f as [u' v' g' k|u' v'].
        * destruct F as (-> & -> & -> & F). left. eapply alone_tell; eassumption.
        * destruct F as (-> & -> & F). right. unfold ended. destruct v as [r|o'].
          -- cbn [x_stack x_told x_objs]. split; [reflexivity|]. split; [exists extra; auto|]. split; [exact O|]. unfold subscribers. cbn [x_list x_gen]. rewrite G. exact Li.
          -- rewrite O. destruct o as [r|]; cbn [x_stack x_told x_objs]; (split; [reflexivity|]); (split; [exists extra; auto|]).
             ++ split; [apply set_at_same|]. unfold subscribers. cbn [x_list x_gen]. rewrite set_at_same. apply Fr. lia.
             ++ split; [exact O|]. split; [unfold subscribers; cbn [x_list x_gen]; rewrite G; exact Li|]. cbn [x_raised]. eauto.
      + left. assert (N0 : frame_of f0 <> u) by (apply Hn; left; reflexivity). assert (Nt : forall f', In f' top -> frame_of f' <> u) by (intros f' Hf; apply Hn; right; exact Hf).
        cbn [CtxNet_Model.xstep]. rewrite S. cbn [app]. destruct f0 as [u0 v0 g0 k0|u0 v0]; cbn [frame_of] in N0.
        * destruct (tell_stack u0 v0 g0 k0 (top ++ f :: st) s) as (f1 & E & Ef).
          apply (alone_apart u v g L o st t s _ (FTell u0 v0 g0 k0 :: top) f extra (f1 :: top) S T Li G O F); [apply tell_apart; exact N0|rewrite E; reflexivity|].
          intros f' [<-|Hf]; [|apply Nt; exact Hf]. rewrite Ef. destruct (nth_error _ _); exact N0.
        * assert (Z : forall s', apart u s s' -> x_stack s' = top ++ f :: st -> alone u v g L o st t s').
          { intros s' A E. apply (alone_apart u v g L o st t s s' (FFire u0 v0 :: top) f extra top S T Li G O F A E Nt). }
          destruct v0 as [r|o'].
          -- apply Z; [|reflexivity]. split; [reflexivity|]. split; [reflexivity|]. split; [reflexivity|]. exists []. rewrite app_nil_r. split; reflexivity.
          -- destruct (x_objs s u0); (apply Z; [|reflexivity]); (split; [reflexivity|]).
             ++ split; [cbn [x_gen]; apply set_at_other; congruence|]. split; [cbn [x_objs]; apply set_at_other; congruence|]. exists []. rewrite app_nil_r. split; reflexivity.
             ++ split; [reflexivity|]. split; [reflexivity|]. exists []. rewrite app_nil_r. split; reflexivity.
  Qed.
  Lemma alone_busy u v g L o st t s : alone u v g L o st t s -> length st < length (x_stack s).
  Proof. intros (top & f & extra & S & _). rewrite S, app_length. simpl. lia. Qed.
  Lemma alone_run u v g L o st t h : forall s, fresh s -> alone u v g L o st t s -> Forall (leaves uuid u) h -> runs_until U_dec uuid (length st) s h ->
    x_stack (xrun h s) = st /\ ended u v g L o t (xrun h s).
  Proof.
    induction h as [|a h IH]; intros s Fr H Hl [T E].
    - apply alone_busy in H. simpl in E. lia.
    - destruct T as [B T]. inversion Hl as [|? ? La Lh]; subst. destruct (alone_step u v g L o st t s a Fr H La) as [H'|E1].
      + apply IH; [apply fresh_step; exact Fr|exact H'|exact Lh|]. split; [exact T|exact E].
      + destruct h as [|b h]; [exact E1|]. exfalso. destruct E1 as [E1 _]. destruct T as [B' _]. unfold busy in B'. rewrite E1 in B'. lia.
  Qed.

  (** * Only callbacks that do nothing *)
  Lemma go_run u v g st : forall n k s, x_stack s = FTell u v g k :: st -> k + n = length (x_list s u g) ->
    x_stack (xrun (repeat XGo (S n)) s) = FFire u v :: st /\ x_told (xrun (repeat XGo (S n)) s) = x_told s ++ map (fun id => (u, id, v)) (skipn k (x_list s u g)) /\
    x_list (xrun (repeat XGo (S n)) s) = x_list s /\ x_gen (xrun (repeat XGo (S n)) s) = x_gen s /\ x_objs (xrun (repeat XGo (S n)) s) = x_objs s /\
    x_raised (xrun (repeat XGo (S n)) s) = x_raised s.
  Proof.
    induction n as [|n IH]; intros k s Es E.
    - cbn [repeat CtxNet_Model.xrun fold_left CtxNet_Model.xstep]. rewrite Es. unfold tell. replace (nth_error (x_list s u g) k) with (@None nat) by (symmetry; apply nth_error_None; lia).
      rewrite skipn_all2 by lia. simpl. rewrite app_nil_r. repeat split; reflexivity.
    - change (repeat XGo (S (S n))) with (XGo (U := U) :: repeat XGo (S n)). set (R := repeat XGo (S n)) in *. cbn [CtxNet_Model.xrun fold_left]. fold (xrun R (xstep s XGo)).
      cbn [CtxNet_Model.xstep]. rewrite Es. unfold tell. destruct (nth_error (x_list s u g) k) as [id|] eqn:Ek.
      2:{ apply nth_error_None in Ek. lia. }
      set (s1 := Cn _ _ _ _ _ _). destruct (IH (S k) s1 eq_refl) as (A & B & C & D & F & G).
      + change (S k + n = length (x_list s u g)). lia.
      + rewrite A, B, C, D, F, G. unfold s1. cbn [x_told x_list x_gen x_objs x_raised]. rewrite <- app_assoc. repeat split; try reflexivity. f_equal.
        rewrite (nth_split_skip (x_list s u g) k id Ek). reflexivity.
  Qed.

  (** * What the end of an unregistration leaves, whatever happened within it *)
  Lemma under_last u o g L st t s a : fresh s -> under U_dec u (Gone o) g L st t s -> x_stack (xstep s a) = st ->
    x_objs (xstep s a) u = None /\ (subscribers u (xstep s a) = [] \/ x_raised (xstep s a) = x_raised s ++ [KeyError]).
  Proof.
    intros Fr (top & f & extra & more & S & T & Li & F) E. assert (W : forall (l : list (frame U)), l ++ f :: st = st -> False).
    { intros l Hl. apply (f_equal (@length _)) in Hl. rewrite app_length in Hl. simpl in Hl. lia. }
    destruct a as [r|r|u' id|].
    - exfalso. cbn [CtxNet_Model.xstep] in E. match type of E with x_stack (tell ?u ?v ?g ?k ?st ?s) = _ => destruct (tell_stack u v g k st s) as (f0 & E0 & _) end.
      rewrite E0, S in E. apply (W (f0 :: top)). exact E.
    - exfalso. cbn [CtxNet_Model.xstep] in E. match type of E with x_stack (tell ?u ?v ?g ?k ?st ?s) = _ => destruct (tell_stack u v g k st s) as (f0 & E0 & _) end.
      rewrite E0, S in E. apply (W (f0 :: top)). exact E.
    - exfalso. cbn [CtxNet_Model.xstep x_stack] in E. rewrite S in E. apply (W top). exact E.
    - cbn [CtxNet_Model.xstep] in *. rewrite S in *. destruct top as [|f0 top]; cbn [app] in *.
      + destruct f as [u' v' g' k|u' v'].
        * exfalso. destruct (tell_stack u' v' g' k st s) as (f0 & E0 & _). rewrite E0 in E. apply (f_equal (@length _)) in E. simpl in E. lia.
        * destruct F as (-> & -> & F). destruct (x_objs s u) eqn:O; cbn [x_objs x_raised].
          -- split; [apply set_at_same|]. left. unfold subscribers. cbn [x_list x_gen]. rewrite set_at_same. apply Fr. lia.
          -- split; [exact O|]. right. reflexivity.
      + exfalso. destruct f0 as [u0 v0 g0 k0|u0 v0].
        * destruct (tell_stack u0 v0 g0 k0 (top ++ f :: st) s) as (f1 & E1 & _). rewrite E1 in E. apply (W (f1 :: top)). exact E.
        * apply (W top). destruct v0; [exact E|]. destruct (x_objs s u0); exact E.
  Qed.
  Lemma step_raised s a : exists e, x_raised (xstep s a) = x_raised s ++ e.
  Proof.
    destruct a as [r|r|u' id|]; cbn [CtxNet_Model.xstep].
    - match goal with |- context [tell ?u ?v ?g ?k ?st ?s] => destruct (tell_fields u v g k st s) as (_ & _ & _ & L) end. rewrite L. exists []. rewrite app_nil_r. reflexivity.
    - match goal with |- context [tell ?u ?v ?g ?k ?st ?s] => destruct (tell_fields u v g k st s) as (_ & _ & _ & L) end. rewrite L. exists []. rewrite app_nil_r. reflexivity.
    - exists []. rewrite app_nil_r. reflexivity.
    - destruct (x_stack s) as [|[u' v g' k|u' [r|o]] st]; try (exists []; rewrite app_nil_r; reflexivity).
      + destruct (tell_fields u' v g' k st s) as (_ & _ & _ & L). rewrite L. exists []. rewrite app_nil_r. reflexivity.
      + destruct (x_objs s u'); [exists []; rewrite app_nil_r; reflexivity|]. eexists. reflexivity.
  Qed.
  Lemma under_end u o g L st t h : forall s, fresh s -> under U_dec u (Gone o) g L st t s -> runs_until U_dec uuid (length st) s h ->
    x_objs (xrun h s) u = None /\ (subscribers u (xrun h s) = [] \/ exists e, x_raised (xrun h s) = x_raised s ++ e ++ [KeyError]).
  Proof.
    induction h as [|a h IH]; intros s Fr H [T E].
    - apply under_busy in H. simpl in E. lia.
    - destruct T as [B T]. destruct (under_step U_dec uuid u (Gone o) g L st t s a H) as [H'|(E1 & E2)].
      + destruct (IH (xstep s a)) as [A C]; [apply fresh_step; exact Fr|exact H'|split; [exact T|exact E]|]. split; [exact A|].
        destruct C as [C|(e & C)]; [left; exact C|right]. destruct (step_raised s a) as (e0 & E0). exists (e0 ++ e). simpl in *. rewrite C, E0, !app_assoc. reflexivity.
      + destruct h as [|b h].
        * destruct (under_last u o g L st t s a Fr H E1) as [A C]. split; [exact A|]. destruct C as [C|C]; [left; exact C|right; exists []; exact C].
        * exfalso. destruct T as [B' _]. unfold busy in B'. rewrite E1 in B'. lia.
  Qed.
End Proofs2.
