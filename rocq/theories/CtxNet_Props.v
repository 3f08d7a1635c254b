(** Properties of subscribers of a context that use it themselves. *)
From Coq Require Import List Bool Arith Lia.
From Verif Require Import PyBase CtxNet_Model CtxNet_Spec CtxNet_Proofs CtxNet_Proofs2.
Import ListNotations.

Section Props.
  Context {U : Type} (U_dec : forall x y : U, {x = y} + {x <> y}) (uuid : nat -> U).
  Notation ctxnet := (ctxnet U).
  Notation xact := (xact U).
  Notation xstep := (xstep U_dec uuid).
  Notation xrun := (xrun U_dec uuid).
  Implicit Types s : ctxnet.

  (** Uses of the context, nested in any way, of which those that register or unregister [u] are not nested in one another and
      nobody subscribes to [u] while the event for its unregistration is fired: whenever no such use is under way, every
      subscriber was last told what is so, and those whose subscription is over were last told that it is gone. *)
  Theorem ctxnet_mirror (u : U) (h : list xact) : throughout U_dec uuid (calm uuid u) x_new h -> let s := xrun h x_new in idle u s ->
    forall id, (In id (subscribers u s) -> belief U_dec u id (x_told s) = x_objs s u) /\
               (~ In id (subscribers u s) -> belief U_dec u id (x_told s) = None).
  Proof.
    intros T s I id. pose proof (good_idle U_dec u s (good_run U_dec uuid u h x_new (good_new U_dec u) T) I id) as H.
    destruct (in_dec Nat.eq_dec id (subscribers u s)); split; intros; tauto.
  Qed.

  (** A registration or unregistration begun in any state, from within any callback, within which that uuid is left alone: when
      it returns, what was told of it is one call for each subscription, in their order; the registration is as it should be. *)
  Theorem ctxnet_register (s : ctxnet) (r : nat) (h : list xact) : reached U_dec uuid s -> let u := uuid r in let s' := xrun h (xstep s (XRegister r)) in
    Forall (leaves uuid u) h -> runs_until U_dec uuid (length (x_stack s)) (xstep s (XRegister r)) h ->
    x_stack s' = x_stack s /\ x_objs s' u = Some r /\ subscribers u s' = subscribers u s /\
    exists more, x_told s' = x_told s ++ more /\ concerning U_dec u more = map (fun id => (u, id, Here r)) (subscribers u s).
  Proof.
    intros R u s' Hl Hr. pose proof (reached_fresh U_dec uuid s R) as Fr.
    destruct (alone_run U_dec uuid u (Here r) (x_gen s u) (subscribers u s) (Some r) (x_stack s) (x_told s) h (xstep s (XRegister r))) as (E & (more & A & B) & C & D).
    - apply fresh_step. exact Fr.
    - cbn [CtxNet_Model.xstep]. apply (alone_tell U_dec u (Here r) (x_gen s u) 0 (subscribers u s) (Some r) (x_stack s) (x_told s) _ []); try reflexivity.
      + cbn [x_told]. rewrite app_nil_r. reflexivity.
      + apply set_at_same.
    - exact Hl.
    - exact Hr.
    - split; [exact E|]. split; [exact C|]. split; [exact D|]. exists more. split; [exact A|exact B].
  Qed.
  Theorem ctxnet_unregister (s : ctxnet) (r : nat) (h : list xact) : reached U_dec uuid s -> let u := uuid r in let s' := xrun h (xstep s (XUnregister r)) in
    Forall (leaves uuid u) h -> runs_until U_dec uuid (length (x_stack s)) (xstep s (XUnregister r)) h ->
    x_stack s' = x_stack s /\ x_objs s' u = None /\
    (exists more, x_told s' = x_told s ++ more /\ concerning U_dec u more = map (fun id => (u, id, Gone (x_objs s u))) (subscribers u s)) /\
    (x_objs s u <> None -> subscribers u s' = []) /\
    (x_objs s u = None -> subscribers u s' = subscribers u s /\ exists e, x_raised s' = e ++ [KeyError]).
  Proof.
    intros R u s' Hl Hr. pose proof (reached_fresh U_dec uuid s R) as Fr.
    destruct (alone_run U_dec uuid u (Gone (x_objs s u)) (x_gen s u) (subscribers u s) (x_objs s u) (x_stack s) (x_told s) h (xstep s (XUnregister r))) as (E & A & D).
    - apply fresh_step. exact Fr.
    - cbn [CtxNet_Model.xstep]. apply (alone_tell U_dec u (Gone (x_objs s u)) (x_gen s u) 0 (subscribers u s) (x_objs s u) (x_stack s) (x_told s) s []); try reflexivity.
      rewrite app_nil_r. reflexivity.
    - exact Hl.
    - exact Hr.
    - split; [exact E|]. split; [|split; [exact A|]].
      + destruct (x_objs s u); apply D.
      + destruct (x_objs s u) as [o|]; split; intros N; try congruence; apply D.
  Qed.
  (** whatever is done within it: every subscription there at its start is told at least once of it, and when an unregistration
      returns nothing is registered under its uuid, even if something was registered meanwhile; there are then no subscriptions,
      or it raised KeyError *)
  Theorem ctxnet_least (s : ctxnet) (r : nat) (v : news) (a : xact) (h : list xact) : let u := uuid r in
    (a = XRegister r /\ v = Here r \/ a = XUnregister r /\ v = Gone (x_objs s u)) -> runs_until U_dec uuid (length (x_stack s)) (xstep s a) h ->
    let s' := xrun h (xstep s a) in x_stack s' = x_stack s /\
    exists more, x_told s' = x_told s ++ more /\ forall id, count_occ Nat.eq_dec (subscribers u s) id <= times U_dec u id v more.
  Proof.
    intros u Ha Hr s'. apply (under_run U_dec uuid u v (x_gen s u) (subscribers u s) (x_stack s) (x_told s) h (xstep s a)); [|exact Hr].
    destruct Ha as [[-> ->]|[-> ->]]; cbn [CtxNet_Model.xstep]; apply under_tell; exists [], []; cbn [x_told x_list]; rewrite !app_nil_r; repeat split; simpl; lia.
  Qed.
  Theorem ctxnet_gone (s : ctxnet) (r : nat) (h : list xact) : reached U_dec uuid s -> let u := uuid r in let s' := xrun h (xstep s (XUnregister r)) in
    runs_until U_dec uuid (length (x_stack s)) (xstep s (XUnregister r)) h ->
    x_objs s' u = None /\ (subscribers u s' = [] \/ exists e, x_raised s' = x_raised s ++ e ++ [KeyError]).
  Proof.
    intros R u s' Hr. pose proof (reached_fresh U_dec uuid s R) as Fr.
    assert (Er : x_raised (xstep s (XUnregister r)) = x_raised s).
    { cbn [CtxNet_Model.xstep]. match goal with |- context [tell ?u ?v ?g ?k ?st ?s] => destruct (tell_fields u v g k st s) as (_ & _ & _ & L) end. exact L. }
    rewrite <- Er. apply (under_end U_dec uuid u (x_objs s u) (x_gen s u) (subscribers u s) (x_stack s) (x_told s) h (xstep s (XUnregister r))); [apply fresh_step; exact Fr| |exact Hr].
    cbn [CtxNet_Model.xstep]. apply under_tell. exists [], []. rewrite !app_nil_r. repeat split; simpl; lia.
  Qed.

  (** callbacks that do nothing: after one step for each subscription and one more, the use is over *)
  Theorem ctxnet_ends (s : ctxnet) (r : nat) (v : news) (a : xact) : let u := uuid r in
    (a = XRegister r /\ v = Here r \/ a = XUnregister r /\ v = Gone (x_objs s u)) ->
    let s' := xrun (a :: repeat XGo (S (length (subscribers u s)))) s in
    x_stack s' = x_stack s /\ x_told s' = x_told s ++ map (fun id => (u, id, v)) (subscribers u s).
  Proof.
    intros u Ha s'.
    assert (X : exists s1, xstep s a = tell u v (x_gen s u) 0 (x_stack s) s1 /\ x_stack s1 = x_stack s /\ x_told s1 = x_told s /\ x_list s1 = x_list s).
    { destruct Ha as [[-> ->]|[-> ->]]; cbn [CtxNet_Model.xstep]; eexists; (split; [reflexivity|]); repeat split; reflexivity. }
    destruct X as (s1 & E & S1 & T1 & L1). unfold s'. cbn [CtxNet_Model.xrun fold_left]. fold (xrun (repeat XGo (S (length (subscribers u s)))) (xstep s a)). rewrite E.
    assert (Fin : forall z, x_stack z = FFire u v :: x_stack s -> x_stack (xstep z XGo) = x_stack s /\ x_told (xstep z XGo) = x_told z).
    { intros z Ez. cbn [CtxNet_Model.xstep]. rewrite Ez. destruct v; [split; reflexivity|]. destruct (x_objs z u); split; reflexivity. }
    assert (App : forall n z, xrun (repeat XGo (S n)) z = xstep (xrun (repeat XGo n) z) XGo).
    { intros n z. replace (repeat (XGo (U := U)) (S n)) with (repeat (XGo (U := U)) n ++ [XGo]) by (symmetry; apply repeat_cons). unfold CtxNet_Model.xrun. rewrite fold_left_app. reflexivity. }
    rewrite App. unfold subscribers. destruct (x_list s u (x_gen s u)) as [|id l] eqn:El.
    - cbn [length repeat CtxNet_Model.xrun fold_left map]. unfold tell. rewrite L1, El. cbn [nth_error]. set (z := Cn _ _ _ _ _ _). destruct (Fin z eq_refl) as [A B].
      split; [exact A|]. rewrite B, app_nil_r. exact T1.
    - unfold tell at 1 2. rewrite L1, El. cbn [nth_error]. set (z := Cn _ _ _ _ _ _).
      destruct (go_run U_dec uuid u v (x_gen s u) (x_stack s) (length l) 1 z eq_refl) as (A & B & _).
      + unfold z. cbn [x_list]. rewrite El. reflexivity.
      + cbn [length]. destruct (Fin _ A) as [C D]. split; [exact C|]. rewrite D, B. unfold z. cbn [x_told x_list]. rewrite El, T1, <- app_assoc. reflexivity.
  Qed.
  (** a registered callback that subscribes anew whenever it is called keeps register from ever returning: after any number of
      calls, there is another, and each new subscription is told twice *)
  Theorem ctxnet_endless (s : ctxnet) (r id n : nat) : let u := uuid r in subscribers u s <> [] ->
    let s' := xrun (XRegister r :: concat (repeat [XSubscribe u id; XGo] n)) s in
    x_stack s' = FTell u (Here r) (x_gen s u) (S n) :: x_stack s /\ length (x_told s') = length (x_told s) + 1 + 2 * n /\
    length (subscribers u s') = length (subscribers u s) + n.
  Proof.
    intros u Hs. assert (G : forall m k z, x_stack z = FTell u (Here r) (x_gen s u) k :: x_stack s -> x_gen z u = x_gen s u -> x_objs z u = Some r ->
      k <= length (subscribers u z) -> let z' := xrun (concat (repeat [XSubscribe u id; XGo] m)) z in
      x_stack z' = FTell u (Here r) (x_gen s u) (k + m) :: x_stack s /\ length (x_told z') = length (x_told z) + 2 * m /\
      length (subscribers u z') = length (subscribers u z) + m).
    { induction m as [|m IH]; intros k z Ez Eg Eo Lk.
      - cbn [repeat concat CtxNet_Model.xrun fold_left]. rewrite Nat.add_0_r, Nat.mul_0_r, !Nat.add_0_r. auto.
      - cbn [repeat concat app]. cbn [CtxNet_Model.xrun fold_left]. cbv zeta.
        set (z1 := xstep (xstep z (XSubscribe u id)) XGo).
        assert (L : x_list (xstep z (XSubscribe u id)) u (x_gen s u) = subscribers u z ++ [id]).
        { cbn [CtxNet_Model.xstep x_list]. rewrite set_at_same, Eg. destruct (Nat.eq_dec (x_gen s u) (x_gen s u)); [|congruence]. unfold subscribers. rewrite Eg. reflexivity. }
        assert (Z : exists x, z1 = tell u (Here r) (x_gen s u) k (x_stack s) (xstep z (XSubscribe u id)) /\ nth_error (subscribers u z ++ [id]) k = Some x).
        { destruct (nth_error (subscribers u z ++ [id]) k) as [x|] eqn:Ex; [|apply nth_error_None in Ex; rewrite app_length in Ex; simpl in Ex; lia].
          exists x. split; [|reflexivity]. unfold z1. cbn [CtxNet_Model.xstep x_stack]. rewrite Ez. reflexivity. }
        destruct Z as (x & Ez1 & Ex). unfold tell in Ez1. rewrite L, Ex in Ez1.
        destruct (IH (S k) z1) as (A & B & C).
        + rewrite Ez1. reflexivity.
        + rewrite Ez1. exact Eg.
        + rewrite Ez1. exact Eo.
        + unfold subscribers. rewrite Ez1. cbn [x_list x_gen]. change (x_gen (xstep z (XSubscribe u id)) u) with (x_gen z u). rewrite Eg, L, app_length. simpl. lia.
        + unfold CtxNet_Model.xrun in A, B, C. rewrite A, B, C. split; [f_equal; f_equal; lia|]. split.
          * rewrite Ez1. cbn [x_told]. rewrite app_length. cbn [CtxNet_Model.xstep x_told]. rewrite Eo, app_length. simpl. lia.
          * unfold subscribers at 1. rewrite Ez1. cbn [x_list x_gen]. change (x_gen (xstep z (XSubscribe u id)) u) with (x_gen z u). rewrite Eg, L, app_length. simpl. lia. }
    intros s'. unfold s'. cbn [CtxNet_Model.xrun fold_left]. fold (xrun (concat (repeat [XSubscribe u id; XGo] n)) (xstep s (XRegister r))).
    cbn [CtxNet_Model.xstep]. fold u. unfold tell. cbn [x_list]. fold (subscribers u s). destruct (subscribers u s) as [|id0 l] eqn:Es; [congruence|]. cbn [nth_error].
    set (z := Cn _ _ _ _ _ _). destruct (G n 1 z) as (A & B & C).
    - reflexivity.
    - reflexivity.
    - unfold z. cbn [x_objs]. apply set_at_same.
    - change (subscribers u z) with (subscribers u s). rewrite Es. simpl. lia.
    - rewrite A, B, C. split; [reflexivity|]. split; [unfold z; cbn [x_told]; rewrite app_length; simpl; lia|]. change (subscribers u z) with (subscribers u s). rewrite Es. reflexivity.
  Qed.
End Props.

(** Findings: two objects with one uuid, 0. *)
Definition one_uuid (r : nat) : nat := 0.
Notation run h := (xrun Nat.eq_dec one_uuid h x_new).
(** subscribed while a registration is announced: told twice of the one registration *)
Theorem ctxnet_twice_refuted : exists h, let s := run h in x_stack s = [] /\ subscribers 0 s = [1; 2] /\
  h = [XSubscribe 0 1; XRegister 5; XSubscribe 0 2; XGo; XGo; XGo] /\ times Nat.eq_dec 0 2 (Here 5) (x_told s) = 2.
Proof. eexists. cbv zeta. repeat split; vm_compute; reflexivity. Qed.
(** a callback that unregisters the object when told of it: the next subscriber is told first that it is gone, then that it is
    there; the latter is the last it hears, since no subscription is left *)
Theorem ctxnet_stale_refuted : exists h, let s := run h in x_stack s = [] /\ x_raised s = [] /\ x_objs s 0 = None /\ subscribers 0 s = [] /\
  x_told s = [(0, 1, Here 5); (0, 1, Gone (Some 5)); (0, 2, Gone (Some 5)); (0, 2, Here 5)] /\ belief Nat.eq_dec 0 2 (x_told s) = Some 5.
Proof. exists [XSubscribe 0 1; XSubscribe 0 2; XRegister 5; XUnregister 5; XGo; XGo; XGo; XGo; XGo; XGo]. vm_compute. repeat split. Qed.
(** a listener of registration_event that subscribes while the unregistration is announced: told that the object is there, and
    the subscription is deleted *)
Theorem ctxnet_late_refuted : exists h, let s := run h in x_stack s = [] /\ x_raised s = [] /\ x_objs s 0 = None /\ subscribers 0 s = [] /\
  x_told s = [(0, 2, Here 5)] /\ belief Nat.eq_dec 0 2 (x_told s) = Some 5.
Proof. exists [XRegister 5; XGo; XUnregister 5; XSubscribe 0 2; XGo]. vm_compute. repeat split. Qed.
(** a callback that unregisters the object when told that it is going: the others are told twice, and the first call raises *)
Theorem ctxnet_again_refuted : exists h, let s := run h in x_stack s = [] /\ x_raised s = [KeyError] /\ x_objs s 0 = None /\
  times Nat.eq_dec 0 2 (Gone (Some 5)) (x_told s) = 2.
Proof. exists [XSubscribe 0 1; XSubscribe 0 2; XRegister 5; XGo; XGo; XGo; XUnregister 5; XUnregister 5; XGo; XGo; XGo; XGo; XGo; XGo]. vm_compute. repeat split. Qed.
(** a callback that registers a replacement when told that the object is going: subscribers are told that the replacement is
    there, but it is not, nor are their subscriptions; unregistering the replacement raises *)
Theorem ctxnet_replace_refuted : exists h, let s := run h in x_stack s = [] /\ x_raised s = [] /\ x_objs s 0 = None /\ subscribers 0 s = [] /\
  In (XRegister 6) h /\ ~ In (XUnregister 6) h /\ belief Nat.eq_dec 0 1 (x_told s) = Some 6 /\
  x_raised (xrun Nat.eq_dec one_uuid [XUnregister 6; XGo] s) = [KeyError].
Proof.
  exists [XSubscribe 0 1; XRegister 5; XGo; XGo; XUnregister 5; XRegister 6; XGo; XGo; XGo; XGo]. vm_compute.
  repeat split; intuition discriminate.
Qed.

(** * Examples *)
(** objects 10, 20, … of uuids 1, 2, …; a callback about uuid 1 registers object 20 and subscribes to uuid 1 *)
Definition tens (r : nat) : nat := r / 10.
Definition story : list (xact nat) :=
  [XSubscribe 1 7; XSubscribe 2 7; XSubscribe 1 8; XRegister 10;      (* 7 is told of 10 *)
   XRegister 20; XGo; XGo;                                            (* within: 7 is told of 20, all of it *)
   XSubscribe 1 9;                                                    (* 9 is told by subscribe *)
   XGo; XGo; XGo; XGo].
Example story_calm : throughout Nat.eq_dec tens (calm tens 1) x_new story.
Proof. simpl. unfold idle, leaving. simpl. repeat split; intros; try tauto; try discriminate; try (intros (o & Ho); simpl in Ho; intuition discriminate). Qed.
Example story_mirror : let s := xrun Nat.eq_dec tens story x_new in
  x_stack s = [] /\ subscribers 1 s = [7; 8; 9] /\ map (fun id => belief Nat.eq_dec 1 id (x_told s)) [7; 8; 9; 6] = [Some 10; Some 10; Some 10; None] /\
  x_told s = [(1, 7, Here 10); (2, 7, Here 20); (1, 9, Here 10); (1, 8, Here 10); (1, 9, Here 10)].
Proof. vm_compute. repeat split. Qed.
Example register_within : let s := xrun Nat.eq_dec tens (firstn 4 story) x_new in
  runs_until Nat.eq_dec tens (length (x_stack s)) (xstep Nat.eq_dec tens s (XRegister 20)) [XGo; XGo] /\ length (x_stack s) = 1 /\
  Forall (leaves tens 2) [XGo; XGo].
Proof. vm_compute. repeat split; try lia. repeat constructor. Qed.
Example unregister_within : let s := xrun Nat.eq_dec tens story x_new in let h := [XRegister 30; XGo; XGo; XSubscribe 2 5; XGo; XGo; XGo] in
  runs_until Nat.eq_dec tens 0 (xstep Nat.eq_dec tens s (XUnregister 10)) h /\ Forall (leaves tens 1) h /\
  x_objs s 1 = Some 10 /\ x_objs (xrun Nat.eq_dec tens h (xstep Nat.eq_dec tens s (XUnregister 10))) 1 = None /\
  x_told (xrun Nat.eq_dec tens h (xstep Nat.eq_dec tens s (XUnregister 10))) =
    x_told s ++ [(1, 7, Gone (Some 10)); (1, 8, Gone (Some 10)); (2, 5, Here 20); (1, 9, Gone (Some 10))].
Proof. vm_compute. repeat split; try lia. repeat (constructor; try discriminate). Qed.
Example endless_some : let s := xrun Nat.eq_dec tens [XSubscribe 1 7] x_new in
  x_told (xrun Nat.eq_dec tens (XRegister 10 :: concat (repeat [XSubscribe 1 8; XGo] 2)) s) =
    [(1, 7, Here 10); (1, 8, Here 10); (1, 8, Here 10); (1, 8, Here 10); (1, 8, Here 10)].
Proof. vm_compute. reflexivity. Qed.

Print Assumptions ctxnet_mirror.
Print Assumptions ctxnet_register.
Print Assumptions ctxnet_unregister.
Print Assumptions ctxnet_least.
Print Assumptions ctxnet_gone.
Print Assumptions ctxnet_ends.
Print Assumptions ctxnet_endless.
Print Assumptions ctxnet_twice_refuted.
Print Assumptions ctxnet_stale_refuted.
Print Assumptions ctxnet_late_refuted.
Print Assumptions ctxnet_again_refuted.
Print Assumptions ctxnet_replace_refuted.
