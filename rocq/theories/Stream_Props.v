(** Properties C60 - C63 of Stream.py. *)
From Coq Require Import List Arith Bool Lia.
From Verif Require Import PyBase Stream_Model Stream_Spec.
Import ListNotations.

Lemma run_out_app {S I O} (step : S -> I -> S * list O) l1 : forall s l2,
  run_out step s (l1 ++ l2) =
  (fst (run_out step (fst (run_out step s l1)) l2), snd (run_out step s l1) ++ snd (run_out step (fst (run_out step s l1)) l2)).
Proof.
  induction l1 as [|i l1 IH]; intros s l2; cbn; [now destruct (run_out step s l2) |].
  destruct (step s i) as [s1 o1]. rewrite IH. destruct (run_out step s1 l1) as [s2 o2]. cbn.
  destruct (run_out step s2 l2) as [s3 o3]. cbn. now rewrite app_assoc.
Qed.
Lemma run_out_snoc {S I O} (step : S -> I -> S * list O) l s i :
  run_out step s (l ++ [i]) =
  (fst (step (fst (run_out step s l)) i), snd (run_out step s l) ++ snd (step (fst (run_out step s l)) i)).
Proof.
  rewrite run_out_app. cbn. destruct (step (fst (run_out step s l)) i) as [s1 o1]. cbn. now rewrite app_nil_r.
Qed.

Lemma last_cons_default {V} (l : list V) : forall x d, last (x :: l) d = last l x.
Proof.
  induction l as [|y l IH]; intros x d; [reflexivity |].
  change (last (x :: y :: l) d) with (last (y :: l) d). now rewrite !IH.
Qed.
(** the spec determines the changes, and their last is the last element *)
Lemma changes_fun {V} (v : V) l c1 : changes v l c1 -> forall c2, changes v l c2 -> c1 = c2.
Proof. induction 1; intros c2 H2; inversion H2; subst; try congruence; auto. f_equal. auto. Qed.
Lemma changes_last {V} (v : V) l c : changes v l c -> last c v = last l v.
Proof. induction 1; rewrite ?last_cons_default; auto. Qed.

(** ** C60 *)
Section Value.
  Context {V : Type} (neq : V -> V -> bool).

  (** For every comparison: the value is the last one assigned or one not different from it, and every value fired
      differs from the one before. *)
  Theorem vs_any_comparison (v0 x : V) (l : list V) :
    let r := run_out (vs_step neq) v0 (l ++ [x]) in
    (fst r = x \/ neq (fst r) x = false) /\
    exists f, snd r = map Fire f /\ chain (fun a b => neq a b = true) v0 f.
  Proof.
    cbv zeta. split.
    - rewrite run_out_snoc. cbn [fst]. unfold vs_step at 1 3.
      destruct (neq (fst (run_out (vs_step neq) v0 l)) x) eqn:E; cbn; [now left | right; exact E].
    - generalize (l ++ [x]). clear l x. intros l. revert v0. induction l as [|x l IH]; intros v0; cbn.
      + exists []. split; [reflexivity | constructor].
      + unfold vs_step at 1. destruct (neq v0 x) eqn:E.
        * destruct (IH x) as (f & F & C). destruct (run_out (vs_step neq) x l) as [s o]. cbn in *.
          exists (x :: f). rewrite F. split; [reflexivity | now constructor].
        * destruct (IH v0) as (f & F & C). destruct (run_out (vs_step neq) v0 l) as [s o]. cbn in *. eauto.
  Qed.

  Hypothesis neq_iff : forall a b, neq a b = false <-> a = b.
  (** A ValueStream holds the last value and fires exactly the changes. *)
  Theorem vs_fires (v0 : V) (l : list V) :
    fst (run_out (vs_step neq) v0 l) = last l v0 /\
    exists f, snd (run_out (vs_step neq) v0 l) = map Fire f /\ changes v0 l f.
  Proof.
    revert v0. induction l as [|x l IH]; intros v0; cbn [run_out].
    - split; [reflexivity |]. exists []. split; [reflexivity | constructor].
    - destruct (IH x) as (L & f & F & C). rewrite last_cons_default. unfold vs_step at 1 3. destruct (neq v0 x) eqn:E.
      + destruct (run_out (vs_step neq) x l) as [s o]. cbn in *. split; [exact L |].
        exists (x :: f). rewrite F. split; [reflexivity |]. constructor; [| exact C].
        intros H. apply neq_iff in H. congruence.
      + apply neq_iff in E. subst x. destruct (run_out (vs_step neq) v0 l) as [s o]. cbn in *. split; [exact L |].
        exists f. split; [exact F | now constructor].
  Qed.
End Value.

Section Map.
  Context {A B : Type} (neq : option B -> option B -> bool) (fn : A -> option B).

  Lemma ms_update_open s a : ms_open (fst (ms_update neq fn s a)) = ms_open s /\ ms_refs (fst (ms_update neq fn s a)) = ms_refs s.
  Proof. unfold ms_update. destruct (neq (fn a) (ms_value s)); auto. Qed.
  Lemma ms_run_open l : forall s, ms_open s = true ->
    ms_open (fst (run_out (ms_step neq fn) s (map MSource l))) = true /\
    ms_refs (fst (run_out (ms_step neq fn) s (map MSource l))) = ms_refs s.
  Proof.
    induction l as [|a l IH]; intros s O; cbn; [auto |]. rewrite O.
    destruct (ms_update_open s a) as [P R]. destruct (ms_update neq fn s a) as [s1 o1]. cbn in P, R. rewrite O in P.
    destruct (IH s1 P) as [X Y]. destruct (run_out (ms_step neq fn) s1 (map MSource l)). cbn in *. now rewrite Y.
  Qed.

  (** For every comparison and function: the value is the function of the latest source value or one not different from
      it, and every value fired differs from the one before (None before the first). *)
  Theorem map_any_comparison (s : mstream B) (l : list A) (a : A) :
    ms_open s = true ->
    let r := run_out (ms_step neq fn) s (map MSource (l ++ [a])) in
    (ms_value (fst r) = fn a \/ neq (fn a) (ms_value (fst r)) = false) /\
    exists f, snd r = map Fire f /\ chain (fun x y => neq y x = true) (ms_value s) f.
  Proof.
    intros O. cbv zeta. split.
    - rewrite map_app. cbn [map]. rewrite run_out_snoc. cbn [fst].
      destruct (ms_run_open l s O) as [P _]. revert P. generalize (fst (run_out (ms_step neq fn) s (map MSource l))).
      intros s1 P. cbn [ms_step]. rewrite P. unfold ms_update.
      destruct (neq (fn a) (ms_value s1)) eqn:E; cbn; [now left | right; exact E].
    - generalize (l ++ [a]). clear l a. intros l. revert s O. induction l as [|a l IH]; intros s O; cbn.
      + exists []. split; [reflexivity | constructor].
      + rewrite O. pose proof (proj1 (ms_update_open s a)) as P. rewrite O in P. unfold ms_update in *.
        destruct (neq (fn a) (ms_value s)) eqn:E; cbn in P |- *.
        * destruct (IH (MStream (fn a) (ms_open s) (ms_refs s)) P) as (f & F & C).
          destruct (run_out (ms_step neq fn) (MStream (fn a) (ms_open s) (ms_refs s)) (map MSource l)) as [s2 o2].
          cbn in *. exists (fn a :: f). rewrite F. split; [reflexivity | now constructor].
        * destruct (IH s P) as (f & F & C). destruct (run_out (ms_step neq fn) s (map MSource l)) as [s2 o2]. cbn in *. eauto.
  Qed.

  (** Closing fires the value once more, clears it and releases the reference; after that source values do nothing. *)
  Theorem map_close (s : mstream B) (l : list A) :
    ms_open s = true ->
    run_out (ms_step neq fn) s (MClose :: map MSource l) = (MStream None false (ms_refs s - 1), [Fire (ms_value s)]) /\
    snd (ms_step neq fn (fst (run_out (ms_step neq fn) s (MClose :: map MSource l))) MClose) = [Fire None; Exc AttributeError].
  Proof.
    intros O.
    assert (K : run_out (ms_step neq fn) (MStream None false (ms_refs s - 1)) (map MSource l) = (MStream None false (ms_refs s - 1), [])).
    { induction l as [|a l IH]; cbn; [reflexivity | now rewrite IH]. }
    assert (E : run_out (ms_step neq fn) s (MClose :: map MSource l) = (MStream None false (ms_refs s - 1), [Fire (ms_value s)])).
    { cbn. rewrite O, K. reflexivity. }
    split; [exact E |]. rewrite E. reflexivity.
  Qed.

  Hypothesis neq_iff : forall a b, neq a b = false <-> a = b.
  Lemma ms_run l : forall s, ms_open s = true ->
    ms_value (fst (run_out (ms_step neq fn) s (map MSource l))) = last (map fn l) (ms_value s) /\
    exists f, snd (run_out (ms_step neq fn) s (map MSource l)) = map Fire f /\ changes (ms_value s) (map fn l) f.
  Proof.
    induction l as [|a l IH]; intros s O; cbn [map run_out].
    - split; [reflexivity |]. exists []. split; [reflexivity | constructor].
    - rewrite last_cons_default. cbn [ms_step]. rewrite O.
      pose proof (proj1 (ms_update_open s a)) as P. rewrite O in P. unfold ms_update in *.
      destruct (neq (fn a) (ms_value s)) eqn:E; cbn [fst] in P.
      + destruct (IH (MStream (fn a) (ms_open s) (ms_refs s)) P) as (L & f & F & C).
        destruct (run_out (ms_step neq fn) (MStream (fn a) (ms_open s) (ms_refs s)) (map MSource l)) as [s2 o2].
        cbn in *. split; [exact L |]. exists (fn a :: f). rewrite F. split; [reflexivity |]. constructor; [| exact C].
        intros H. symmetry in H. apply neq_iff in H. congruence.
      + apply neq_iff in E. destruct (IH s P) as (L & f & F & C).
        destruct (run_out (ms_step neq fn) s (map MSource l)) as [s2 o2]. cbn in *. rewrite E.
        split; [exact L |]. exists f. split; [exact F | now constructor].
  Qed.

  (** A MapStream holds the function of its source's latest value, from creation on, and fires exactly the changes. *)
  Theorem map_fires (a0 : A) (l : list A) :
    let s := fst (ms_make neq fn a0) in
    ms_value s = fn a0 /\ ms_refs s = 1 /\
    ms_value (fst (run_out (ms_step neq fn) s (map MSource l))) = fn (last l a0) /\
    exists f, snd (run_out (ms_step neq fn) s (map MSource l)) = map Fire f /\ changes (fn a0) (map fn l) f.
  Proof.
    cbv zeta. assert (M : fst (ms_make neq fn a0) = MStream (fn a0) true 1).
    { unfold ms_make, ms_update. cbn. destruct (neq (fn a0) None) eqn:E; [reflexivity |]. apply neq_iff in E. now rewrite E. }
    rewrite M. destruct (ms_run l (MStream (fn a0) true 1) eq_refl) as (L & F). cbn in L, F.
    repeat split; auto. rewrite L. clear. revert a0. induction l as [|a l IH]; intros a0; [reflexivity |].
    cbn [map]. rewrite !last_cons_default. apply IH.
  Qed.
End Map.

(** A MapStream over a ValueStream: its value and what it fires depend on the assigned values only through the
    function, however many assignments leave the value stream's value alone. *)
Theorem map_of_value {A B} (neqa : A -> A -> bool) (neqb : option B -> option B -> bool) (fn : A -> option B)
    (a0 : A) (l fired : list A) :
  (forall a b, neqa a b = false <-> a = b) -> (forall a b, neqb a b = false <-> a = b) ->
  snd (run_out (vs_step neqa) a0 l) = map Fire fired ->
  let r := run_out (ms_step neqb fn) (fst (ms_make neqb fn a0)) (map MSource fired) in
  ms_value (fst r) = fn (last l a0) /\ exists f, snd r = map Fire f /\ changes (fn a0) (map fn l) f.
Proof.
  intros HA HB E. cbv zeta.
  destruct (vs_fires neqa HA a0 l) as (_ & f & F & C). rewrite E in F.
  assert (fired = f) as <-.
  { clear -F. revert f F. induction fired as [|x xs IH]; intros [|y ys] F; try discriminate; [reflexivity |].
    injection F as -> F. f_equal. now apply IH. }
  destruct (map_fires neqb fn HB a0 fired) as (_ & _ & L & g & G & D). split.
  - rewrite L. f_equal. now apply changes_last.
  - exists g. split; [exact G |]. clear -C D. revert g D. induction C as [v|v l c C IH|v x l c N C IH]; intros g D; cbn.
    + exact D.
    + constructor. now apply IH.
    + cbn in D. inversion D as [|? ? ? D'|? ? ? ? N' D']; subst.
      * match goal with H : fn v = fn x |- _ => rewrite H in * | H : fn x = fn v |- _ => rewrite <- H in * | _ => idtac end.
        constructor. apply IH. assumption.
      * constructor; [assumption | now apply IH].
Qed.

(** ** C61 *)
Section Combine_.
  Context {V W : Type} (fn : list V -> W).
  Definition inputs (l : list (nat * V)) : list (cevent V) := map (fun p => CInput (fst p) (snd p)) l.

  Lemma set_nth_latest (i : nat) (v : V) : forall (v0 : list V) (k : nat) (h : list (nat * V)),
    set_nth i v (map (fun p => latest_of (fst p) (snd p) h) (combine (seq k (length v0)) v0)) =
    map (fun p => latest_of (fst p) (snd p) (h ++ [(k + i, v)])) (combine (seq k (length v0)) v0).
  Proof.
    assert (L : forall j h (d : V) i, latest_of j d (h ++ [(i, v)]) = if Nat.eqb i j then v else latest_of j d h).
    { clear. intros j h. induction h as [|[i' v'] h IH]; intros d i; cbn; [reflexivity | apply IH]. }
    assert (N : forall v0 k i h, i < k -> map (fun p : nat * V => latest_of (fst p) (snd p) (h ++ [(i, v)])) (combine (seq k (length v0)) v0)
                = map (fun p => latest_of (fst p) (snd p) h) (combine (seq k (length v0)) v0)).
    { induction v0 as [|x v0 IH]; intros k i0 h H; cbn; [reflexivity |]. rewrite L.
      replace (Nat.eqb i0 k) with false by (symmetry; apply Nat.eqb_neq; lia). f_equal. apply IH. lia. }
    induction i as [|i IH]; intros [|x v0] k h; cbn; try reflexivity.
    - rewrite L, Nat.add_0_r, Nat.eqb_refl. f_equal. symmetry. apply N. lia.
    - rewrite L. replace (Nat.eqb (k + S i) k) with false by (symmetry; apply Nat.eqb_neq; lia). f_equal.
      replace (k + S i) with (S k + i) by lia. apply IH.
  Qed.
  Lemma latest_all_nil (v0 : list V) : latest_all v0 [] = v0.
  Proof.
    unfold latest_all. generalize 0 as k. induction v0 as [|x v0 IH]; intros k; cbn; [reflexivity |]. f_equal. apply IH.
  Qed.
  Lemma cs_state v0 l : fst (run_out (cs_step fn) (fst (cs_make fn v0)) (inputs l)) =
    CStream (latest_all v0 l) (Some (fn (latest_all v0 l))) true.
  Proof.
    induction l as [|[i v] l IH] using rev_ind; [now rewrite latest_all_nil |].
    unfold inputs in *. rewrite map_app. cbn [map fst snd]. rewrite run_out_snoc, IH. cbn [cs_step cs_open cs_changed fst cs_values].
    unfold latest_all. now rewrite (set_nth_latest i v v0 0 l).
  Qed.

  (** The value is the function of the latest values of all inputs. *)
  Theorem combine_value (v0 : list V) (l : list (nat * V)) :
    cs_value (fst (run_out (cs_step fn) (fst (cs_make fn v0)) (inputs l))) = Some (fn (latest_all v0 l)).
  Proof. now rewrite cs_state. Qed.

  (** It fires once on creation and once per input event, with the value as of that event. *)
  Theorem combine_fires (v0 : list V) (l : list (nat * V)) :
    snd (cs_make fn v0) ++ snd (run_out (cs_step fn) (fst (cs_make fn v0)) (inputs l)) =
    map (fun k => Fire (Some (fn (latest_all v0 (firstn k l))))) (seq 0 (S (length l))).
  Proof.
    induction l as [|[i v] l IH] using rev_ind; [cbn; now rewrite latest_all_nil |].
    pose proof (cs_state v0 (l ++ [(i, v)])) as S1. pose proof (cs_state v0 l) as S0.
    unfold inputs in *. rewrite map_app in *. cbn [map fst snd] in *. rewrite run_out_snoc in *. cbn [fst snd] in *.
    rewrite app_assoc, IH, app_length. cbn [length].
    replace (S (length l + 1)) with (S (length l) + 1) by lia. rewrite (seq_app (S (length l)) 1 0), map_app. f_equal.
    - apply map_ext_in. intros k K. apply in_seq in K. rewrite firstn_app.
      replace (k - length l) with 0 by lia. cbn. now rewrite app_nil_r.
    - rewrite S0 in *. cbn [cs_step cs_open cs_changed fst snd cs_values] in *. injection S1 as E _. rewrite E.
      cbn [map seq]. rewrite firstn_all2; [reflexivity |]. rewrite app_length. cbn. lia.
  Qed.

  (** Closing fires the value once more and clears it; later input events do nothing. *)
  Theorem combine_close (s : cstream V W) (l : list (nat * V)) :
    cs_open s = true ->
    run_out (cs_step fn) s (CClose :: inputs l) = (CStream [] None false, [Fire (cs_value s)]).
  Proof.
    intros O. unfold inputs. cbn [run_out cs_step]. rewrite O.
    assert (K : run_out (cs_step fn) (CStream [] None false) (map (fun p => CInput (fst p) (snd p)) l) = (CStream [] None false, [])).
    { induction l as [|p l IH]; cbn; [reflexivity | now rewrite IH]. }
    now rewrite K.
  Qed.
End Combine_.

(** ** C62 *)
Section Concat_.
  Context {A V : Type} (truthy : A -> bool).
  Definition k_inv (cur : option nat) (iv : nat -> option V) (s : kstream V) : Prop :=
    k_open s = true /\ k_cur s = cur /\ (forall j, k_inner s j = iv j) /\
    k_value s = match cur with Some id => iv id | None => None end /\
    (forall j, k_refs s j = match cur with Some id => if Nat.eqb j id then 1 else 0 | None => 0 end).
  Lemma k_release_refs cur iv s : k_inv cur iv s -> forall j, k_refs (k_release s) j = 0.
  Proof.
    intros (O & C & I & X & R) j. unfold k_release. rewrite C. destruct cur as [c|]; [| now rewrite R].
    cbn. unfold upd. rewrite !R, Nat.eqb_refl. destruct (Nat.eqb j c); reflexivity.
  Qed.
  Lemma k_release_keeps (s : kstream V) : k_open (k_release s) = k_open s /\ k_cur (k_release s) = None /\ k_inner (k_release s) = k_inner s.
  Proof. unfold k_release. destruct (k_cur s) eqn:E; auto. Qed.
  Lemma k_changed_inv sel cur iv s : k_inv cur iv s -> k_inv sel iv (fst (k_changed sel s)).
  Proof.
    intros H. pose proof (k_release_refs cur iv s H) as R. destruct (k_release_keeps s) as (O & C & I).
    destruct H as (O' & _ & I' & _). unfold k_changed. destruct sel as [id|]; cbn; unfold k_inv; cbn; rewrite ?O, ?C, ?I; repeat split; auto.
    intros j. unfold upd. rewrite !R. destruct (Nat.eqb j id); reflexivity.
  Qed.

  Lemma k_run l : forall s cur iv, ~ In KClose l -> k_inv cur iv s ->
    k_inv (inner_now truthy cur l) (fun j => inner_value j (iv j) l) (fst (run_out (k_step truthy) s l)).
  Proof.
    induction l as [|e l IH]; intros s cur iv NC H; [exact H |].
    assert (NC' : ~ In KClose l) by (intros X; apply NC; now right). cbn [run_out].
    assert (S1 : exists cur1 iv1, k_inv cur1 iv1 (fst (k_step truthy s e)) /\
              inner_now truthy cur (e :: l) = inner_now truthy cur1 l /\ (forall j, inner_value j (iv j) (e :: l) = inner_value j (iv1 j) l)).
    { destruct e as [item made|id v|]; cbn [k_step inner_now inner_value].
      - rewrite (proj1 H). exists (if truthy item then Some made else None), iv. split; [eapply k_changed_inv; exact H | auto].
      - exists cur, (fun j => if Nat.eqb id j then v else iv j). split; [| auto].
        destruct H as (O & C & I & X & R). rewrite C.
        assert (U : forall j, upd (k_inner s) id v j = if Nat.eqb id j then v else iv j).
        { intros j. unfold upd. rewrite (Nat.eqb_sym j id), I. reflexivity. }
        destruct cur as [c|]; [destruct (Nat.eqb c id) eqn:E |]; unfold k_inv; cbn; rewrite ?C; repeat split; auto.
        + apply Nat.eqb_eq in E. subst c. now rewrite Nat.eqb_refl.
        + rewrite Nat.eqb_sym in E. rewrite E. exact X.
      - exfalso. apply NC. now left. }
    destruct S1 as (cur1 & iv1 & H1 & E1 & E2). destruct (k_step truthy s e) as [s1 o1]. cbn [fst] in H1.
    specialize (IH s1 cur1 iv1 NC' H1). destruct (run_out (k_step truthy) s1 l) as [s2 o2]. cbn [fst] in *. rewrite E1.
    destruct IH as (O & C & I & X & R). repeat split; auto.
    - intros j. rewrite I. now rewrite E2.
    - rewrite X. destruct (inner_now truthy cur1 l); [now rewrite E2 | reflexivity].
  Qed.

  (** The value is that of the inner stream made for the latest item if that is true, None otherwise; exactly this
      inner stream holds a reference. *)
  Theorem concat_follows (inner : nat -> option V) (item0 : A) (made0 : nat) (l : list (kevent A V)) :
    ~ In KClose l ->
    let h := KOuter item0 made0 :: l in
    let s := fst (run_out (k_step truthy) (k_blank inner) h) in
    k_value s = match inner_now truthy None h with Some id => inner_value id (inner id) h | None => None end /\
    (forall j, k_refs s j = if match inner_now truthy None h with Some id => Nat.eqb j id | None => false end then 1 else 0).
  Proof.
    intros NC h s. assert (NC' : ~ In KClose h) by (intros [X | X]; [discriminate | auto]).
    assert (B : k_inv None inner (k_blank inner)) by (repeat split; auto).
    destruct (k_run h (k_blank inner) None inner NC' B) as (_ & _ & _ & X & R). fold s in X, R. split; [exact X |].
    intros j. rewrite R. now destruct (inner_now truthy None h).
  Qed.

  (** An outer event and an event of the current inner stream fire the new value once; events of other inner streams
      fire nothing and leave the value alone. *)
  Theorem concat_fires (inner : nat -> option V) (l : list (kevent A V)) (e : kevent A V) :
    ~ In KClose l -> e <> KClose ->
    let s := fst (run_out (k_step truthy) (k_blank inner) l) in
    let r := k_step truthy s e in
    match e with
    | KInner id _ => if match inner_now truthy None l with Some c => Nat.eqb c id | None => false end
                     then snd r = [Fire (k_value (fst r))] else snd r = [] /\ k_value (fst r) = k_value s
    | _ => snd r = [Fire (k_value (fst r))]
    end.
  Proof.
    intros NC N. cbv zeta. assert (B : k_inv None inner (k_blank inner)) by (repeat split; auto).
    destruct (k_run l (k_blank inner) None inner NC B) as (O & C & _). revert O C.
    generalize (fst (run_out (k_step truthy) (k_blank inner) l)). intros s O C.
    destruct e as [item made|id v|]; cbn [k_step]; [| | congruence].
    - rewrite O. unfold k_changed. destruct (truthy item); reflexivity.
    - rewrite C. destruct (inner_now truthy None l) as [c|]; [destruct (Nat.eqb c id) |]; cbn; auto.
  Qed.

  (** Closing fires None; then the value stays None, no reference is held and no event of any stream fires anything. *)
  Theorem concat_close (inner : nat -> option V) (l1 l2 : list (kevent A V)) :
    ~ In KClose l1 -> ~ In KClose l2 ->
    let s := fst (run_out (k_step truthy) (k_blank inner) l1) in
    let r := run_out (k_step truthy) s (KClose :: l2) in
    k_value (fst r) = None /\ (forall j, k_refs (fst r) j = 0) /\ snd r = [Fire None].
  Proof.
    intros N1 N2. cbv zeta. assert (B : k_inv None inner (k_blank inner)) by (repeat split; auto).
    pose proof (k_run l1 (k_blank inner) None inner N1 B) as H. revert H.
    generalize (inner_now truthy None l1) (fun j => inner_value j (inner j) l1) (fst (run_out (k_step truthy) (k_blank inner) l1)).
    intros cur iv s H.
    pose proof (k_changed_inv None cur iv s H) as (_ & C & _ & X & R). cbn [run_out k_step].
    assert (F : snd (k_changed None s) = [Fire None]) by reflexivity.
    destruct (k_changed None s) as [s1 o]. cbn [fst snd] in *. rewrite (proj1 H), F.
    match goal with |- context [run_out _ ?x l2] => set (s2 := x) end.
    assert (K : forall l (t : kstream V), ~ In KClose l -> k_open t = false -> k_cur t = None -> k_value t = None -> (forall j, k_refs t j = 0) ->
              let r := run_out (k_step truthy) t l in k_value (fst r) = None /\ (forall j, k_refs (fst r) j = 0) /\ snd r = []).
    { clear. induction l as [|e l IH]; intros t N O C X R; [cbn; auto |].
      assert (N' : ~ In KClose l) by (intros Z; apply N; now right). cbn [run_out].
      assert (S1 : exists t1, k_step truthy t e = (t1, []) /\ k_open t1 = false /\ k_cur t1 = None /\ k_value t1 = None /\ (forall j, k_refs t1 j = 0)).
      { destruct e as [item made|id v|]; cbn [k_step].
        - rewrite O. exists t. auto.
        - rewrite C. eexists. split; [reflexivity |]. cbn. auto.
        - exfalso. apply N. now left. }
      destruct S1 as (t1 & -> & O1 & C1 & X1 & R1). specialize (IH t1 N' O1 C1 X1 R1). cbv zeta in IH.
      destruct (run_out (k_step truthy) t1 l) as [t2 o2]. exact IH. }
    destruct (K l2 s2 N2 eq_refl C X R) as (P & Q & Z). destruct (run_out (k_step truthy) s2 l2) as [t o2]. cbn in *. rewrite Z. auto.
  Qed.
End Concat_.

(** ** C63 *)
Section PropStream_.
  Context {V : Type} (cmp : option V -> option V -> bool) (truthy : nat -> bool).
  Definition q_inv (cur : option nat) (pv : nat -> option V) (s : qstream V) : Prop :=
    q_open s = true /\ q_listen s = cur /\ (forall j, q_prop s j = pv j) /\
    match cur with Some id => q_value s = pv id \/ cmp (pv id) (q_value s) = true | None => True end.
  Lemma q_changed_inv id pv s : q_open s = true -> q_listen s = Some id -> (forall j, q_prop s j = pv j) ->
    q_inv (Some id) pv (fst (q_changed cmp id s)).
  Proof.
    intros O C P. unfold q_changed. rewrite P. destruct (cmp (pv id) (q_value s)) eqn:E; cbn; repeat split; auto.
  Qed.
  Lemma q_run l : forall s cur pv, ~ In QClose l -> q_inv cur pv s ->
    q_inv (source_now truthy cur l) (fun j => prop_now j (pv j) l) (fst (run_out (q_step cmp truthy) s l)).
  Proof.
    induction l as [|e l IH]; intros s cur pv NC H; [exact H |].
    assert (NC' : ~ In QClose l) by (intros X; apply NC; now right). cbn [run_out].
    assert (S1 : exists cur1 pv1, q_inv cur1 pv1 (fst (q_step cmp truthy s e)) /\
              source_now truthy cur (e :: l) = source_now truthy cur1 l /\ (forall j, prop_now j (pv j) (e :: l) = prop_now j (pv1 j) l)).
    { destruct e as [[id|]|id v|id|]; cbn [q_step source_now prop_now].
      - destruct H as (O & C & P & X). rewrite O. exists (if truthy id then Some id else None), pv. split; [| auto].
        unfold q_source. destruct (truthy id); [now apply q_changed_inv | cbn; repeat split; auto].
      - destruct H as (O & C & P & X). rewrite O. exists None, pv. split; [cbn; repeat split; auto | auto].
      - exists cur, (fun j => if Nat.eqb id j then v else pv j). split; [| auto].
        destruct H as (O & C & P & X). rewrite C.
        assert (U : forall j, (if Nat.eqb j id then v else q_prop s j) = if Nat.eqb id j then v else pv j).
        { intros j. rewrite (Nat.eqb_sym j id), P. reflexivity. }
        destruct cur as [c|]; [destruct (Nat.eqb c id) eqn:E |].
        + apply Nat.eqb_eq in E. subst c. now apply q_changed_inv.
        + cbn. repeat split; auto. rewrite Nat.eqb_sym in E. now rewrite E.
        + cbn. repeat split; auto.
      - exists cur, pv. auto.
      - exfalso. apply NC. now left. }
    destruct S1 as (cur1 & pv1 & H1 & E1 & E2). destruct (q_step cmp truthy s e) as [s1 o1]. cbn [fst] in H1.
    specialize (IH s1 cur1 pv1 NC' H1). destruct (run_out (q_step cmp truthy) s1 l) as [s2 o2]. cbn [fst] in *. rewrite E1.
    destruct IH as (O & C & P & X). repeat split; auto.
    - intros j. rewrite P. now rewrite E2.
    - destruct (source_now truthy cur1 l); [now rewrite E2 | exact I].
  Qed.

  (** While the source is an object, the value is its property's value, or one the comparison calls equal to it. *)
  Theorem propstream_follows (prop : nat -> option V) (l : list (qevent V)) (id : nat) :
    ~ In QClose l -> source_now truthy None l = Some id ->
    let s := fst (run_out (q_step cmp truthy) (q_blank prop) l) in
    let now := prop_now id (prop id) l in
    q_value s = now \/ cmp now (q_value s) = true.
  Proof.
    intros NC E. cbv zeta. assert (B : q_inv None prop (q_blank prop)) by (repeat split; auto).
    destruct (q_run l (q_blank prop) None prop NC B) as (_ & _ & _ & X). now rewrite E in X.
  Qed.

  (** In every state and for every event: either the value is replaced by one the comparison calls different, which is
      fired once, or the value stays and nothing is fired. *)
  Theorem propstream_fires (s : qstream V) (e : qevent V) :
    (q_open s = true \/ e <> QClose) ->
    let r := q_step cmp truthy s e in
    (snd r = [Fire (q_value (fst r))] /\ cmp (q_value (fst r)) (q_value s) = false) \/
    (snd r = [] /\ q_value (fst r) = q_value s).
  Proof.
    intros O. cbv zeta.
    assert (G : forall id t, q_value t = q_value s ->
              (snd (q_changed cmp id t) = [Fire (q_value (fst (q_changed cmp id t)))] /\ cmp (q_value (fst (q_changed cmp id t))) (q_value s) = false) \/
              (snd (q_changed cmp id t) = [] /\ q_value (fst (q_changed cmp id t)) = q_value s)).
    { intros id t T. unfold q_changed. rewrite T. destruct (cmp (q_prop t id) (q_value s)) eqn:E; cbn; auto. }
    destruct e as [[id|]|id v|id|]; cbn [q_step].
    - destruct (q_open s); [| now right]. unfold q_source. destruct (truthy id); [now apply G | now right].
    - destruct (q_open s); now right.
    - destruct (q_listen s) as [c|]; [destruct (Nat.eqb c id); [now apply G | now right] | now right].
    - now right.
    - destruct (q_open s); [now right | destruct O; congruence].
  Qed.

  (** A source that becomes None, or a false object, keeps the value; nothing changes it until another source comes. *)
  Theorem propstream_none_keeps (s : qstream V) (o : option nat) (l : list (nat * option V)) :
    match o with Some id => truthy id = false | None => True end -> q_open s = true ->
    let r := run_out (q_step cmp truthy) s (QSource o :: map (fun p => QProp (fst p) (snd p)) l) in
    q_value (fst r) = q_value s /\ snd r = [].
  Proof.
    intros T O. cbv zeta. cbn [run_out q_step]. rewrite O.
    assert (E : q_source cmp truthy o s = (QStream (q_value s) None (q_open s) (q_prop s), [])).
    { destruct o as [id|]; cbn; [now rewrite T | reflexivity]. }
    rewrite E. generalize (q_prop s) as p. induction l as [|[id v] l IH]; intros p; cbn; [auto |].
    specialize (IH (fun j => if Nat.eqb j id then v else p j)).
    match goal with |- context [run_out ?st ?x ?y] => destruct (run_out st x y) as [s2 o2] end. exact IH.
  Qed.

  (** After close nothing changes the value and nothing is fired. *)
  Theorem propstream_close (s : qstream V) (l : list (qevent V)) :
    q_open s = true -> ~ In QClose l ->
    let r := run_out (q_step cmp truthy) s (QClose :: l) in q_value (fst r) = q_value s /\ snd r = [].
  Proof.
    intros O N. cbv zeta. cbn [run_out q_step]. rewrite O. generalize (q_prop s) as p.
    induction l as [|e l IH]; intros p; cbn [run_out]; [cbn; auto |].
    assert (N' : ~ In QClose l) by (intros Z; apply N; now right).
    destruct e as [o|id v|id|]; cbn [q_step q_open q_listen q_value q_prop].
    - specialize (IH N' p). destruct (run_out (q_step cmp truthy) (QStream (q_value s) None false p) l). exact IH.
    - specialize (IH N' (fun j => if Nat.eqb j id then v else p j)).
      destruct (run_out (q_step cmp truthy) (QStream (q_value s) None false (fun j => if Nat.eqb j id then v else p j)) l). exact IH.
    - specialize (IH N' p). destruct (run_out (q_step cmp truthy) (QStream (q_value s) None false p) l). exact IH.
    - exfalso. apply N. now left.
  Qed.
End PropStream_.

(** FINDING: with source None the stream still shows the old object's value. *)
Theorem propstream_none_refuted :
  ~ (forall (prop : nat -> option nat) (l : list (qevent nat)), ~ In QClose l ->
       source_now (fun _ => true) None l = None ->
       q_value (fst (run_out (q_step (fun a b => match a, b with Some x, Some y => Nat.eqb x y | None, None => true | _, _ => false end) (fun _ => true)) (q_blank prop) l)) = None).
Proof.
  intros H. specialize (H (fun _ => Some 5) [QSource (Some 0); QSource None]).
  assert (E : Some 5 = None); [| discriminate]. apply H; [| reflexivity]. intros [X | [X | []]]; discriminate.
Qed.

Definition onat_eqb (a b : option nat) : bool := match a, b with Some x, Some y => Nat.eqb x y | None, None => true | _, _ => false end.
Example vs_case : run_out (vs_step (fun a b => negb (Nat.eqb a b))) 1 [1; 2; 2; 1] = (1, [Fire 2; Fire 1]).
Proof. reflexivity. Qed.
Example map_case :
  let neq a b := negb (onat_eqb a b) in let fn n := Some (n / 2) in
  run_out (ms_step neq fn) (fst (ms_make neq fn 2)) (map MSource [3; 4; 5; 2] ++ [MClose; MSource 9]) =
  (MStream None false 0, [Fire (Some 2); Fire (Some 1); Fire (Some 1)]).
Proof. reflexivity. Qed.
Example combine_case :
  run_out (cs_step (fun l => fold_left Nat.add l 0)) (fst (cs_make (fun l => fold_left Nat.add l 0) [1; 2])) (inputs [(1, 5); (0, 3); (0, 3)]) =
  (CStream [3; 5] (Some 8) true, [Fire (Some 6); Fire (Some 8); Fire (Some 8)]).
Proof. reflexivity. Qed.
Example concat_case :
  let r := run_out (k_step (fun n => negb (Nat.eqb n 0))) (k_blank (fun j => Some (10 * j)))
    [KOuter 1 1; KInner 1 (Some 11); KOuter 2 2; KInner 1 (Some 12); KInner 2 None; KOuter 0 3; KInner 2 (Some 21); KOuter 1 1; KClose; KInner 1 (Some 13)] in
  snd r = [Fire (Some 10); Fire (Some 11); Fire (Some 20); Fire None; Fire None; Fire (Some 12); Fire None] /\
  map (k_refs (fst r)) [0; 1; 2; 3] = [0; 0; 0; 0].
Proof. split; reflexivity. Qed.
Example propstream_case :
  let r := run_out (q_step onat_eqb (fun _ => true)) (q_blank (fun j => Some j))
    [QSource (Some 1); QProp 1 (Some 7); QProp 2 (Some 7); QSource (Some 2); QOther 2; QProp 1 (Some 8); QSource None; QProp 2 (Some 9); QSource (Some 2)] in
  q_value (fst r) = Some 9 /\ snd r = [Fire (Some 1); Fire (Some 7); Fire (Some 9)].
Proof. split; reflexivity. Qed.

Print Assumptions vs_any_comparison.
Print Assumptions vs_fires.
Print Assumptions map_any_comparison.
Print Assumptions map_close.
Print Assumptions map_fires.
Print Assumptions map_of_value.
Print Assumptions combine_value.
Print Assumptions combine_fires.
Print Assumptions combine_close.
Print Assumptions concat_follows.
Print Assumptions concat_fires.
Print Assumptions concat_close.
Print Assumptions propstream_follows.
Print Assumptions propstream_fires.
Print Assumptions propstream_none_keeps.
Print Assumptions propstream_close.
Print Assumptions propstream_none_refuted.
