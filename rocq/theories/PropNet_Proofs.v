(** Invariants of the acts. *)
From Coq Require Import List Bool Arith Lia.
From Verif Require Import PyBase PropNet_Model PropNet_Spec.
Import ListNotations.

Section Proofs.
  Context {N V J : Type} (N_dec : forall x y : N, {x = y} + {x <> y}).
  Variables (validate : N -> V -> option V) (json : N -> V -> option J) (parse : N -> J -> V) (names : list N).
  Notation state := (@state N V J).
  Notation act := (@act N V J).
  Notation step := (step N_dec validate json parse names).
  Notation run := (run N_dec validate json parse names).
  Notation set_value := (set_value N_dec validate).
  Notation read_next := (read_next N_dec validate parse).

  (** an invariant of the elementary changes is one of all acts *)
  Lemma inv_run (I : state -> Prop) :
    (forall s, I s -> I (note Refused s)) ->
    (forall s n v f, frame_name f = n -> I s -> I (State (upd N_dec n v (value s)) (stored s) (count s) (f :: stack s) (Called n v :: log s))) ->
    (forall s n j, I s -> I (State (value s) (upd N_dec n (Some j) (stored s)) (S (count s)) (stack s) (Custom n j :: log s))) ->
    (forall s n k, stack s = FSet n :: k -> I s -> I (finish N_dec json n (pop s))) ->
    (forall s n d r k, stack s = FRead n d r :: k -> I s -> I (note (WasRead n) (pop s))) ->
    (forall s f k, stack s = f :: k -> I s -> I (note (Failed (frame_name f)) (pop s))) ->
    forall s h, I s -> I (run s h).
  Proof.
    intros H1 H2 H3 H4 H5 H6 s h. revert s.
    assert (R : forall n v f s, frame_name f = n -> I s -> I (set_value n v f s)).
    { intros n v f s F Is. unfold PropNet_Model.set_value. destruct (validate n v); auto. }
    assert (RN : forall d rest s, I s -> I (read_next d rest s)).
    { intros d rest. induction rest as [|n rest IH]; intros s Is; cbn [PropNet_Model.read_next]; [exact Is|].
      destruct (d n); [apply R; [reflexivity|exact Is]|apply IH; exact Is]. }
    induction h as [|a h IH]; intros s Is; [exact Is|]. apply IH. destruct a as [n v|n j|d| |]; cbn [PropNet_Model.step].
    - apply R; [reflexivity|exact Is].
    - apply H3; exact Is.
    - apply RN; exact Is.
    - destruct (stack s) as [|[n|n d r] k] eqn:E; [exact Is|eapply H4; eassumption|apply RN; eapply H5; eassumption].
    - destruct (stack s) as [|f k] eqn:E; [exact Is|eapply H6; eassumption].
  Qed.

  Lemma upd_eq {B} n (b : B) f : upd N_dec n b f n = b.
  Proof. unfold upd. destruct (N_dec n n); congruence. Qed.
  Lemma upd_ne {B} n m (b : B) f : n <> m -> upd N_dec n b f m = f m.
  Proof. unfold upd. destruct (N_dec n m); congruence. Qed.

  Section From.
    Variables (v0 : N -> V) (j0 : N -> option J) (c0 : nat).
    Notation start := (State v0 j0 c0 [] []).

    Lemma told_inv h n : value (run start h) n = last_told N_dec (v0 n) n (log (run start h)).
    Proof.
      apply (inv_run (fun s => value s n = last_told N_dec (v0 n) n (log s))); try (intros; assumption); [|reflexivity].
      intros s m v f _ IH. cbn [value log last_told]. unfold upd. destruct (N_dec m n); [reflexivity|exact IH].
    Qed.
    Lemma stored_inv h n : stored (run start h) n = last_written N_dec (j0 n) n (log (run start h)).
    Proof.
      apply (inv_run (fun s => stored s n = last_written N_dec (j0 n) n (log s))); try (intros; assumption); [| |reflexivity].
      - intros s m j IH. cbn [stored log last_written]. unfold upd. destruct (N_dec m n); [reflexivity|exact IH].
      - intros s m k _ IH. cbn. unfold upd. destruct (N_dec m n) as [->|]; [reflexivity|exact IH].
    Qed.
    Lemma count_inv h : count (run start h) = c0 + writes (log (run start h)).
    Proof.
      apply (inv_run (fun s => count s = c0 + writes (log s))); try (intros; assumption); [| |unfold writes; cbn; lia].
      - intros s m j IH. unfold writes in *. cbn. lia.
      - intros s m k _ IH. unfold writes in *. cbn. lia.
    Qed.
    (** every write is of what was last told *)
    Definition right_writes (l : list (@event N V J)) : Prop :=
      forall l1 n j l2, l = l1 ++ Wrote n j :: l2 -> j = json n (last_told N_dec (v0 n) n l2).
    Lemma right_cons e l : (forall n j, e <> Wrote n j) -> right_writes l -> right_writes (e :: l).
    Proof.
      intros D R l1 n j l2 E. destruct l1 as [|e' l1]; [injection E as -> ->; exfalso; eapply D; reflexivity|].
      injection E as -> ->. eapply R. reflexivity.
    Qed.
    Lemma writes_inv h : right_writes (log (run start h)).
    Proof.
      enough (H : right_writes (log (run start h)) /\ forall n, value (run start h) n = last_told N_dec (v0 n) n (log (run start h))) by apply H.
      apply (inv_run (fun s => right_writes (log s) /\ forall n, value s n = last_told N_dec (v0 n) n (log s))).
      - intros s [R T]. split; [apply right_cons; [discriminate|exact R]|exact T].
      - intros s m v f _ [R T]. split; [apply right_cons; [discriminate|exact R]|]. intros n. cbn [value log last_told]. unfold upd.
        destruct (N_dec m n); [reflexivity|apply T].
      - intros s m j [R T]. split; [apply right_cons; [discriminate|exact R]|exact T].
      - intros s m k _ [R T]. split; [|exact T]. intros l1 n j l2 E. cbn in E. destruct l1 as [|e l1].
        + injection E as E1 E2 E3. subst. rewrite <- T. reflexivity.
        + injection E as E1 E2. eapply R. exact E2.
      - intros s m d r k _ [R T]. split; [apply right_cons; [discriminate|exact R]|exact T].
      - intros s f k _ [R T]. split; [apply right_cons; [discriminate|exact R]|exact T].
      - split; [|reflexivity]. intros l1 n j l2 E. destruct l1; discriminate.
    Qed.
  End From.

  Notation open n s := (In n (map frame_name (stack s))).
  (** a property that no callback runs for is as its last end left it *)
  Definition settled (s0 s : state) (n : N) : Prop :=
    open n s \/
    match last_end N_dec n (log s) with
    | Never => value s n = value s0 n /\ stored s n = stored s0 n
    | Well => in_step json s n
    | Badly => True
    end.
  Lemma settled_pop f s k n s0 e : stack s = f :: k ->
    (frame_name f = n -> match last_end N_dec n (e :: log s) with Badly => True | _ => False end) ->
    (frame_name f <> n -> last_end N_dec n (e :: log s) = last_end N_dec n (log s)) ->
    settled s0 s n -> settled s0 (note e (pop s)) n.
  Proof.
    intros E A B C. unfold settled in *. cbn [note pop stack value stored log]. unfold in_step in *. cbn [value stored]. rewrite E in *. cbn [tl map] in *.
    destruct (N_dec (frame_name f) n) as [D|D].
    - right. specialize (A D). destruct (last_end N_dec n (e :: log s)); tauto.
    - rewrite (B D). destruct C as [[C|C]|C]; [congruence|left; exact C|right; exact C].
  Qed.
  Lemma settled_inv v0 j0 c0 h n : settled (State v0 j0 c0 [] []) (run (State v0 j0 c0 [] []) h) n.
  Proof.
    set (s0 := State v0 j0 c0 [] []). apply (inv_run (fun s => settled s0 s n)).
    - intros s H. exact H.
    - intros s m v f F H. unfold settled, in_step in *. cbn [value stored stack log map last_end]. rewrite F. unfold upd. destruct (N_dec m n) as [->|D]; [left; left; reflexivity|].
      destruct H as [H|H]; [left; right; exact H|right; exact H].
    - intros s m j H. unfold settled, in_step in *. cbn [value stored stack log last_end]. unfold upd. destruct (N_dec m n) as [->|D]; [right; exact I|exact H].
    - intros s m k E H. unfold settled, in_step in *. cbn [value stored stack log last_end finish pop]. rewrite E in *. cbn [tl map frame_name] in *.
      unfold upd. destruct (N_dec m n) as [->|D]; [right; reflexivity|]. destruct H as [[H|H]|H]; [congruence|left; exact H|right; exact H].
    - intros s m d r k E. apply (settled_pop _ s k n s0 _ E); cbn [frame_name last_end]; intros D; destruct (N_dec m n); congruence || exact I || reflexivity.
    - intros s f k E. apply (settled_pop _ s k n s0 _ E); cbn [last_end]; intros D; destruct (N_dec (frame_name f) n); congruence || exact I || reflexivity.
    - right. cbn. auto.
  Qed.

  (** ** reading what is stored *)
  Definition frame_ok (s0 : state) (n : N) (f : @frame N J) : Prop :=
    match f with FSet m => m <> n | FRead _ d _ => d n = None \/ d n = stored s0 n end.
  Lemma reread (s0 : state) (n : N) (h : list act) :
    (forall m v j, json m v = Some j -> validate m (parse m j) = Some v) ->
    in_step json s0 n -> stack s0 = [] ->
    (forall a, In a h -> ~ sets n a /\ match a with Read d => d n = None \/ d n = stored s0 n | _ => True end) ->
    value (run s0 h) n = value s0 n /\ stored (run s0 h) n = stored s0 n.
  Proof.
    intros RT I0 K0 H.
    enough (G : forall s, value s n = value s0 n -> stored s n = stored s0 n -> Forall (frame_ok s0 n) (stack s) ->
      value (run s h) n = value s0 n /\ stored (run s h) n = stored s0 n).
    { apply G; try reflexivity. rewrite K0. constructor. }
    assert (RN : forall d rest s, (d n = None \/ d n = stored s0 n) -> value s n = value s0 n -> stored s n = stored s0 n -> Forall (frame_ok s0 n) (stack s) ->
      let s' := read_next d rest s in value s' n = value s0 n /\ stored s' n = stored s0 n /\ Forall (frame_ok s0 n) (stack s')).
    { intros d rest s D A B C. cbv zeta. induction rest as [|m rest IH]; cbn [PropNet_Model.read_next]; [auto|]. destruct (d m) as [j|] eqn:E; [|exact IH].
      unfold PropNet_Model.set_value. destruct (validate m (parse m j)) as [v|] eqn:W; [|auto]. cbn [value stored stack].
      repeat split; [|exact B|constructor; [exact D|exact C]]. unfold upd. destruct (N_dec m n) as [->|]; [|exact A].
      destruct D as [D|D]; [congruence|]. unfold in_step in I0. rewrite I0, E in D. symmetry in D. apply RT in D. congruence. }
    induction h as [|a h IH]; intros s A B C; [auto|].
    specialize (IH (fun a' M => H a' (or_intror M))). destruct (H a (or_introl eq_refl)) as [X Y]. unfold PropNet_Model.run. cbn [fold_left]. 
    enough (Q : value (step s a) n = value s0 n /\ stored (step s a) n = stored s0 n /\ Forall (frame_ok s0 n) (stack (step s a))) by (apply IH; tauto).
    destruct a as [m v|m j|d| |]; cbn [PropNet_Model.step sets] in *.
    - unfold PropNet_Model.set_value. destruct (validate m v); [|auto]. cbn [value stored stack]. rewrite (upd_ne m n _ _ X). auto.
    - cbn [value stored stack]. rewrite (upd_ne m n _ _ X). auto.
    - apply RN; assumption.
    - destruct (stack s) as [|[m|m d r] k] eqn:E.
      + rewrite E. auto.
      + inversion C as [|? ? F G]; subst. cbn in F. cbn [finish pop value stored stack]. rewrite E, (upd_ne m n _ _ F). auto.
      + inversion C as [|? ? F G]; subst. cbn in F. apply RN; try assumption. cbn [note pop stack]. rewrite E. exact G.
    - destruct (stack s) as [|f k] eqn:E; [rewrite E; auto|]. inversion C as [|? ? F G]; subst. cbn [note pop value stored stack]. rewrite E. auto.
  Qed.

  (** ** settings of one property, each in the callback of the one before, that all fail *)
  Lemma sets_run (n : N) (vs : list V) : forall s, (forall v, In v vs -> validate n v = Some v) ->
    exists l, run s (map (Set_ n) vs) =
      State (value (run s (map (Set_ n) vs))) (stored s) (count s) (map (fun _ => FSet n) vs ++ stack s) l /\
      value (run s (map (Set_ n) vs)) n = last vs (value s n) /\
      forall m, m <> n -> value (run s (map (Set_ n) vs)) m = value s m.
  Proof.
    induction vs as [|v vs IH]; intros s H; [exists (log s); destruct s; auto|].
    cbn [map]. change (run s (Set_ n v :: map (Set_ n) vs)) with (run (step s (Set_ n v)) (map (Set_ n) vs)).
    assert (E : step s (Set_ n v) = State (upd N_dec n v (value s)) (stored s) (count s) (FSet n :: stack s) (Called n v :: log s)).
    { cbn [PropNet_Model.step]. unfold PropNet_Model.set_value. rewrite (H v (or_introl eq_refl)). reflexivity. }
    rewrite E. set (t := State _ _ _ _ _). destruct (IH t (fun w M => H w (or_intror M))) as (l & A & B & C). exists l. split; [|split].
    - rewrite A at 1. f_equal. cbn [stack t]. clear. induction vs as [|w vs IHv]; [reflexivity|]. cbn [map app] in *. rewrite IHv. reflexivity.
    - rewrite B. cbn [value t]. rewrite upd_eq. destruct vs as [|w vs]; [reflexivity|]. clear. revert w. induction vs as [|x vs IHv]; intros w; [reflexivity|]. apply IHv.
    - intros m D. rewrite (C m D). cbn [value t]. apply upd_ne. congruence.
  Qed.
  Lemma raises_run (fs : list (@frame N J)) : forall s k, stack s = fs ++ k ->
    exists l, run s (map (fun _ => Raise) fs) = State (value s) (stored s) (count s) k l.
  Proof.
    induction fs as [|f fs IH]; intros s k E; [exists (log s); cbn in E; subst k; destruct s; reflexivity|].
    cbn [map]. change (run s (Raise :: map (fun _ => Raise) fs)) with (run (step s Raise) (map (fun _ => Raise) fs)).
    cbn [PropNet_Model.step]. rewrite E. cbn [app]. destruct (IH (note (Failed (frame_name f)) (pop s)) k) as (l & A); [cbn; rewrite E; reflexivity|].
    exists l. exact A.
  Qed.
End Proofs.
