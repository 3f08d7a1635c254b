(** Lemmas on properties that are objects. *)
From Coq Require Import List Bool Arith Lia.
From Verif Require Import PyBase PropShare_Model PropShare_Spec.
Import ListNotations.

Lemma put_length {C} a (c : C) l : length (put a c l) = length l.
Proof. revert a. induction l as [|x l IH]; intros [|a]; cbn; auto. Qed.
Lemma put_eq {C} a (c : C) l : a < length l -> nth_error (put a c l) a = Some c.
Proof. revert a. induction l as [|x l IH]; intros [|a] H; cbn in *; try lia; [reflexivity|]. apply IH. lia. Qed.
Lemma put_ne {C} a b (c : C) l : a <> b -> nth_error (put a c l) b = nth_error l b.
Proof. revert a b. induction l as [|x l IH]; intros [|a] [|b] H; cbn; try reflexivity; [congruence|]. apply IH. congruence. Qed.

Section Proofs.
  Context {N C : Type} (N_dec : forall x y : N, {x = y} + {x <> y}).
  Variables (validate : N -> option (C -> @verdict C)) (special calls : N -> bool).
  Notation state := (@state N C).
  Notation op := (@op N C).
  Notation step := (step N_dec validate special calls).
  Notation run := (run N_dec validate special calls).
  Notation set_value := (set_value N_dec validate calls).

  Lemma upd_eq {B} n (b : B) f : upd N_dec n b f n = b.
  Proof. unfold upd. destruct (N_dec n n); congruence. Qed.
  Lemma upd_ne {B} n m (b : B) f : n <> m -> upd N_dec n b f m = f m.
  Proof. unfold upd. destruct (N_dec n m); congruence. Qed.

  (** setting puts no more than one object at the end of the heap, which is the value then if it is there *)
  Lemma set_value_spec n a s s' : set_value n a s = Some s' ->
    exists new b, heap s' = heap s ++ new /\ own s' = upd N_dec n b (own s) /\ has s' = (if calls n then b :: has s else has s) /\ stored s' = stored s /\
      (new = [] /\ b = a /\ a < length (heap s) /\ (exists f c, validate n = Some f /\ f c = Keep) \/ exists c, new = [c] /\ b = length (heap s)).
  Proof.
    unfold PropShare_Model.set_value. destruct (nth_error (heap s) a) as [c|] eqn:E; [|discriminate].
    assert (L : a < length (heap s)) by (apply nth_error_Some; congruence).
    destruct (validate n) as [f|] eqn:F; [destruct (f c) as [|c'|] eqn:G|]; intros Q; try discriminate; injection Q as <-; cbn [heap own has stored].
    - exists [], a. rewrite app_nil_r. repeat split; auto. left. repeat split; auto. exists f, c. auto.
    - exists [c'], (length (heap s)). repeat split; auto. right. exists c'. auto.
    - exists [c], (length (heap s)). repeat split; auto. right. exists c. auto.
  Qed.
  Lemma set_sound n a s s' : set_value n a s = Some s' -> sound s -> sound s'.
  Proof.
    intros E [S1 S2]. apply set_value_spec in E as (new & b & H1 & H2 & H3 & _ & H5).
    assert (B : b < length (heap s')). { rewrite H1, app_length. destruct H5 as [(-> & -> & L & _)|(c & -> & ->)]; cbn; lia. }
    assert (L : length (heap s) <= length (heap s')) by (rewrite H1, app_length; lia). split.
    - intros x X. rewrite H3 in X. assert (Q : x = b \/ In x (has s)) by (destruct (calls n); [destruct X; auto|auto]). destruct Q as [->|Q]; [exact B|]. apply S1 in Q. lia.
    - intros m. rewrite H2. unfold upd. destruct (N_dec n m); [exact B|]. specialize (S2 m). lia.
  Qed.
  Lemma step_sound s o : sound s -> sound (step s o).
  Proof.
    intros S. destruct o as [c|a c|n a|n a|n]; cbn [PropShare_Model.step].
    - destruct S as [S1 S2]. split; cbn [heap own has]; rewrite app_length; cbn.
      + intros x [<-|X]; [lia|]. apply S1 in X. lia.
      + intros m. specialize (S2 m). lia.
    - destruct (in_dec _ _ _); [|exact S]. unfold sound. cbn [heap own has]. rewrite put_length. exact S.
    - destruct (in_dec _ _ _); [|exact S]. destruct (set_value n a s) as [s'|] eqn:E; [|exact S]. exact (set_sound n a s s' E S).
    - destruct (in_dec _ _ _); [|exact S]. destruct (set_value n a s) as [s'|] eqn:E; [|exact S]. exact (set_sound n a s s' E S).
    - destruct (special n); [destruct (nth_error _ _) eqn:E; [|exact S]|].
      + destruct S as [S1 S2]. split; cbn [heap own has]; rewrite app_length; cbn.
        * intros x [<-|X]; [lia|]. apply S1 in X. lia.
        * intros m. specialize (S2 m). lia.
      + destruct S as [S1 S2]. split; cbn [heap own has]; [|exact S2]. intros x [<-|X]; [apply S2|apply S1, X].
  Qed.
  Lemma run_sound h : forall s, sound s -> sound (run s h).
  Proof. induction h as [|o h IH]; intros s S; [exact S|]. apply IH, step_sound, S. Qed.

  (** nobody else has the object that is the value *)
  Definition private (s : state) (n : N) : Prop := ~ In (own s n) (has s) /\ forall m, m <> n -> own s m <> own s n.
  Lemma old_obj (s : state) new a : a < length (heap s) -> nth_error (heap s ++ new) a = nth_error (heap s) a.
  Proof. apply nth_error_app1. Qed.
  Lemma set_other n m a s s' : set_value m a s = Some s' -> m <> n -> sound s -> In a (has s) -> private s n ->
    private s' n /\ value s' n = value s n /\ stored s' n = stored s n.
  Proof.
    intros E D [S1 S2] A [P1 P2]. apply set_value_spec in E as (new & b & H1 & H2 & H3 & H4 & H5). unfold value, obj.
    assert (O : own s' n = own s n) by (rewrite H2; apply upd_ne; exact D).
    assert (B : b <> own s n). { destruct H5 as [(_ & -> & _ & _)|(c & _ & ->)]; [intros ->; contradiction|]. specialize (S2 n). lia. }
    repeat split.
    - rewrite O, H3. destruct (calls m); [|exact P1]. intros [X|X]; contradiction.
    - intros k K. rewrite O, H2. unfold upd. destruct (N_dec m k); [exact B|apply P2, K].
    - rewrite O, H1. apply old_obj, S2.
    - rewrite H4. reflexivity.
  Qed.
  Lemma step_private n s o : sound s -> private s n -> ~ assigns n o -> (special n = true \/ ~ gets n o) ->
    private (step s o) n /\ value (step s o) n = value s n /\ stored (step s o) n = stored s n.
  Proof.
    intros S P A G. pose proof S as [S1 S2]. destruct P as [P1 P2]. destruct o as [c|a c|m a|m a|m]; cbn [PropShare_Model.step assigns gets] in *.
    - unfold private, value, obj. cbn [heap own has stored]. rewrite old_obj by apply S2. repeat split; auto. intros [X|X]; [|contradiction]. specialize (S2 n). lia.
    - destruct (in_dec _ _ _) as [I|I]; [|repeat split; auto]. unfold private, value, obj. cbn [heap own has stored]. rewrite put_ne by (intros ->; contradiction). repeat split; auto.
    - destruct (in_dec _ _ _) as [I|I]; [|repeat split; auto]. destruct (set_value m a s) as [s'|] eqn:E; [|repeat split; auto].
      destruct (set_other n m a s s' E A S I (conj P1 P2)) as (Q1 & Q2 & Q3). unfold private, value, obj in *. cbn [heap own has stored]. rewrite upd_ne by exact A. auto.
    - destruct (in_dec _ _ _) as [I|I]; [|repeat split; auto]. destruct (set_value m a s) as [s'|] eqn:E; [|repeat split; auto].
      exact (set_other n m a s s' E A S I (conj P1 P2)).
    - destruct (special m) eqn:E.
      + destruct (nth_error (heap s) (own s m)) as [c|]; [|repeat split; auto]. unfold private, value, obj. cbn [heap own has stored]. rewrite old_obj by apply S2. repeat split; auto.
        intros [X|X]; [|contradiction]. specialize (S2 n). lia.
      + assert (D : m <> n) by (intros ->; destruct G as [G|G]; [congruence|apply G; reflexivity]).
        unfold private, value, obj. cbn [heap own has stored]. repeat split; auto. intros [X|X]; [|contradiction]. apply (P2 m D X).
  Qed.
  Lemma run_private n h : forall s, sound s -> private s n -> (forall o, In o h -> ~ assigns n o) -> (special n = true \/ forall o, In o h -> ~ gets n o) ->
    private (run s h) n /\ value (run s h) n = value s n /\ stored (run s h) n = stored s n.
  Proof.
    induction h as [|o h IH]; intros s S P A G; [repeat split; auto; apply P|]. change (run s (o :: h)) with (run (step s o) h).
    destruct (step_private n s o S P (A o (or_introl eq_refl))) as (Q1 & Q2 & Q3). { destruct G as [G|G]; [left; exact G|right; apply G; left; reflexivity]. }
    destruct (IH (step s o) (step_sound s o S) Q1) as (R1 & R2 & R3); [intros o' M; apply A; right; exact M|destruct G as [G|G]; [left; exact G|right; intros o' M; apply G; right; exact M]|].
    rewrite <- Q2, <- Q3. auto.
  Qed.
  (** a value that was copied or made new, and that no callback was given, is private *)
  Lemma assign_private n a s c v : sound s -> obj s a = Some c -> assigned (validate n) c = Some v -> calls n = false ->
    exists s', set_value n a s = Some s' /\ private s' n /\ value s' n = Some v /\ sound s' /\ stored s' = stored s.
  Proof.
    intros S E V K. unfold obj in E. unfold PropShare_Model.set_value. rewrite E, K. pose proof S as [S1 S2]. unfold assigned in V.
    assert (G : forall x, let s' := State (heap s ++ [x]) (upd N_dec n (length (heap s)) (own s)) (has s) (stored s) in
      private s' n /\ value s' n = Some x /\ sound s' /\ stored s' = stored s).
    { intros x. cbv zeta. unfold private, value, obj, sound. cbn [heap own has stored]. rewrite upd_eq. repeat split.
      - intros X. apply S1 in X. lia.
      - intros m D. rewrite upd_ne by congruence. specialize (S2 m). lia.
      - rewrite nth_error_app2, Nat.sub_diag by lia. reflexivity.
      - intros b B. rewrite app_length. apply S1 in B. lia.
      - intros m. rewrite app_length. cbn. unfold upd. destruct (N_dec n m); [lia|]. specialize (S2 m). lia. }
    destruct (validate n) as [f|]; [destruct (f c) as [|c'|]; try discriminate; injection V as <-|injection V as <-]; eexists; (split; [reflexivity|]); apply G.
  Qed.
End Proofs.
