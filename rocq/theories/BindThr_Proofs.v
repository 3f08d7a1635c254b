From Coq Require Import Arith Bool List Lia.
From Verif Require Import PyBase BindThr_Model BindThr_Spec.
Import ListNotations.

Section Proofs.
  Context {V : Type}.
  Variable same cmp : V -> V -> bool.
  Variable observers : list (observer V).
  Notation step := (step same cmp observers).
  Notation run := (run same cmp observers).
  Notation right_view := (right_view observers).
  Notation undisturbed := (undisturbed same cmp observers).

  Lemma run_snoc (s : state V) ts t : run s (ts ++ [t]) = step (run s ts) t.
  Proof. unfold run. rewrite fold_left_app. reflexivity. Qed.
  Lemma put_eq {B} (f : nat -> B) n b : put f n b n = b.
  Proof. unfold put. rewrite Nat.eqb_refl. reflexivity. Qed.
  Lemma put_ne {B} (f : nat -> B) n b m : m <> n -> put f n b m = f m.
  Proof. unfold put. intros H. apply Nat.eqb_neq in H. rewrite H. reflexivity. Qed.

  Lemma undisturbed_snoc P (s : state V) ts t : undisturbed P s (ts ++ [t]) ->
    undisturbed P s ts /\ (value (step (run s ts) t) = value (run s ts) \/ forall u, u <> t -> ~ P (at_ (threads (run s ts) u))).
  Proof.
    intros H. split.
    - intros us u vs E. apply (H us u (vs ++ [t])). rewrite E, <- app_assoc. reflexivity.
    - rewrite <- run_snoc. apply (H ts t []). reflexivity.
  Qed.

  (** other threads stay where they are *)
  Lemma step_other (s : state V) t u : u <> t -> threads (step s t) u = threads s u.
  Proof.
    intros H. unfold step, goes, begins. destruct (at_ (threads s t)) as [|c v|c v|v k|v k r|v k r|v k|v k q]; simpl; try (rewrite put_ne by exact H; reflexivity).
    - destruct (todo (threads s t)); simpl; [reflexivity|apply put_ne; exact H].
    - destruct (same v (value s)); simpl; apply put_ne; exact H.
    - destruct (nth_error observers k); simpl; apply put_ne; exact H.
    - destruct (nth_error observers k) as [[conv|]|]; simpl; [apply put_ne; exact H| |reflexivity].
      destruct (cmp r (shown s k)); simpl; apply put_ne; exact H.
  Qed.
  Lemma step_value (s : state V) t :
    (exists c v, at_ (threads s t) = Write c v /\ value (step s t) = v) \/ value (step s t) = value s.
  Proof.
    unfold step, goes, begins. destruct (at_ (threads s t)) as [|c v|c v|v k|v k r|v k r|v k|v k q]; simpl; auto.
    - right. destruct (todo (threads s t)); reflexivity.
    - right. destruct (same v (value s)); reflexivity.
    - left. eauto.
    - right. destruct (nth_error observers k); reflexivity.
    - right. destruct (nth_error observers k) as [[conv|]|]; try reflexivity. destruct (cmp r (shown s k)); reflexivity.
  Qed.

  (** ** an observer *)
  Section Observer.
    Variable k : nat.
    Hypothesis Hk : k < length observers.
    Hypothesis cmp_ok : forall a b, cmp a b = true -> a = b.
    (** the thread will still look at observer [k] *)
    Definition owes (p : place V) : Prop :=
      match p with Notify _ j => j <= k | Got _ j _ | Keep _ j _ => j <= k | Reread _ j | Fire _ j _ => j < k | _ => False end.
    (** the thread has changed the stream and will fire it *)
    Definition fires (p : place V) : Prop := match p with Reread _ j | Fire _ j _ => j = k | _ => False end.
    Definition fresh (s : state V) (p : place V) : Prop :=
      match p with
      | Got _ j r => j = k -> r = value s
      | Keep _ j r => j = k -> r = value s /\ nth_error observers k = Some Streamed
      | Reread _ j => j = k -> shown s k = value s /\ nth_error observers k = Some Streamed
      | Fire _ j q => j = k -> shown s k = value s /\ q = value s /\ nth_error observers k = Some Streamed
      | _ => True
      end.
    Record inv (v0 : V) (s : state V) : Prop := Inv {
      i_fresh : forall t, fresh s (at_ (threads s t));
      i_shown : shown s k = right_view k (value s) \/ exists t, owes (at_ (threads s t));
      i_told : last_told k (right_view k v0) (told s) = shown s k \/ exists t, fires (at_ (threads s t)) }.

    Lemma right_stream (v : V) : nth_error observers k = Some Streamed -> right_view k v = v.
    Proof. unfold right_view. intros ->. reflexivity. Qed.
    Lemma last_told_cons (v0 : V) j q l : last_told k v0 ((j, q) :: l) = if Nat.eqb j k then q else last_told k v0 l.
    Proof. unfold last_told. simpl. destruct (Nat.eqb j k); reflexivity. Qed.

    Lemma start_inv v progs : inv v (start observers v progs).
    Proof. split; [intros t; exact I|left; reflexivity|left; reflexivity]. Qed.

    Lemma keeps v0 (s s' : state V) t :
      inv v0 s ->
      (forall u, u <> t -> threads s' u = threads s u) ->
      (forall u, u <> t -> fresh s' (at_ (threads s u))) ->
      fresh s' (at_ (threads s' t)) ->
      (owes (at_ (threads s' t)) \/ shown s' k = right_view k (value s') \/
        (~ owes (at_ (threads s t)) /\ shown s' k = shown s k /\ value s' = value s)) ->
      (fires (at_ (threads s' t)) \/ last_told k (right_view k v0) (told s') = shown s' k \/
        (~ fires (at_ (threads s t)) /\ shown s' k = shown s k /\ told s' = told s) \/
        (~ fires (at_ (threads s t)) /\ shown s' k = shown s k /\ last_told k (right_view k v0) (told s') = last_told k (right_view k v0) (told s))) ->
      inv v0 s'.
    Proof.
      intros [F S T] Ho Hf Hft Hs Ht. split.
      - intros u. destruct (Nat.eq_dec u t) as [->|N]; [exact Hft|]. rewrite Ho by exact N. apply Hf. exact N.
      - destruct Hs as [H|[H|(H & E1 & E2)]]; [right; exists t; exact H|left; exact H|].
        rewrite E1, E2. destruct S as [S|[u S]]; [left; exact S|right]. exists u.
        destruct (Nat.eq_dec u t) as [->|N]; [exfalso; exact (H S)|]. rewrite Ho by exact N. exact S.
      - assert (G : forall E, ~ fires (at_ (threads s t)) -> shown s' k = shown s k -> E ->
          last_told k (right_view k v0) (told s') = last_told k (right_view k v0) (told s) ->
          last_told k (right_view k v0) (told s') = shown s' k \/ (exists t0, fires (at_ (threads s' t0)))).
        { intros E H E1 _ E2. rewrite E1, E2. destruct T as [T|[u T]]; [left; exact T|right]. exists u.
          destruct (Nat.eq_dec u t) as [->|N]; [exfalso; exact (H T)|]. rewrite Ho by exact N. exact T. }
        destruct Ht as [H|[H|[(H & E1 & E2)|(H & E1 & E2)]]]; [right; exists t; exact H|left; exact H| |].
        + apply (G True H E1 I). rewrite E2. reflexivity.
        + apply (G True H E1 I E2).
    Qed.

    Lemma fresh_same (s s' : state V) p : value s' = value s -> shown s' k = shown s k -> fresh s p -> fresh s' p.
    Proof. intros E1 E2. destruct p; simpl; rewrite ?E1, ?E2; auto. Qed.
    Lemma fresh_outside (s : state V) p : ~ inside k p -> fresh s p.
    Proof. destruct p; simpl; auto; intros H E; contradiction. Qed.

    Lemma step_inv v0 (s : state V) t : inv v0 s ->
      (value (step s t) = value s \/ forall u, u <> t -> ~ inside k (at_ (threads s u))) -> inv v0 (step s t).
    Proof.
      intros HI Hd. assert (HI' := HI). destruct HI' as [F S T].
      assert (Ho := fun u => step_other s t u).
      assert (Ft := F t).
      unfold step in *. destruct (at_ (threads s t)) as [|c v|c v|v j|v j r|v j r|v j|v j q] eqn:Ep.
      - (* Idle *)
        destruct (todo (threads s t)) as [|c cs]; [exact HI|].
        apply (keeps v0 s _ t HI Ho); unfold begins; simpl; rewrite ?put_eq, ?Ep; cbn [at_ owes fires fresh]; try exact I; try solve [intros u _; apply (fresh_same s); auto].
        + right. right. auto.
        + right. right. left. auto.
      - destruct (same v (value s)).
        + apply (keeps v0 s _ t HI Ho); unfold goes; simpl; rewrite ?put_eq, ?Ep; cbn [at_ owes fires fresh]; try exact I; try solve [intros u _; apply (fresh_same s); auto].
          * right. right. auto.
          * right. right. left. auto.
        + apply (keeps v0 s _ t HI Ho); unfold goes; simpl; rewrite ?put_eq, ?Ep; cbn [at_ owes fires fresh]; try exact I; try solve [intros u _; apply (fresh_same s); auto].
          * right. right. auto.
          * right. right. left. auto.
      - (* Write *)
        apply (keeps v0 s _ t HI Ho); unfold goes in *; simpl in *; rewrite ?put_eq, ?Ep; cbn [at_ owes fires fresh]; try exact I; try solve [intros u _; apply (fresh_same s); auto].
        + intros u N. destruct Hd as [Hd|Hd]; [|apply fresh_outside; exact (Hd u N)].
          apply (fresh_same s); auto.
        + left. lia.
        + right. right. left. auto.
      - (* Notify *)
        destruct (nth_error observers j) as [o|] eqn:Ej.
        + apply (keeps v0 s _ t HI Ho); unfold goes; simpl; rewrite ?put_eq, ?Ep; cbn [at_ owes fires fresh]; try exact I; try solve [intros u _; apply (fresh_same s); auto].
          * intros _. reflexivity.
          * destruct (le_dec j k) as [H|H]; [left; exact H|right; right; auto].
          * right. right. left. auto.
        + apply nth_error_None in Ej. apply (keeps v0 s _ t HI Ho); unfold goes; simpl; rewrite ?put_eq, ?Ep; cbn [at_ owes fires fresh]; try exact I; try solve [intros u _; apply (fresh_same s); auto].
          * right. right. split; [lia|auto].
          * right. right. left. auto.
      - (* Got *)
        destruct (nth_error observers j) as [[conv|]|] eqn:Ej; [| |exact HI].
        + apply (keeps v0 s _ t HI Ho); unfold goes; simpl; rewrite ?put_eq, ?Ep; cbn [at_ owes fires fresh]; try exact I; try solve [intros u _; apply (fresh_same s); auto].
          * intros u N. destruct (Nat.eq_dec j k) as [->|Nj].
            -- assert (Fu := F u). destruct (at_ (threads s u)) as [|c1 v1|c1 v1|v1 j1|v1 j1 r1|v1 j1 r1|v1 j1|v1 j1 q1]; simpl in *; auto; intros E; exfalso; specialize (Fu E); rewrite Ej in Fu; intuition congruence.
            -- apply (fresh_same s); auto. simpl. apply put_ne. auto.
          * destruct (Nat.eq_dec j k) as [->|Nj].
            -- right. left. rewrite put_eq. unfold BindThr_Spec.right_view. rewrite Ej. f_equal. apply Ft. reflexivity.
            -- rewrite put_ne by auto. destruct (le_dec j k); [left; lia|right; right; auto].
          * destruct (Nat.eq_dec j k) as [->|Nj].
            -- right. left. rewrite last_told_cons, Nat.eqb_refl, put_eq. reflexivity.
            -- right. right. right. rewrite last_told_cons, put_ne by auto. destruct (Nat.eqb_spec j k); [contradiction|]. auto.
        + destruct (cmp r (shown s j)) eqn:Ec.
          * apply (keeps v0 s _ t HI Ho); unfold goes; simpl; rewrite ?put_eq, ?Ep; cbn [at_ owes fires fresh]; try exact I; try solve [intros u _; apply (fresh_same s); auto].
            -- destruct (Nat.eq_dec j k) as [->|Nj].
               ++ right. left. rewrite right_stream by exact Ej. rewrite <- (cmp_ok _ _ Ec). apply Ft. reflexivity.
               ++ destruct (le_dec j k); [left; lia|right; right; auto].
            -- right. right. left. auto.
          * apply (keeps v0 s _ t HI Ho); unfold goes; simpl; rewrite ?put_eq, ?Ep; cbn [at_ owes fires fresh]; try exact I; try solve [intros u _; apply (fresh_same s); auto].
            -- intros E. subst j. split; [apply Ft; reflexivity|exact Ej].
            -- destruct (le_dec j k); [left; lia|right; right; auto].
            -- right. right. left. auto.
      - (* Keep *)
        apply (keeps v0 s _ t HI Ho); unfold goes; simpl; rewrite ?put_eq, ?Ep; cbn [at_ owes fires fresh]; try exact I; try solve [intros u _; apply (fresh_same s); auto].
        + intros u N. destruct (Nat.eq_dec j k) as [->|Nj].
          * destruct (Ft eq_refl) as [Er Es]. assert (Fu := F u). destruct (at_ (threads s u)); simpl in *; auto; rewrite put_eq; intuition.
          * apply (fresh_same s); auto. simpl. apply put_ne. auto.
        + intros E. subst j. simpl. rewrite put_eq. apply Ft. reflexivity.
        + destruct (Nat.eq_dec j k) as [->|Nj].
          * right. left. destruct (Ft eq_refl) as [Er Es]. rewrite put_eq, right_stream by exact Es. exact Er.
          * rewrite put_ne by auto. destruct (le_dec j k); [left; lia|right; right; auto].
        + destruct (Nat.eq_dec j k) as [->|Nj]; [left; reflexivity|].
          right. right. left. rewrite put_ne by auto. auto.
      - (* Reread *)
        apply (keeps v0 s _ t HI Ho); unfold goes; simpl; rewrite ?put_eq, ?Ep; cbn [at_ owes fires fresh]; try exact I; try solve [intros u _; apply (fresh_same s); auto].
        + intros E. subst j. destruct (Ft eq_refl) as [E1 E2]. auto.
        + destruct (le_dec k j); [right; right; split; [lia|auto]|left; lia].
        + destruct (Nat.eq_dec j k) as [->|Nj]; [left; reflexivity|]. right. right. left. auto.
      - (* Fire *)
        apply (keeps v0 s _ t HI Ho); unfold goes; simpl; rewrite ?put_eq, ?Ep; cbn [at_ owes fires fresh]; try exact I; try solve [intros u _; apply (fresh_same s); auto].
        + destruct (le_dec k j); [right; right; split; [lia|auto]|left; lia].
        + destruct (Nat.eq_dec j k) as [->|Nj].
          * right. left. rewrite last_told_cons, Nat.eqb_refl. destruct (Ft eq_refl) as (E1 & E2 & _). congruence.
          * right. right. right. rewrite last_told_cons. destruct (Nat.eqb_spec j k); [contradiction|]. auto.
    Qed.
  End Observer.
End Proofs.
