From Coq Require Import Arith Bool List Lia.
From Verif Require Import PyBase BindThr_Model BindThr_Spec BindThr_Proofs.
Import ListNotations.

Section Proofs.
  Context {V : Type}.
  Variable same cmp : V -> V -> bool.
  Variable observers : list (observer V).
  Notation step := (step same cmp observers).
  Notation run := (run same cmp observers).
  Notation right_view := (right_view observers).
  Notation undisturbed := (undisturbed same cmp observers).

  (** ** the order in which calls take effect *)
  Definition effect (s : state V) (t : nat) : list (nat * call V) :=
    match at_ (threads s t) with
    | Compare c v => if same v (value s) then [(t, c)] else []
    | Write c v => [(t, c)]
    | _ => []
    end.
  Fixpoint effects (s : state V) (ts : list nat) : list (nat * call V) :=
    match ts with [] => [] | t :: ts => effect s t ++ effects (step s t) ts end.
  Lemma effects_app (s : state V) us vs : effects s (us ++ vs) = effects s us ++ effects (run s us) vs.
  Proof. revert s. induction us as [|u us IH]; intros s; [reflexivity|]. simpl. rewrite IH, app_assoc. reflexivity. Qed.
  Lemma effects_snoc (s : state V) us t : effects s (us ++ [t]) = effects s us ++ effect (run s us) t.
  Proof. rewrite effects_app. simpl. rewrite app_nil_r. reflexivity. Qed.

  Definition computed (s : state V) (p : place V) : Prop :=
    match p with Compare c v | Write c v => v = apply_call (value s) c | _ => True end.
  Record linear (v0 : V) (progs : nat -> list (call V)) (s : state V) (cs : list (nat * call V)) : Prop := Linear {
    l_value : value s = all_at_once v0 cs;
    l_comp : forall t, computed s (at_ (threads s t));
    l_calls : forall t, calls_of t cs ++ pending (at_ (threads s t)) ++ todo (threads s t) = progs t }.

  Lemma calls_of_snoc t (cs ds : list (nat * call V)) : calls_of t (cs ++ ds) = calls_of t cs ++ calls_of t ds.
  Proof. unfold calls_of. rewrite filter_app, map_app. reflexivity. Qed.
  Lemma computed_same (s s' : state V) p : value s' = value s -> computed s p -> computed s' p.
  Proof. intros E. unfold computed. rewrite E. auto. Qed.

  Hypothesis same_ok : forall a b, same a b = true -> a = b.

  Lemma step_linear v0 progs (s : state V) cs t : linear v0 progs s cs ->
    (value (step s t) = value s \/ forall u, u <> t -> ~ updating (at_ (threads s u))) ->
    linear v0 progs (step s t) (cs ++ effect s t).
  Proof.
    intros [LV LC LP] Hd.
    assert (Eo : forall u, u <> t -> calls_of u (effect s t) = []).
    { intros u N. assert (E : (t =? u) = false) by (apply Nat.eqb_neq; auto). unfold effect.
      destruct (at_ (threads s t)) as [|c v|c v|v j|v j r|v j r|v j|v j q]; try reflexivity.
      - destruct (same v (value s)); [|reflexivity]. unfold calls_of. simpl. rewrite E. reflexivity.
      - unfold calls_of. simpl. rewrite E. reflexivity. }
    assert (Ct := LC t). assert (Pt := LP t).
    assert (G : value (step s t) = all_at_once v0 (cs ++ effect s t) /\ computed (step s t) (at_ (threads (step s t) t)) /\
      calls_of t (cs ++ effect s t) ++ pending (at_ (threads (step s t) t)) ++ todo (threads (step s t) t) = progs t).
    { rewrite calls_of_snoc. unfold all_at_once. rewrite fold_left_app. unfold all_at_once in LV. rewrite <- LV.
      unfold effect, step, goes, begins in *. destruct (at_ (threads s t)) as [|c v|c v|v j|v j r|v j r|v j|v j q] eqn:Ep; simpl in Ct, Pt.
      - destruct (todo (threads s t)) as [|c cs'] eqn:Et; simpl; rewrite ?Ep, ?Et, ?put_eq; simpl; rewrite ?app_nil_r.
        + split; [reflexivity|]. split; [exact I|]. rewrite <- Pt, app_nil_r. reflexivity.
        + split; [reflexivity|]. split; [destruct c; reflexivity|]. exact Pt.
      - destruct (same v (value s)) eqn:Es; simpl; rewrite ?put_eq; simpl.
        + apply same_ok in Es. split; [rewrite <- Ct; symmetry; exact Es|]. split; [exact I|].
          unfold calls_of at 2. simpl. rewrite Nat.eqb_refl. simpl. rewrite <- app_assoc. exact Pt.
        + split; [reflexivity|]. split; [exact Ct|]. rewrite app_nil_r. exact Pt.
      - simpl; rewrite ?put_eq; simpl. split; [exact Ct|]. split; [exact I|].
        unfold calls_of at 2. simpl. rewrite Nat.eqb_refl. simpl. rewrite <- app_assoc. exact Pt.
      - destruct (nth_error observers j); simpl; rewrite ?put_eq; simpl; rewrite app_nil_r; split; auto; split; auto; exact I.
      - destruct (nth_error observers j) as [[conv|]|]; simpl; rewrite ?put_eq; simpl; rewrite ?Ep; simpl; rewrite ?app_nil_r; try (split; [reflexivity|split; [exact I|exact Pt]]).
        destruct (cmp r (shown s j)); simpl; rewrite ?put_eq; simpl; split; auto; split; auto; exact I.
      - simpl; rewrite ?put_eq; simpl; rewrite app_nil_r; split; auto; split; auto; exact I.
      - simpl; rewrite ?put_eq; simpl; rewrite app_nil_r; split; auto; split; auto; exact I.
      - simpl; rewrite ?put_eq; simpl; rewrite app_nil_r; split; auto; split; auto; exact I. }
    destruct G as (G1 & G2 & G3). split.
    - exact G1.
    - intros u. destruct (Nat.eq_dec u t) as [->|N]; [exact G2|]. rewrite step_other by exact N.
      destruct Hd as [Hd|Hd]; [exact (computed_same s _ _ Hd (LC u))|]. assert (Cu := LC u). specialize (Hd u N).
      destruct (at_ (threads s u)) as [|[w|g] v|[w|g] v| | | | |]; try exact I; simpl in *; auto; exfalso; exact (Hd I).
    - intros u. destruct (Nat.eq_dec u t) as [->|N]; [exact G3|]. rewrite calls_of_snoc, step_other by exact N.
      rewrite (Eo u N), app_nil_r. exact (LP u).
  Qed.
  Lemma run_linear v progs ts : undisturbed updating (start observers v progs) ts ->
    linear v progs (run (start observers v progs) ts) (effects (start observers v progs) ts).
  Proof.
    induction ts as [|t ts IH] using rev_ind; intros H.
    - split; [reflexivity|intros t; exact I|intros t; reflexivity].
    - apply undisturbed_snoc in H. destruct H as [H1 H2]. rewrite effects_snoc, run_snoc. apply step_linear; auto.
  Qed.

  (** assignments alone are never disturbed *)
  Definition plain (c : call V) : Prop := match c with Assign _ => True | Update _ => False end.
  Definition plain_thread (th : thread V) : Prop := ~ updating (at_ th) /\ Forall plain (todo th).
  Lemma step_plain (s : state V) t : (forall u, plain_thread (threads s u)) -> forall u, plain_thread (threads (step s t) u).
  Proof.
    intros H u. destruct (Nat.eq_dec u t) as [->|N]; [|rewrite step_other by exact N; apply H].
    destruct (H t) as [Hu Ht]. unfold step, goes, begins.
    destruct (at_ (threads s t)) as [|c v|c v|v j|v j r|v j r|v j|v j q] eqn:Ep.
    - destruct (todo (threads s t)) as [|c cs] eqn:Et; [split; rewrite ?Ep, ?Et; auto; intros []|]. simpl. rewrite put_eq.
      inversion Ht as [|c1 cs1 Hc Hcs]; subst. split; [|exact Hcs]. destruct c; simpl in *; tauto.
    - destruct (same v (value s)); simpl; rewrite put_eq; split; auto.
    - simpl; rewrite put_eq; split; auto.
    - destruct (nth_error observers j); simpl; rewrite put_eq; split; auto.
    - destruct (nth_error observers j) as [[conv|]|]; [simpl; rewrite put_eq; split; auto| |apply H].
      destruct (cmp r (shown s j)); simpl; rewrite put_eq; split; auto.
    - simpl; rewrite put_eq; split; auto.
    - simpl; rewrite put_eq; split; auto.
    - simpl; rewrite put_eq; split; auto.
  Qed.
  Lemma run_plain (s : state V) ts : (forall u, plain_thread (threads s u)) -> forall u, plain_thread (threads (run s ts) u).
  Proof. revert s. induction ts as [|t ts IH]; intros s H u; [apply H|]. simpl. apply IH. apply step_plain. exact H. Qed.
  Lemma assignments_undisturbed v progs ts : (forall t, Forall plain (progs t)) -> undisturbed updating (start observers v progs) ts.
  Proof.
    intros H us t vs _. right. intros u _. apply (run_plain (start observers v progs) us). intros w. split; [intros []|apply H].
  Qed.

  (** ** one thread *)
  Lemma other_idle v progs t0 ts : (forall t, t <> t0 -> progs t = []) ->
    forall u, u <> t0 -> threads (run (start observers v progs) ts) u = Thread Idle [].
  Proof.
    intros H. induction ts as [|t ts IH] using rev_ind; intros u N.
    - simpl. rewrite H by exact N. reflexivity.
    - rewrite run_snoc. destruct (Nat.eq_dec u t) as [->|Nt]; [|rewrite step_other by exact Nt; apply IH; exact N].
      assert (E := IH t N). unfold step. rewrite E. simpl. exact E.
  Qed.
  Lemma alone_undisturbed P v progs t0 ts : (forall t, t <> t0 -> progs t = []) -> ~ P Idle -> undisturbed P (start observers v progs) ts.
  Proof.
    intros H HP us t vs _. destruct (Nat.eq_dec t t0) as [->|N].
    - right. intros u Nu. rewrite (other_idle v progs t0 us H u Nu). exact HP.
    - left. rewrite run_snoc. assert (E := other_idle v progs t0 us H t N). unfold step. rewrite E. reflexivity.
  Qed.

  (** ** what observers are told the model had *)
  Section Held.
    Variable s0 : state V.
    Definition held (ts : list nat) (v : V) : Prop := exists us vs, ts = us ++ vs /\ v = value (run s0 us).
    Definition true_place (ts : list nat) (p : place V) : Prop :=
      match p with
      | Got _ j r => held ts r
      | Keep _ j r => held ts r /\ nth_error observers j = Some Streamed
      | Reread _ j => nth_error observers j = Some Streamed
      | Fire _ j q => held ts q /\ nth_error observers j = Some Streamed
      | _ => True
      end.
    Record truthful (ts : list nat) (s : state V) : Prop := Truthful {
      h_place : forall t, true_place ts (at_ (threads s t));
      h_shown : forall k, exists v, held ts v /\ shown s k = right_view k v;
      h_told : forall k x, In (k, x) (told s) -> exists v, held ts v /\ x = right_view k v }.
    Lemma held_more ts t v : held ts v -> held (ts ++ [t]) v.
    Proof. intros (us & vs & -> & E). exists us, (vs ++ [t]). rewrite app_assoc. auto. Qed.
    Lemma held_now ts t : held (ts ++ [t]) (value (run s0 ts)).
    Proof. exists ts, [t]. auto. Qed.
    Lemma true_more ts t p : true_place ts p -> true_place (ts ++ [t]) p.
    Proof. destruct p; simpl; intuition (auto using held_more). Qed.
    Lemma view_stream j v : nth_error observers j = Some Streamed -> right_view j v = v.
    Proof. unfold BindThr_Spec.right_view. intros ->. reflexivity. Qed.

    Lemma step_truthful ts t : truthful ts (run s0 ts) -> truthful (ts ++ [t]) (run s0 (ts ++ [t])).
    Proof.
      rewrite run_snoc. set (s := run s0 ts). intros [HP HS HT].
      assert (HS' : forall k, exists v, held (ts ++ [t]) v /\ shown s k = right_view k v).
      { intros k. destruct (HS k) as (v & H & E). exists v. auto using held_more. }
      assert (HT' : forall k x, In (k, x) (told s) -> exists v, held (ts ++ [t]) v /\ x = right_view k v).
      { intros k x H. destruct (HT k x H) as (v & H' & E). exists v. auto using held_more. }
      assert (Pt := true_more ts t _ (HP t)).
      assert (G : true_place (ts ++ [t]) (at_ (threads (step s t) t)) /\
        (forall k, exists v, held (ts ++ [t]) v /\ shown (step s t) k = right_view k v) /\
        (forall k x, In (k, x) (told (step s t)) -> exists v, held (ts ++ [t]) v /\ x = right_view k v)).
      { assert (N := held_now ts t). fold s in N. unfold step, goes, begins.
        destruct (at_ (threads s t)) as [|c v|c v|v j|v j r|v j r|v j|v j q] eqn:Ep; simpl in Pt.
        - destruct (todo (threads s t)); simpl; rewrite ?put_eq, ?Ep; simpl; auto.
        - destruct (same v (value s)); simpl; rewrite ?put_eq; simpl; auto.
        - simpl; rewrite ?put_eq; simpl; auto.
        - destruct (nth_error observers j); simpl; rewrite ?put_eq; simpl; auto.
        - destruct (nth_error observers j) as [[conv|]|] eqn:Ej; [| |rewrite Ep; simpl; auto].
          + assert (E : conv r = right_view j r) by (unfold BindThr_Spec.right_view; rewrite Ej; reflexivity).
            simpl; rewrite ?put_eq; simpl. split; [exact I|]. split.
            * intros k. destruct (Nat.eq_dec k j) as [->|Nk]; [rewrite put_eq; eauto|rewrite put_ne by exact Nk; apply HS'].
            * intros k x [[= <- <-]|H]; [eauto|exact (HT' k x H)].
          + destruct (cmp r (shown s j)); simpl; rewrite ?put_eq; simpl; auto.
        - destruct Pt as [P1 P2]. simpl; rewrite ?put_eq; simpl. split; [exact P2|]. split; [|exact HT'].
          intros k. destruct (Nat.eq_dec k j) as [->|Nk]; [rewrite put_eq; exists r; rewrite view_stream; auto|rewrite put_ne by exact Nk; apply HS'].
        - simpl; rewrite ?put_eq; simpl. split; [|auto]. split; [|exact Pt].
          destruct (HS' j) as (w & H & E). rewrite view_stream in E by exact Pt. rewrite E. exact H.
        - destruct Pt as [P1 P2]. simpl; rewrite ?put_eq; simpl. split; [exact I|]. split; [exact HS'|].
          intros k x [[= <- <-]|H]; [exists q; rewrite view_stream; auto|exact (HT' k x H)]. }
      destruct G as (G1 & G2 & G3). split; [|exact G2|exact G3].
      intros u. destruct (Nat.eq_dec u t) as [->|N]; [exact G1|]. rewrite step_other by exact N. apply true_more. apply HP.
    Qed.
  End Held.
End Proofs.
