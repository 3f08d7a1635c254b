(** Reading pairs out of operands. *)
From Coq Require Import ZArith QArith Bool List Lia.
From Verif Require Import PyBase ConvNum_Model ConvNum_Proofs Float53_Model Float53_Proofs GeomInt_Spec GeomInt_Proofs GeomEq_Model GeomEq_Spec.
Import ListNotations.
Local Open Scope Z_scope.

Definition neg_res (r : res bool) : res bool := match r with Ok b => Ok (negb b) | Err e => Err e end.

Lemma bind_neg {X} (r : res X) f g : (forall a, g a = neg_res (f a)) -> bind r g = neg_res (bind r f).
Proof. intros H. destruct r as [a|e]; simpl; [apply H|reflexivity]. Qed.

Lemma ne_neg a : match eq_method a, ne_method a with
  | Some f, Some g => forall o, g o = neg_res (f o) | None, None => True | _, _ => False end.
Proof.
  destruct a; simpl; auto; intros o; destruct o; try reflexivity;
  apply bind_neg; intros p; simpl; rewrite ?negb_andb; reflexivity.
Qed.

Lemma trunc_unique q n m : truncates q n -> truncates q m -> n = m.
Proof.
  intros [A B] [A' B']. destruct (Qlt_le_dec q 0) as [L|L].
  - destruct (B (Qlt_le_weak _ _ L)) as [B1 B2]. destruct (B' (Qlt_le_weak _ _ L)) as [B3 B4].
    assert (inject_Z (n - 1) < inject_Z m)%Q by (eapply Qlt_le_trans; eassumption).
    assert (inject_Z (m - 1) < inject_Z n)%Q by (eapply Qlt_le_trans; eassumption).
    rewrite <- Zlt_Qlt in *. lia.
  - destruct (A L) as [B1 B2]. destruct (A' L) as [B3 B4].
    assert (inject_Z n < inject_Z (m + 1))%Q by (eapply Qle_lt_trans; eassumption).
    assert (inject_Z m < inject_Z (n + 1))%Q by (eapply Qle_lt_trans; eassumption).
    rewrite <- Zlt_Qlt in *. lia.
Qed.

Lemma truncates_iff q n : truncates q n <-> q_trunc q = n.
Proof.
  split; intros H.
  - apply (trunc_unique q); [apply q_trunc_truncates|exact H].
  - rewrite <- H. apply q_trunc_truncates.
Qed.
Lemma truncates_int z n : truncates (inject_Z z) n <-> z = n.
Proof. rewrite truncates_iff, q_trunc_inject. reflexivity. Qed.
Lemma truncates_comp q r n : (q == r)%Q -> truncates q n -> truncates r n.
Proof. intros E H. rewrite truncates_iff in *. rewrite <- H. symmetry. apply q_trunc_comp. exact E. Qed.

(** A coordinate of an object of integers against one of the other operand. *)
Lemma to_int_matches a n : to_int a = Ok n <-> exists q, number a q /\ truncates q n.
Proof.
  split.
  - destruct a as [|z|[q|]| | | | | | | ]; simpl; intros H; try discriminate; injection H as <-.
    + exists (inject_Z z). split; [constructor|apply truncates_int; reflexivity].
    + exists q. split; [constructor; reflexivity|apply q_trunc_truncates].
  - intros (q & N & T). destruct N as [z|q r E]; simpl.
    + apply truncates_int in T. congruence.
    + apply truncates_iff in T. f_equal. rewrite <- T. apply q_trunc_comp. exact E.
Qed.

Lemma feq_true a b : feq a b = true <-> exists p q, a = Fin p /\ b = Fin q /\ (p == q)%Q.
Proof.
  split.
  - destruct a as [p|], b as [q|]; simpl; try discriminate. intros H. exists p, q.
    rewrite Qeq_bool_iff in H. auto.
  - intros (p & q & -> & -> & E). simpl. rewrite Qeq_bool_iff. exact E.
Qed.

Lemma int_match_int n z : int_match (VInt n) (VInt z) <-> n = z.
Proof.
  split.
  - intros H. inversion H as [a b q N T]. inversion N; subst. apply truncates_int in T. congruence.
  - intros ->. econstructor; [constructor|]. apply truncates_int. reflexivity.
Qed.
Lemma int_match_flt n q : int_match (VInt n) (VFlt (Fin q)) <-> n = q_trunc q.
Proof.
  split.
  - intros H. inversion H as [a b r N T]. inversion N as [|q' r' E]; subst. apply truncates_iff in T.
    rewrite <- T. symmetry. apply q_trunc_comp. exact E.
  - intros ->. econstructor; [constructor; reflexivity|]. apply q_trunc_truncates.
Qed.
Lemma int_match_nan n : ~ int_match (VInt n) (VFlt Nan).
Proof. intros H. inversion H as [a b q N T]. inversion N. Qed.
Lemma float_match_ff p q : float_match (VFlt (Fin p)) (VFlt (Fin q)) <-> (p == q)%Q.
Proof. split; [intros H; inversion H; assumption|apply float_match_flt]. Qed.
Lemma float_match_fi p z : float_match (VFlt (Fin p)) (VInt z) <-> (p == fl (inject_Z z))%Q.
Proof. split; [intros H; inversion H; assumption|apply float_match_int]. Qed.
Lemma feq_match a b : float_match (VFlt a) (VFlt b) <-> feq a b = true.
Proof.
  destruct a as [p|], b as [q|]; simpl; [rewrite float_match_ff, Qeq_bool_iff; reflexivity|..];
  (split; [intros H; inversion H|discriminate]).
Qed.
Lemma feq_match_int a z : float_match (VFlt a) (VInt z) <-> feq a (Fin (fl (inject_Z z))) = true.
Proof.
  destruct a as [p|]; simpl; [rewrite float_match_fi, Qeq_bool_iff; reflexivity|].
  split; [intros H; inversion H|discriminate].
Qed.

Lemma forall2_two {X} (R : X -> X -> Prop) a b c d : Forall2 R [a; b] [c; d] <-> R a c /\ R b d.
Proof.
  split; [intros H; inversion H as [|? ? ? ? H1 H2]; inversion H2; subst; auto|].
  intros [H1 H2]. repeat constructor; assumption.
Qed.
Lemma forall2_four {X} (R : X -> X -> Prop) a b c d a' b' c' d' :
  Forall2 R [a; b; c; d] [a'; b'; c'; d'] <-> R a a' /\ R b b' /\ R c c' /\ R d d'.
Proof.
  split.
  - intros H. inversion H as [|? ? ? ? H1 H2]; subst. inversion H2 as [|? ? ? ? H3 H4]; subst.
    apply forall2_two in H4. tauto.
  - intros (H1 & H2 & H3 & H4). repeat constructor; assumption.
Qed.

Lemma some_ok (b : bool) : Some (Ok b) = Some (Ok true) <-> b = true.
Proof. split; [intros [= ->]; reflexivity|intros ->; reflexivity]. Qed.

