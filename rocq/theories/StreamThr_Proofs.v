(** Invariants of a combined stream used by threads. *)
From Coq Require Import Bool List Arith Lia.
From Verif Require Import PyBase StreamThr_Model StreamThr_Spec.
Import ListNotations.

Lemma upd_length {A} i (v : A) l : length (upd i v l) = length l.
Proof. revert i. induction l as [|a l IH]; intros [|i]; simpl; auto. Qed.
Lemma nth_upd_eq {A} i (v : A) l : i < length l -> nth_error (upd i v l) i = Some v.
Proof. revert i. induction l as [|a l IH]; intros [|i] H; simpl in *; try lia; [reflexivity|apply IH; lia]. Qed.
Lemma nth_upd_ne {A} i j (v : A) l : j <> i -> nth_error (upd i v l) j = nth_error l j.
Proof.
  revert i j. induction l as [|a l IH]; intros [|i] [|j] H; simpl; try reflexivity; try congruence.
  apply IH. congruence.
Qed.
Lemma nth_upd_in {A} i j (v w : A) l : nth_error (upd i v l) j = Some w -> (j = i /\ w = v) \/ nth_error l j = Some w.
Proof.
  intros H. destruct (Nat.eq_dec j i) as [->|D]; [|rewrite nth_upd_ne in H by exact D; auto].
  destruct (Nat.lt_ge_cases i (length l)) as [L|L].
  - rewrite nth_upd_eq in H by exact L. left. split; [reflexivity|congruence].
  - assert (Q : nth_error (upd i v l) i = None) by (apply nth_error_None; rewrite upd_length; exact L). congruence.
Qed.
Lemma nth_ext_list {A} (l k : list A) : (forall i, nth_error l i = nth_error k i) -> l = k.
Proof.
  revert k. induction l as [|a l IH]; intros [|b k] H; [reflexivity|specialize (H 0); discriminate|specialize (H 0); discriminate|].
  pose proof (H 0) as E. injection E as ->. f_equal. apply IH. intros i. exact (H (S i)).
Qed.

Section Proofs.
  Variables V W : Type.
  Variable V_dec : forall x y : V, {x = y} + {x <> y}.
  Variable f : list V -> W.
  Notation st := (st V W). Notation pc := (pc V W).
  Notation step := (step V_dec f). Notation run := (run V_dec f). Notation advance := (advance V_dec f).

  Lemma goto_eq t p (ps : nat -> pc) : goto t p ps t = p.
  Proof. unfold goto. rewrite Nat.eqb_refl. reflexivity. Qed.
  Lemma goto_ne t u p (ps : nat -> pc) : u <> t -> goto t p ps u = ps u.
  Proof. unfold goto. intros H. destruct (Nat.eqb_spec u t); [contradiction|reflexivity]. Qed.
  Lemma goto_cases t p (ps : nat -> pc) u q :
    goto t p ps u = q -> (u = t /\ p = q) \/ (u <> t /\ ps u = q).
  Proof. unfold goto. destruct (Nat.eqb_spec u t); auto. Qed.

  (** *** Each input set by one thread at a time. *)
  Definition bringing (p : pc) (i : nat) : Prop :=
    match p with Read j | Store j _ => i = j | _ => False end.

  Record oinv (s : st) : Prop := {
    o_len : length (slots s) = length (ins s);
    o_one : forall i t u, setting (pcs s t) i -> setting (pcs s u) i -> t = u;
    o_slot : forall i, nth_error (slots s) i = nth_error (ins s) i \/ exists t, bringing (pcs s t) i;
    o_store : forall t i v, pcs s t = Store i v -> nth_error (ins s) i = Some v
  }.

  Lemma oinv_start l : oinv (start f l).
  Proof.
    constructor; simpl; auto; intros; try contradiction; discriminate.
  Qed.

  (** A step that changes neither inputs nor slots and brings thread [t] to a place that is part of the same setting. *)
  Lemma oinv_same s t p o tl :
    oinv s -> (forall i, setting p i -> setting (pcs s t) i) ->
    (forall i, bringing (pcs s t) i -> bringing p i \/ nth_error (slots s) i = nth_error (ins s) i) ->
    (forall i v, p = Store i v -> nth_error (ins s) i = Some v) ->
    oinv (mkSt (ins s) (slots s) o tl (goto t p (pcs s))).
  Proof.
    intros [L O S P] Hs Hb Hp. constructor; simpl.
    - exact L.
    - intros i a b Ha Hb'. apply (O i).
      + destruct (Nat.eq_dec a t) as [->|D]; [rewrite goto_eq in Ha; apply Hs, Ha|rewrite goto_ne in Ha by exact D; exact Ha].
      + destruct (Nat.eq_dec b t) as [->|D]; [rewrite goto_eq in Hb'; apply Hs, Hb'|rewrite goto_ne in Hb' by exact D; exact Hb'].
    - intros i. destruct (S i) as [E|(u & U)]; [left; exact E|].
      destruct (Nat.eq_dec u t) as [->|D].
      + destruct (Hb i U) as [B|E]; [right; exists t; rewrite goto_eq; exact B|left; exact E].
      + right. exists u. rewrite goto_ne by exact D. exact U.
    - intros u i v E. apply goto_cases in E. destruct E as [[-> E]|[D E]]; [apply Hp, E|apply (P u), E].
  Qed.

  Lemma oinv_step s a : oinv s -> own s a -> oinv (step s a).
  Proof.
    intros I H. destruct a as [t i v|t]; simpl in *.
    - destruct (pcs s t) eqn:E; try exact I. destruct I as [L O S P]. constructor; simpl.
      + exact L.
      + intros j a b Ha Hb.
        destruct (Nat.eq_dec a t) as [->|D]; [rewrite goto_eq in Ha|rewrite goto_ne in Ha by exact D];
        (destruct (Nat.eq_dec b t) as [->|D']; [rewrite goto_eq in Hb|rewrite goto_ne in Hb by exact D']).
        * reflexivity.
        * simpl in Ha. subst j. destruct (H b Hb).
        * simpl in Hb. subst j. destruct (H a Ha).
        * apply (O j); assumption.
      + intros j. destruct (S j) as [Q|(u & U)]; [left; exact Q|right; exists u].
        rewrite goto_ne; [exact U|]. intros ->. rewrite E in U. exact U.
      + intros u j w Q. apply goto_cases in Q. destruct Q as [[-> Q]|[D Q]]; [discriminate|apply (P u), Q].
    - clear H. unfold advance. destruct (pcs s t) as [|i v|i v|i|i v| |w| |w] eqn:E; [exact I|..].
      + destruct (nth_error (ins s) i) as [u|] eqn:N; [destruct (V_dec u v)|];
        (apply oinv_same; [exact I|..]; intros j; rewrite ?E; simpl; try tauto; intros; discriminate).
      + destruct I as [L O S P].
        assert (OT : forall j a, setting (pcs s a) j -> j = i -> a = t).
        { intros j a Ha ->. apply (O i); [exact Ha|rewrite E; reflexivity]. }
        constructor; simpl.
        * rewrite upd_length. exact L.
        * intros j a b Ha Hb. apply (O j).
          -- destruct (Nat.eq_dec a t) as [->|D]; [rewrite goto_eq in Ha; rewrite E; exact Ha|rewrite goto_ne in Ha by exact D; exact Ha].
          -- destruct (Nat.eq_dec b t) as [->|D]; [rewrite goto_eq in Hb; rewrite E; exact Hb|rewrite goto_ne in Hb by exact D; exact Hb].
        * intros j. destruct (Nat.eq_dec j i) as [->|D]; [right; exists t; rewrite goto_eq; reflexivity|].
          rewrite nth_upd_ne by exact D. destruct (S j) as [Q|(u & U)]; [left; exact Q|right; exists u].
          rewrite goto_ne; [exact U|]. intros ->. rewrite E in U. exact U.
        * intros u j w Q. apply goto_cases in Q. destruct Q as [[-> Q]|[D Q]]; [discriminate|].
          rewrite nth_upd_ne; [apply (P u), Q|]. intros ->. apply D. apply (OT i u); [rewrite Q; reflexivity|reflexivity].
      + destruct (nth_error (ins s) i) as [u|] eqn:N.
        * apply oinv_same; [exact I|..]; intros j; rewrite ?E; simpl; try tauto. intros w [= <- <-]. exact N.
        * apply oinv_same; [exact I|..]; intros j; rewrite ?E; simpl; try tauto; [|discriminate].
          intros ->. right. rewrite N. apply nth_error_None. rewrite (o_len _ I). apply nth_error_None. exact N.
      + destruct I as [L O S P]. pose proof (P t i v E) as N. constructor; simpl.
        * rewrite upd_length. exact L.
        * intros j a b Ha Hb. apply (O j).
          -- destruct (Nat.eq_dec a t) as [->|D]; [rewrite goto_eq in Ha; contradiction|rewrite goto_ne in Ha by exact D; exact Ha].
          -- destruct (Nat.eq_dec b t) as [->|D]; [rewrite goto_eq in Hb; contradiction|rewrite goto_ne in Hb by exact D; exact Hb].
        * intros j. destruct (Nat.eq_dec j i) as [->|D].
          -- left. rewrite N. apply nth_upd_eq. rewrite L. apply nth_error_Some. rewrite N. discriminate.
          -- rewrite nth_upd_ne by exact D. destruct (S j) as [Q|(u & U)]; [left; exact Q|].
             right. exists u. rewrite goto_ne; [exact U|]. intros ->. rewrite E in U. simpl in U. contradiction.
        * intros u j w Q. apply goto_cases in Q. destruct Q as [[-> Q]|[D Q]]; [discriminate|apply (P u), Q].
      + apply oinv_same; [exact I|..]; intros j; rewrite ?E; simpl; try tauto; intros; discriminate.
      + apply (oinv_same s t Fetch w (told s)); [exact I|..]; intros j; rewrite ?E; simpl; try tauto; intros; discriminate.
      + apply oinv_same; [exact I|..]; intros j; rewrite ?E; simpl; try tauto; intros; discriminate.
      + apply (oinv_same s t Idle (out s) (w :: told s)); [exact I|..]; intros j; rewrite ?E; simpl; try tauto; intros; discriminate.
  Qed.

  Lemma oinv_quiet s : oinv s -> quiet s -> slots s = ins s.
  Proof.
    intros I Q. apply nth_ext_list. intros i. destruct (o_slot _ I i) as [E|(t & U)]; [exact E|].
    rewrite (Q t) in U. contradiction.
  Qed.

  (** *** Storing, writing and telling kept apart. *)
  Record ainv (s : st) : Prop := {
    a_assign : forall t w, pcs s t = Assign w -> w = f (slots s);
    a_out : out s = f (slots s) \/ exists t, pcs s t = Compute \/ exists w, pcs s t = Assign w;
    a_tell : forall t w, pcs s t = Tell w -> w = out s;
    a_told : (exists l, told s = out s :: l) \/ exists t, pcs s t = Fetch \/ exists w, pcs s t = Tell w
  }.

  Lemma ainv_start l : ainv (start f l).
  Proof.
    constructor; simpl; try (intros; discriminate).
    - left. reflexivity.
    - left. exists []. reflexivity.
  Qed.

  (** A step before the store. *)
  Lemma ainv_before s t p i :
    ainv s -> (forall w, pcs s t <> Assign w) -> (forall w, pcs s t <> Tell w) -> pcs s t <> Compute -> pcs s t <> Fetch ->
    (forall w, p <> Assign w) -> (forall w, p <> Tell w) ->
    ainv (mkSt i (slots s) (out s) (told s) (goto t p (pcs s))).
  Proof.
    intros [A O T L] H1 H2 H3 H4 P1 P2. constructor; simpl.
    - intros u w Q. apply goto_cases in Q. destruct Q as [[-> Q]|[D Q]]; [destruct (P1 w Q)|apply (A u), Q].
    - destruct O as [O|(u & [U|(w & U)])]; [left; exact O|..]; right; exists u;
      (rewrite goto_ne; [|intros ->; try contradiction; destruct (H1 w U)]); [left; exact U|right; exists w; exact U].
    - intros u w Q. apply goto_cases in Q. destruct Q as [[-> Q]|[D Q]]; [destruct (P2 w Q)|apply (T u), Q].
    - destruct L as [L|(u & [U|(w & U)])]; [left; exact L|..]; right; exists u;
      (rewrite goto_ne; [|intros ->; try contradiction; destruct (H2 w U)]); [left; exact U|right; exists w; exact U].
  Qed.

  Lemma ainv_step s a : ainv s -> apart s a -> ainv (step s a).
  Proof.
    intros I H. destruct a as [t i v|t]; simpl in *.
    - destruct (pcs s t) eqn:E; try exact I.
      apply ainv_before; rewrite ?E; try exact I; intros; discriminate.
    - unfold advance. destruct (pcs s t) as [|i v|i v|i|i v| |w| |w] eqn:E; [exact I|..].
      + destruct (nth_error (ins s) i) as [u|]; [destruct (V_dec u v)|];
        (apply ainv_before; rewrite ?E; try exact I; intros; discriminate).
      + apply ainv_before; rewrite ?E; try exact I; intros; discriminate.
      + destruct (nth_error (ins s) i) as [u|];
        (apply ainv_before; rewrite ?E; try exact I; intros; discriminate).
      + destruct I as [A O T L]. constructor; simpl.
        * intros u w Q. apply goto_cases in Q. destruct Q as [[-> Q]|[D Q]]; [discriminate|destruct (H u w Q)].
        * right. exists t. rewrite goto_eq. left. reflexivity.
        * intros u w Q. apply goto_cases in Q. destruct Q as [[-> Q]|[D Q]]; [discriminate|apply (T u), Q].
        * destruct L as [L|(u & U)]; [left; exact L|]. right. exists u. rewrite goto_ne; [exact U|].
          intros ->. rewrite E in U. destruct U as [U|(w & U)]; discriminate.
      + destruct I as [A O T L]. constructor; simpl.
        * intros u w Q. apply goto_cases in Q. destruct Q as [[-> Q]|[D Q]]; [congruence|apply (A u), Q].
        * right. exists t. rewrite goto_eq. right. eexists. reflexivity.
        * intros u w Q. apply goto_cases in Q. destruct Q as [[-> Q]|[D Q]]; [discriminate|apply (T u), Q].
        * destruct L as [L|(u & U)]; [left; exact L|]. right. exists u. rewrite goto_ne; [exact U|].
          intros ->. rewrite E in U. destruct U as [U|(w & U)]; discriminate.
      + destruct I as [A O T L]. constructor; simpl.
        * intros u x Q. apply goto_cases in Q. destruct Q as [[-> Q]|[D Q]]; [discriminate|apply (A u), Q].
        * left. apply (A t). exact E.
        * intros u x Q. apply goto_cases in Q. destruct Q as [[-> Q]|[D Q]]; [discriminate|destruct (H u x Q)].
        * right. exists t. rewrite goto_eq. left. reflexivity.
      + destruct I as [A O T L]. constructor; simpl.
        * intros u x Q. apply goto_cases in Q. destruct Q as [[-> Q]|[D Q]]; [discriminate|apply (A u), Q].
        * destruct O as [O|(u & U)]; [left; exact O|]. right. exists u. rewrite goto_ne; [exact U|].
          intros ->. rewrite E in U. destruct U as [U|(x & U)]; discriminate.
        * intros u x Q. apply goto_cases in Q. destruct Q as [[-> Q]|[D Q]]; [congruence|apply (T u), Q].
        * right. exists t. rewrite goto_eq. right. eexists. reflexivity.
      + destruct I as [A O T L]. constructor; simpl.
        * intros u x Q. apply goto_cases in Q. destruct Q as [[-> Q]|[D Q]]; [discriminate|apply (A u), Q].
        * destruct O as [O|(u & U)]; [left; exact O|]. right. exists u. rewrite goto_ne; [exact U|].
          intros ->. rewrite E in U. destruct U as [U|(x & U)]; discriminate.
        * intros u x Q. apply goto_cases in Q. destruct Q as [[-> Q]|[D Q]]; [discriminate|apply (T u), Q].
        * left. exists (told s). rewrite (T t w E). reflexivity.
  Qed.

  Lemma ainv_quiet s : ainv s -> quiet s -> out s = f (slots s) /\ exists l, told s = out s :: l.
  Proof.
    intros [A O T L] Q. split.
    - destruct O as [O|(t & [U|(w & U)])]; [exact O|..]; rewrite (Q t) in U; discriminate.
    - destruct L as [L|(t & [U|(w & U)])]; [exact L|..]; rewrite (Q t) in U; discriminate.
  Qed.

  Lemma inv_run (P : st -> Prop) (ok : st -> act V -> Prop) l s :
    (forall s a, P s -> ok s a -> P (step s a)) -> P s -> all_acts ok step s l -> P (run l s).
  Proof.
    intros H. revert s. induction l as [|a l IH]; intros s I G; [exact I|].
    destruct G as [G1 G2]. apply IH; [apply H; assumption|exact G2].
  Qed.

  (** *** Where values come from. *)
  Record pinv (l0 : list V) (l : list (act V)) (s : st) : Prop := {
    p_len : length (ins s) = length l0 /\ length (slots s) = length l0;
    p_ins : forall i v, nth_error (ins s) i = Some v -> had l0 l i v;
    p_slots : forall i v, nth_error (slots s) i = Some v -> had l0 l i v;
    p_pc : forall t, match pcs s t with
           | Compare i v | Write i v | Store i v => had l0 l i v
           | Assign w | Tell w => once f l0 l w
           | _ => True end;
    p_out : once f l0 l (out s);
    p_told : forall w, In w (told s) -> once f l0 l w
  }.

  Lemma had_more l0 l a i (v : V) : had l0 l i v -> had l0 (l ++ [a]) i v.
  Proof. intros [H|(t & H)]; [left; exact H|right; exists t; apply in_or_app; left; exact H]. Qed.
  Lemma once_more l0 l a w : once f l0 l w -> once f l0 (l ++ [a]) w.
  Proof. intros (k & L & H & E). exists k. split; [exact L|]. split; [intros; apply had_more; eauto|exact E]. Qed.

  Lemma pinv_more l0 l a s : pinv l0 l s -> pinv l0 (l ++ [a]) s.
  Proof.
    intros [L I S P O T]. constructor; eauto using had_more, once_more.
    intros t. specialize (P t). destruct (pcs s t); eauto using had_more, once_more.
  Qed.

  Lemma pinv_step l0 l a s : pinv l0 (l ++ [a]) s -> pinv l0 (l ++ [a]) (step s a).
  Proof.
    intros Q. pose proof Q as [[L1 L2] I S P O T].
    assert (G : forall t p, match p with
           | Compare i v | Write i v | Store i v => had l0 (l ++ [a]) i v
           | Assign w | Tell w => once f l0 (l ++ [a]) w
           | _ => True end -> forall u, match goto t p (pcs s) u with
           | Compare i v | Write i v | Store i v => had l0 (l ++ [a]) i v
           | Assign w | Tell w => once f l0 (l ++ [a]) w
           | _ => True end).
    { intros t p Hp u. unfold goto. destruct (Nat.eqb u t); [exact Hp|apply P]. }
    destruct a as [t i v|t]; simpl.
    - destruct (pcs s t) eqn:E; try exact Q. constructor; simpl; auto.
      apply G. right. exists t. apply in_or_app. right. left. reflexivity.
    - unfold advance. pose proof (P t) as Pt.
      destruct (pcs s t) as [|i v|i v|i|i v| |w| |w] eqn:E; [exact Q|..].
      + destruct (nth_error (ins s) i) as [u|]; [destruct (V_dec u v)|]; constructor; simpl; auto; try (apply G; simpl; auto; fail).
      + constructor; simpl; auto; try (apply G; simpl; auto; fail); [rewrite upd_length; auto|].
        intros j u Hj. apply nth_upd_in in Hj. destruct Hj as [[-> ->]|Hj]; auto.
      + destruct (nth_error (ins s) i) as [u|] eqn:N; constructor; simpl; auto; try (apply G; simpl; auto; fail).
      + constructor; simpl; auto; try (apply G; simpl; auto; fail); [rewrite upd_length; auto|].
        intros j u Hj. apply nth_upd_in in Hj. destruct Hj as [[-> ->]|Hj]; auto.
      + constructor; simpl; auto; try (apply G; simpl; auto; fail). apply G. exists (slots s). auto.
      + constructor; simpl; auto; try (apply G; simpl; auto; fail).
      + constructor; simpl; auto; try (apply G; simpl; auto; fail).
      + constructor; simpl; auto; try (apply G; simpl; auto; fail). intros x [<-|Hx]; auto.
  Qed.

  Lemma pinv_run l0 l : pinv l0 l (run l (start f l0)).
  Proof.
    induction l as [|a l IH] using rev_ind.
    - assert (H0 : forall i v, nth_error l0 i = Some v -> had l0 [] i v) by (left; assumption).
      assert (H1 : once f l0 [] (f l0)) by (exists l0; auto).
      constructor; simpl; auto. intros w [<-|[]]. exact H1.
    - unfold StreamThr_Model.run. rewrite fold_left_app. apply (pinv_step l0 l a). apply pinv_more. exact IH.
  Qed.

  (** *** One thread alone. *)
  Lemma run_cons a l s : run (a :: l) s = run l (step s a).
  Proof. reflexivity. Qed.
  Lemma run_done t n s : pcs s t = Idle -> run (repeat (Step t) n) s = s.
  Proof.
    intros H. induction n as [|n IH]; [reflexivity|]. cbn [repeat]. rewrite run_cons.
    assert (E : step s (Step t) = s) by (simpl; unfold advance; rewrite H; reflexivity). rewrite E. exact IH.
  Qed.

  (** [s'] is [s] with the given fields and with thread [t] at [p]. *)
  Definition at_pc (s : st) (t : nat) (p : pc) I S o tl (s' : st) : Prop :=
    ins s' = I /\ slots s' = S /\ out s' = o /\ told s' = tl /\ pcs s' t = p /\ forall u, u <> t -> pcs s' u = pcs s u.

  Lemma at_pc_next s s1 t p q I S o tl I' S' o' tl' :
    at_pc s t p I S o tl s1 ->
    step s1 (Step t) = mkSt I' S' o' tl' (goto t q (pcs s1)) -> at_pc s t q I' S' o' tl' (step s1 (Step t)).
  Proof.
    intros (_ & _ & _ & _ & _ & U) E. rewrite E. repeat (split; [reflexivity|]). split; [apply goto_eq|].
    intros u D. cbn [pcs]. rewrite goto_ne by exact D. apply U, D.
  Qed.

  Lemma lone_set s t i v u n :
    quiet s -> slots s = ins s -> nth_error (ins s) i = Some u -> u <> v -> 8 <= n ->
    quiet (run (Begin t i v :: repeat (Step t) n) s) /\
    ins (run (Begin t i v :: repeat (Step t) n) s) = upd i v (ins s) /\
    out (run (Begin t i v :: repeat (Step t) n) s) = f (upd i v (ins s)) /\
    told (run (Begin t i v :: repeat (Step t) n) s) = f (upd i v (ins s)) :: told s.
  Proof.
    intros Q E N D Ln. do 8 (destruct n as [|n]; [lia|]). clear Ln.
    assert (Li : i < length (ins s)) by (apply nth_error_Some; rewrite N; discriminate).
    remember (upd i v (ins s)) as J eqn:EJ.
    assert (NJ : nth_error J i = Some v) by (rewrite EJ; apply nth_upd_eq, Li).
    cbn [repeat]. rewrite !run_cons.
    assert (A1 : at_pc s t (Compare i v) (ins s) (ins s) (out s) (told s) (step s (Begin t i v))).
    { simpl. rewrite (Q t). split; [reflexivity|]. split; [exact E|]. repeat (split; [reflexivity|]).
      split; [apply goto_eq|]. intros w Dw. simpl. apply goto_ne, Dw. }
    revert A1. generalize (step s (Begin t i v)). intros s1 A1.
    assert (A2 : at_pc s t (Write i v) (ins s) (ins s) (out s) (told s) (step s1 (Step t))).
    { apply (at_pc_next _ _ _ _ _ _ _ _ _ _ _ _ _ A1). destruct A1 as (E1 & E2 & E3 & E4 & P & _).
      simpl. unfold advance. rewrite P, E1, E2, E3, E4, N. destruct (V_dec u v); [contradiction|reflexivity]. }
    revert A2. generalize (step s1 (Step t)). intros s2 A2. clear s1 A1.
    assert (A3 : at_pc s t (Read i) J (ins s) (out s) (told s) (step s2 (Step t))).
    { apply (at_pc_next _ _ _ _ _ _ _ _ _ _ _ _ _ A2). destruct A2 as (E1 & E2 & E3 & E4 & P & _).
      simpl. unfold advance. rewrite P, E1, E2, E3, E4, EJ. reflexivity. }
    revert A3. generalize (step s2 (Step t)). intros s3 A3. clear s2 A2.
    assert (A4 : at_pc s t (Store i v) J (ins s) (out s) (told s) (step s3 (Step t))).
    { apply (at_pc_next _ _ _ _ _ _ _ _ _ _ _ _ _ A3). destruct A3 as (E1 & E2 & E3 & E4 & P & _).
      simpl. unfold advance. rewrite P, E1, E2, E3, E4, NJ. reflexivity. }
    revert A4. generalize (step s3 (Step t)). intros s4 A4. clear s3 A3.
    assert (A5 : at_pc s t Compute J J (out s) (told s) (step s4 (Step t))).
    { apply (at_pc_next _ _ _ _ _ _ _ _ _ _ _ _ _ A4). destruct A4 as (E1 & E2 & E3 & E4 & P & _).
      simpl. unfold advance. rewrite P, E1, E2, E3, E4, <- EJ. reflexivity. }
    revert A5. generalize (step s4 (Step t)). intros s5 A5. clear s4 A4.
    assert (A6 : at_pc s t (Assign (f J)) J J (out s) (told s) (step s5 (Step t))).
    { apply (at_pc_next _ _ _ _ _ _ _ _ _ _ _ _ _ A5). destruct A5 as (E1 & E2 & E3 & E4 & P & _).
      simpl. unfold advance. rewrite P, E1, E2, E3, E4. reflexivity. }
    revert A6. generalize (step s5 (Step t)). intros s6 A6. clear s5 A5.
    assert (A7 : at_pc s t Fetch J J (f J) (told s) (step s6 (Step t))).
    { apply (at_pc_next _ _ _ _ _ _ _ _ _ _ _ _ _ A6). destruct A6 as (E1 & E2 & E3 & E4 & P & _).
      simpl. unfold advance. rewrite P, E1, E2, E4. reflexivity. }
    revert A7. generalize (step s6 (Step t)). intros s7 A7. clear s6 A6.
    assert (A8 : at_pc s t (Tell (f J)) J J (f J) (told s) (step s7 (Step t))).
    { apply (at_pc_next _ _ _ _ _ _ _ _ _ _ _ _ _ A7). destruct A7 as (E1 & E2 & E3 & E4 & P & _).
      simpl. unfold advance. rewrite P, E1, E2, E3, E4. reflexivity. }
    revert A8. generalize (step s7 (Step t)). intros s8 A8. clear s7 A7.
    assert (A9 : at_pc s t Idle J J (f J) (f J :: told s) (step s8 (Step t))).
    { apply (at_pc_next _ _ _ _ _ _ _ _ _ _ _ _ _ A8). destruct A8 as (E1 & E2 & E3 & E4 & P & _).
      simpl. unfold advance. rewrite P, E1, E2, E3, E4. reflexivity. }
    revert A9. generalize (step s8 (Step t)). intros s9 A9. clear s8 A8.
    destruct A9 as (E1 & E2 & E3 & E4 & P & U). rewrite run_done by exact P.
    split; [|auto]. intros w. destruct (Nat.eq_dec w t) as [->|Dw]; [exact P|]. rewrite (U w Dw). apply Q.
  Qed.
End Proofs.
