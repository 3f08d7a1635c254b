(** Lemmas about task queues and task sets used by threads. *)
From Coq Require Import List Bool Arith Lia Permutation.
From Verif Require Import PyBase TaskThr_Model TaskThr_Spec.
Import ListNotations.

Lemma t_put_length {X} i (x : X) l : length (t_put i x l) = length l.
Proof. revert i. induction l as [|y l IH]; intros [|i]; cbn; auto. Qed.
Lemma t_put_same {X} i (x y : X) l : nth_error l i = Some y -> nth_error (t_put i x l) i = Some x.
Proof. revert i. induction l as [|z l IH]; intros [|i]; cbn; try discriminate; auto. Qed.
Lemma t_put_other {X} i j (x : X) l : i <> j -> nth_error (t_put i x l) j = nth_error l j.
Proof. revert i j. induction l as [|z l IH]; intros [|i] [|j] H; cbn; auto; contradiction. Qed.
Lemma snoc_split {X} (l a b : list X) e x : l ++ [e] = a ++ x :: b ->
  (b = [] /\ e = x /\ l = a) \/ exists b', b = b' ++ [e] /\ l = a ++ x :: b'.
Proof.
  intros H. destruct b as [|z b0].
  - left. apply app_inj_tail in H as [-> ->]. auto.
  - right. destruct (exists_last (l := z :: b0) ltac:(discriminate)) as (b' & y & E). rewrite E in *.
    change (a ++ x :: b' ++ [y]) with (a ++ (x :: b') ++ [y]) in H. rewrite app_assoc in H. apply app_inj_tail in H as [-> ->]. eauto.
Qed.
Lemma snoc_prefix {X} (l p d : list X) e : l ++ [e] = p ++ d -> p = l ++ [e] \/ exists d', d = d' ++ [e] /\ l = p ++ d'.
Proof.
  intros H. destruct d as [|z d0]; [left; now rewrite app_nil_r in H|]. right.
  destruct (exists_last (l := z :: d0) ltac:(discriminate)) as (d' & y & E). rewrite E in *. rewrite app_assoc in H.
  apply app_inj_tail in H as [-> ->]. eauto.
Qed.
Lemma prefix_prefix {X} (a b c d : list X) : a ++ b = c ++ d -> length a <= length c -> exists r, c = a ++ r.
Proof.
  revert c. induction a as [|x a IH]; intros c H L; [exists c; reflexivity|]. destruct c as [|y c]; cbn in *; [lia|].
  injection H as -> H. destruct (IH c H ltac:(lia)) as (r & ->). exists r. reflexivity.
Qed.

Section Queue.
  Context {T : Type}.
  Implicit Types (l : list (qev T)) (s : qst T).

  Lemma puts_app l l' : puts (l ++ l') = puts l ++ puts l'.
  Proof. induction l as [|[] l IH]; cbn; congruence. Qed.
  Lemma takes_app l l' : takes (l ++ l') = takes l ++ takes l'.
  Proof. induction l as [|[] l IH]; cbn; congruence. Qed.
  Lemma takes_of_app c l l' : takes_of c (l ++ l') = takes_of c l ++ takes_of c l'.
  Proof. induction l as [|[| |c' ? ?| | |] l IH]; cbn; auto. destruct (c' =? c); cbn; congruence. Qed.
  Lemma settled_app l l' : settled (l ++ l') = settled l + settled l'.
  Proof. induction l as [|[| |? [|] ?| | |] l IH]; cbn; lia. Qed.
  Lemma raised_app l l' : raised (l ++ l') = raised l + raised l'.
  Proof. induction l as [|[] l IH]; cbn; lia. Qed.

  Definition running1 (c : qcall T) : nat := match c with QTask _ _ => 1 | _ => 0 end.
  Fixpoint running (cs : list (qcall T)) : nat := match cs with [] => 0 | c :: cs' => running1 c + running cs' end.
  Lemma running_app cs cs' : running (cs ++ cs') = running cs + running cs'.
  Proof. induction cs as [|c cs IH]; cbn; lia. Qed.
  Lemma running_put c st st' cs : nth_error cs c = Some st -> running (t_put c st' cs) + running1 st = running cs + running1 st'.
  Proof. revert c. induction cs as [|x cs IH]; intros [|c]; cbn; try discriminate; [intros [= ->]; lia|]. intros H. specialize (IH c H). lia. Qed.

  (** a call's remaining number, and what it has to do with the queue when it was made *)
  Definition call_ok l (c : nat) (st : qcall T) : Prop := forall a b, l = a ++ ECall c :: b ->
    match st with
    | QLoop _ n | QGet _ n => length (puts a) <= length (takes l) + n /\ length (takes_of c l) + n + length (takes a) <= length (puts a)
    | QTask _ n => 1 <= n /\ length (puts a) <= length (takes l) + (n - 1) /\ length (takes_of c l) + (n - 1) + length (takes a) <= length (puts a)
    | QOver => length (takes_of c l) + length (takes a) <= length (puts a)
    end.
  Record qinv s : Prop := Qi {
    qi_fifo : puts (q_log s) = takes (q_log s) ++ q_queue s;
    qi_prefix : forall p d, q_log s = p ++ d -> exists r, puts p = takes p ++ r;
    qi_settled : q_unfinished s + settled (q_log s) = length (puts (q_log s));
    qi_open : q_unfinished s = length (q_queue s) + running (q_calls s) + raised (q_log s);
    qi_calls : forall c, In (ECall c) (q_log s) -> c < length (q_calls s);
    qi_takes : forall c cl t, In (ETake c cl t) (q_log s) -> c < length (q_calls s);
    qi_pos : forall c cl n, nth_error (q_calls s) c = Some (QGet cl n) -> 1 <= n;
    qi_ok : forall c st, nth_error (q_calls s) c = Some st -> call_ok (q_log s) c st;
    qi_exit : forall c a b d, q_log s = a ++ ECall c :: b ++ EExit c :: d -> length (puts a) <= length (takes (a ++ b)) }.

  Lemma call_ok_snoc l c st e : call_ok l c st -> e <> ECall c -> takes_of c [e] = [] -> call_ok (l ++ [e]) c st.
  Proof.
    intros H Ne Te a b E. apply snoc_split in E as [(_ & -> & _)|(b' & -> & E)]; [contradiction|]. specialize (H a b' E).
    rewrite takes_app, takes_of_app, Te, app_nil_r, app_length. destruct st; lia.
  Qed.
  Lemma takes_of_none c l : (forall c' cl t, In (ETake c' cl t) l -> c' < c) -> takes_of c l = [].
  Proof.
    induction l as [|e l IH]; intros H; [reflexivity|]. assert (H' : takes_of c l = []) by (apply IH; intros; eapply H; right; eauto).
    destruct e as [|?|c' cl t| | |]; cbn; auto. destruct (Nat.eqb_spec c' c) as [->|]; [|exact H'].
    specialize (H c cl t (or_introl eq_refl)). lia.
  Qed.

  Lemma prefix_snoc l e : (forall p d, l = p ++ d -> exists r, puts p = takes p ++ r) -> (exists r, puts (l ++ [e]) = takes (l ++ [e]) ++ r) ->
    forall p d, l ++ [e] = p ++ d -> exists r, puts p = takes p ++ r.
  Proof. intros H1 H2 p d E. apply snoc_prefix in E as [->|(d' & _ & E)]; [exact H2|eauto]. Qed.
  Lemma exit_snoc l e : (forall c a b d, l = a ++ ECall c :: b ++ EExit c :: d -> length (puts a) <= length (takes (a ++ b))) ->
    (forall c a b, e = EExit c -> l = a ++ ECall c :: b -> length (puts a) <= length (takes (a ++ b))) ->
    forall c a b d, l ++ [e] = a ++ ECall c :: b ++ EExit c :: d -> length (puts a) <= length (takes (a ++ b)).
  Proof.
    intros H1 H2 c a b d E. change (a ++ ECall c :: b ++ EExit c :: d) with (a ++ (ECall c :: b) ++ EExit c :: d) in E. rewrite app_assoc in E.
    apply snoc_split in E as [(_ & -> & E)|(d' & _ & E)].
    - eapply H2; eauto.
    - rewrite <- app_assoc in E. cbn in E. eapply H1; eauto.
  Qed.

  Lemma qinv_step s a : qinv s -> qinv (q_step s a).
  Proof.
    intros I. destruct s as [q u cs l]. pose proof I as [I1 I2 I3 I4 I5 I6 I7 I8 I9]. cbn in *.
    (* a change of one call with one event *)
    assert (N : forall c st st' e q' u', nth_error cs c = Some st -> e <> ECall c ->
      puts (l ++ [e]) = takes (l ++ [e]) ++ q' -> u' + settled (l ++ [e]) = length (puts (l ++ [e])) ->
      u' = length q' + running (t_put c st' cs) + raised (l ++ [e]) ->
      (forall c', In (ECall c') [e] -> c' < length cs) -> (forall c' cl t, In (ETake c' cl t) [e] -> c' = c) ->
      (forall cl n, st' = QGet cl n -> 1 <= n) -> call_ok (l ++ [e]) c st' ->
      (forall a b, e = EExit c -> l = a ++ ECall c :: b -> length (puts a) <= length (takes (a ++ b))) -> (forall c', e = EExit c' -> c' = c) ->
      (forall c', c' <> c -> e <> ECall c') ->
      qinv (Qs q' u' (t_put c st' cs) (l ++ [e]))).
    { intros c st st' e q' u' Hc Ne H1 H2 H3 H4 H5 H6 H7 H8 H8' H9. constructor; cbn; rewrite ?t_put_length; auto.
      - apply prefix_snoc; eauto.
      - intros c' H. apply in_app_or in H as [H|H]; auto.
      - intros c' cl t H. apply in_app_or in H as [H|H]; [eauto|]. rewrite (H5 _ _ _ H). apply nth_error_Some. congruence.
      - intros c' cl n H. destruct (Nat.eq_dec c c') as [<-|X]; [rewrite (t_put_same _ _ _ _ Hc) in H; injection H as ->; eauto|].
        rewrite t_put_other in H by auto. eauto.
      - intros c' st0 H. destruct (Nat.eq_dec c c') as [<-|X]; [rewrite (t_put_same _ _ _ _ Hc) in H; injection H as <-; exact H7|].
        rewrite t_put_other in H by auto. apply call_ok_snoc; auto.
        destruct e as [|?|c0 cl t| | |]; cbn; auto. specialize (H5 c0 cl t (or_introl eq_refl)). subst c0. destruct (Nat.eqb_spec c c'); [contradiction|reflexivity].
      - apply exit_snoc; [exact I9|]. intros c' a0 b0 E. pose proof (H8' c' E). subst c'. now apply H8. }
    (* a change of one call without an event *)
    assert (N0 : forall c st st', nth_error cs c = Some st -> running1 st' = running1 st -> call_ok l c st' ->
      (forall cl n, st' = QGet cl n -> 1 <= n) -> qinv (Qs q u (t_put c st' cs) l)).
    { intros c st st' Hc Hr Ho Hp. constructor; cbn; rewrite ?t_put_length; auto.
      - pose proof (running_put c st st' cs Hc). lia.
      - intros c' cl n H. destruct (Nat.eq_dec c c') as [<-|X]; [rewrite (t_put_same _ _ _ _ Hc) in H; injection H as ->; eauto|].
        rewrite t_put_other in H by auto. eauto.
      - intros c' st0 H. destruct (Nat.eq_dec c c') as [<-|X]; [rewrite (t_put_same _ _ _ _ Hc) in H; injection H as <-; exact Ho|].
        rewrite t_put_other in H by auto. auto. }
    destruct a as [t|clear|c|c raises]; cbn [q_step].
    - constructor; cbn.
      + rewrite puts_app, takes_app. cbn. rewrite app_nil_r, I1, app_assoc. reflexivity.
      + apply prefix_snoc; [exact I2|]. rewrite puts_app, takes_app. cbn. rewrite app_nil_r, I1, <- app_assoc. eauto.
      + rewrite settled_app, puts_app, app_length. cbn. lia.
      + rewrite app_length, raised_app. cbn. lia.
      + intros c H. apply in_app_or in H as [H|[H|[]]]; [auto|discriminate].
      + intros c cl t0 H. apply in_app_or in H as [H|[H|[]]]; [eauto|discriminate].
      + eauto.
      + intros c st H. apply call_ok_snoc; auto. discriminate.
      + apply exit_snoc; [exact I9|]. discriminate.
    - constructor; cbn.
      + rewrite puts_app, takes_app. cbn. now rewrite !app_nil_r.
      + apply prefix_snoc; [exact I2|]. rewrite puts_app, takes_app. cbn. rewrite !app_nil_r. eauto.
      + rewrite settled_app, puts_app, app_length. cbn. lia.
      + rewrite running_app, raised_app. cbn. lia.
      + intros c H. rewrite app_length. cbn. apply in_app_or in H as [H|[H|[]]]; [apply I5 in H; lia|injection H as <-; lia].
      + intros c cl t0 H. rewrite app_length. cbn. apply in_app_or in H as [H|[H|[]]]; [apply I6 in H; lia|discriminate].
      + intros c cl n H. destruct (Nat.lt_ge_cases c (length cs)) as [Lt|Ge].
        * rewrite nth_error_app1 in H by exact Lt. eauto.
        * rewrite nth_error_app2 in H by exact Ge. destruct (c - length cs) as [|[|x]]; cbn in H; discriminate.
      + intros c st H. destruct (Nat.lt_ge_cases c (length cs)) as [Lt|Ge].
        * rewrite nth_error_app1 in H by exact Lt. apply call_ok_snoc; auto. intros [= X]. lia.
        * rewrite nth_error_app2 in H by exact Ge. destruct (c - length cs) as [|[|x]] eqn:D; cbn in H; try discriminate. injection H as <-.
          assert (c = length cs) by lia. subst c. intros a b E. apply snoc_split in E as [(_ & _ & <-)|(b' & _ & E)].
          -- rewrite takes_app, takes_of_app. cbn. rewrite !app_nil_r, I1, app_length.
             rewrite (takes_of_none (length cs) l) by exact I6. cbn. lia.
          -- exfalso. assert (X : In (ECall (length cs)) l) by (rewrite E; apply in_or_app; right; now left). apply I5 in X. lia.
      + apply exit_snoc; [exact I9|]. discriminate.
    - destruct (nth_error cs c) as [[clear n|clear n|t n|]|] eqn:Hc; try exact I.
      + assert (X : qinv (Qs q u (t_put c QOver cs) (l ++ [EExit c])) \/ exists t q', q = t :: q' /\ exists n', n = S n').
        { destruct q as [|t q']; [left|destruct n as [|n']; [left|right; eauto]].
          - eapply N; eauto; try discriminate; cbn.
            + now rewrite puts_app, takes_app; cbn; rewrite !app_nil_r in *.
            + rewrite settled_app, puts_app, app_length. cbn. lia.
            + pose proof (running_put c _ QOver cs Hc) as R. cbn in R. rewrite raised_app. cbn in *. lia.
            + intros c' [X|[]]. discriminate.
            + intros c' cl t [X|[]]. discriminate.
            + apply call_ok_snoc; [|discriminate|reflexivity]. intros a b E. pose proof (I8 c _ Hc a b E) as [_ H]. lia.
            + intros a b _ E. pose proof (f_equal (@length T) I1) as L. rewrite app_nil_r in L. subst l. rewrite puts_app, takes_app in L. cbn in L.
              rewrite takes_app. rewrite !app_length in *. lia.
            + intros c' [= <-]. reflexivity.
          - eapply N; eauto; try discriminate; cbn.
            + now rewrite puts_app, takes_app; cbn; rewrite !app_nil_r.
            + rewrite settled_app, puts_app, app_length. cbn in *. lia.
            + pose proof (running_put c _ QOver cs Hc) as R. cbn in R. rewrite raised_app. cbn in *. lia.
            + intros c' [X|[]]. discriminate.
            + intros c' cl t0 [X|[]]. discriminate.
            + apply call_ok_snoc; [|discriminate|reflexivity]. intros a b E. pose proof (I8 c _ Hc a b E) as [_ H]. lia.
            + intros a b _ E. pose proof (I8 c _ Hc a b E) as [H _]. subst l. rewrite takes_app in *. cbn in *. rewrite app_length in *. lia.
            + intros c' [= <-]. reflexivity. }
        destruct X as [X|(t & q' & -> & n' & ->)].
        * destruct q as [|t q']; [exact X|]. destruct n; [exact X|].
          eapply N0; eauto; [exact (I8 c _ Hc)|]. intros cl n0 [= _ <-]. lia.
        * eapply N0; eauto; [exact (I8 c _ Hc)|]. intros cl n0 [= _ <-]. lia.
      + pose proof (I7 c clear n Hc) as Pn. destruct q as [|t q'].
        * eapply N0; eauto; [|discriminate]. intros a b E. pose proof (I8 c _ Hc a b E) as [H1 H2]. split; [|lia].
          rewrite app_nil_r in I1. pose proof (f_equal (@length T) I1) as L. rewrite E in L at 1. rewrite puts_app, app_length in L. lia.
        * assert (Tk : forall clear st', (forall cl n0, st' = QGet cl n0 -> 1 <= n0) ->
            call_ok (l ++ [ETake c clear t]) c st' -> forall u', u' + settled (l ++ [ETake c clear t]) = length (puts (l ++ [ETake c clear t])) ->
            u' = length q' + running (t_put c st' cs) + raised (l ++ [ETake c clear t]) ->
            qinv (Qs q' u' (t_put c st' cs) (l ++ [ETake c clear t]))).
          { intros cl st' H1 H2 u' H3 H4. eapply N; eauto; try discriminate.
            - rewrite puts_app, takes_app. cbn. rewrite app_nil_r, I1, <- app_assoc. reflexivity.
            - intros c' [X|[]]. discriminate.
            - intros c' cl' t0 [X|[]]. congruence. }
          assert (Ok1 : forall a b cl, l ++ [ETake c cl t] = a ++ ECall c :: b ->
            length (puts a) <= length (takes (l ++ [ETake c cl t])) + (n - 1) /\ length (takes_of c (l ++ [ETake c cl t])) + (n - 1) + length (takes a) <= length (puts a)).
          { intros a b cl E. apply snoc_split in E as [(_ & X & _)|(b' & _ & E)]; [discriminate|]. pose proof (I8 c _ Hc a b' E) as [H1 H2].
            rewrite takes_app, takes_of_app. cbn. rewrite Nat.eqb_refl, !app_length. cbn. lia. }
          destruct clear.
          -- apply Tk; [discriminate| | |].
             ++ intros a b E. exact (Ok1 a b _ E).
             ++ rewrite settled_app, puts_app. cbn. rewrite app_nil_r. cbn in I4. lia.
             ++ pose proof (running_put c _ (QLoop true (n - 1)) cs Hc) as R. cbn in R. rewrite raised_app. cbn in *. lia.
          -- apply Tk; [discriminate| | |].
             ++ intros a b E. split; [exact Pn|]. exact (Ok1 a b _ E).
             ++ rewrite settled_app, puts_app. cbn. rewrite app_nil_r. lia.
             ++ pose proof (running_put c _ (QTask t n) cs Hc) as R. cbn in R. rewrite raised_app. cbn in *. lia.
    - destruct (nth_error cs c) as [[clear n|clear n|t n|]|] eqn:Hc; try exact I. destruct raises.
      + eapply N; eauto; try discriminate; cbn.
        * rewrite puts_app, takes_app. cbn. now rewrite !app_nil_r.
        * rewrite settled_app, puts_app, app_length. cbn in *. lia.
        * pose proof (running_put c _ QOver cs Hc) as R. cbn in R. rewrite raised_app. cbn in *. lia.
        * intros c' [X|[]]. discriminate.
        * intros c' cl t0 [X|[]]. discriminate.
        * apply call_ok_snoc; [|discriminate|reflexivity]. intros a b E. pose proof (I8 c _ Hc a b E) as (_ & _ & H). lia.
      + pose proof (running_put c _ (QLoop false (n - 1)) cs Hc) as R. cbn in R.
        eapply N; eauto; try discriminate; cbn.
        * rewrite puts_app, takes_app. cbn. now rewrite !app_nil_r.
        * rewrite settled_app, puts_app, app_length. cbn in *. lia.
        * rewrite raised_app. cbn in *. lia.
        * intros c' [X|[]]. discriminate.
        * intros c' cl t0 [X|[]]. discriminate.
        * apply call_ok_snoc; [|discriminate|reflexivity]. intros a b E. pose proof (I8 c _ Hc a b E) as (_ & H1 & H2). lia.
  Qed.
  Lemma qinv_run acts : qinv (q_run acts).
  Proof.
    unfold q_run. assert (G : forall acts s, qinv s -> qinv (fold_left q_step acts s)).
    { induction acts0 as [|a l IH]; intros s H; cbn; [exact H|]. apply IH. now apply qinv_step. }
    apply G. constructor; cbn; auto; try (intros; contradiction).
    - intros p d E. symmetry in E. apply app_eq_nil in E as [-> _]. exists []. reflexivity.
    - intros c cl n H. destruct c; discriminate.
    - intros c st H. destruct c; discriminate.
    - intros c a b d E. destruct a; discriminate.
  Qed.
End Queue.

Section Set_.
  Context {K T : Type} (eqk : K -> K -> bool) (eqk_spec : forall x y, eqk x y = true <-> x = y).
  Implicit Types (l : list (sev K T)) (s : sst K T) (d : list (K * T)).
  Notation d_set := (d_set eqk).
  Notation d_del := (d_del eqk).
  Notation s_step := (s_step eqk).
  Notation s_run := (s_run eqk).

  Lemma started_app l l' : started (l ++ l') = started l ++ started l'.
  Proof. induction l as [|[] l IH]; cbn; congruence. Qed.
  Lemma added_app l l' : added (l ++ l') = added l ++ added l'.
  Proof. induction l as [|[] l IH]; cbn; congruence. Qed.
  Lemma starts_of_app c l l' : starts_of c (l ++ l') = starts_of c l ++ starts_of c l'.
  Proof. induction l as [|[| | |c' ? ?| |] l IH]; cbn; auto. destruct (c' =? c); cbn; congruence. Qed.
  Lemma starts_of_none c l : (forall c' k t, In (VStart c' k t) l -> c' < c) -> starts_of c l = [].
  Proof.
    induction l as [|e l IH]; intros H; [reflexivity|]. assert (H' : starts_of c l = []) by (apply IH; intros; eapply H; right; eauto).
    destruct e as [| | |c' k t| |]; cbn; auto. destruct (Nat.eqb_spec c' c) as [->|]; [|exact H'].
    specialize (H c k t (or_introl eq_refl)). lia.
  Qed.
  Lemma eqk_neq x y : x <> y -> eqk x y = false.
  Proof. intros H. destruct (eqk x y) eqn:E; [|reflexivity]. apply eqk_spec in E. contradiction. Qed.

  Lemma pending_snoc l e k t : pending (l ++ [e]) k t <-> e = VAdd k t \/ (pending l k t /\ ~ overrides k e).
  Proof.
    split.
    - intros (a & b & E & H). apply snoc_split in E as [(_ & -> & _)|(b' & -> & E)]; [auto|]. right. split.
      + exists a, b'. split; [exact E|]. intros e' He. apply H. apply in_or_app. auto.
      + apply H. apply in_or_app. right. now left.
    - intros [->|[(a & b & -> & H) N]].
      + exists l, []. split; [reflexivity|]. intros ? [].
      + exists a, (b ++ [e]). split; [now rewrite <- app_assoc|]. intros e' He. apply in_app_or in He as [He|[<-|[]]]; auto.
  Qed.

  Lemma d_set_keys k t d : map fst (d_set k t d) = map fst d \/ (~ In k (map fst d) /\ map fst (d_set k t d) = map fst d ++ [k]).
  Proof.
    induction d as [|[k' t'] d IH]; cbn; [auto|]. destruct (eqk k' k) eqn:E; cbn; [auto|].
    destruct IH as [->|[N ->]]; [auto|]. right. split; [|reflexivity]. intros [->|H]; [|auto].
    assert (eqk k k = true) by now apply eqk_spec. congruence.
  Qed.
  Lemma d_set_nodup k t d : NoDup (map fst d) -> NoDup (map fst (d_set k t d)).
  Proof.
    intros H. destruct (d_set_keys k t d) as [->|[N ->]]; [exact H|]. apply (Permutation_NoDup (l := k :: map fst d)); [apply Permutation_cons_append|].
    now constructor.
  Qed.
  Lemma d_set_in k t d k' t' : NoDup (map fst d) -> (In (k', t') (d_set k t d) <-> (k' = k /\ t' = t) \/ (k' <> k /\ In (k', t') d)).
  Proof.
    induction d as [|[k0 t0] d IH]; intros N; cbn [TaskThr_Model.d_set].
    - cbn. split; [intros [[= <- <-]|[]]; auto|intros [[-> ->]|[_ []]]; auto].
    - cbn in N. inversion N as [|? ? N1 N2]; subst. destruct (eqk k0 k) eqn:E.
      + apply eqk_spec in E. subst k0. cbn. split.
        * intros [[= <- <-]|H]; [auto|]. right. split; [|auto]. intros ->. apply N1. apply (in_map fst) in H. exact H.
        * intros [[-> ->]|[Hk [[= -> ->]|H]]]; [auto|contradiction|auto].
      + cbn [In]. rewrite IH by assumption. split.
        * intros [[= <- <-]|[H|[H1 H2]]]; auto. right. split; [|auto]. intros ->. assert (eqk k k = true) by now apply eqk_spec. congruence.
        * intros [[-> ->]|[Hk [[= -> ->]|H]]]; auto.
  Qed.
  Lemma d_set_perm k t d : exists lost, Permutation (t :: map snd d) (map snd (d_set k t d) ++ lost).
  Proof.
    induction d as [|[k' t'] d IH]; cbn.
    - exists []. reflexivity.
    - destruct (eqk k' k); cbn.
      + exists [t']. constructor. apply Permutation_cons_append.
      + destruct IH as (lost & P). exists lost. rewrite perm_swap. now constructor.
  Qed.
  Lemma d_del_in k d k' t' : In (k', t') (d_del k d) <-> In (k', t') d /\ k' <> k.
  Proof.
    unfold TaskThr_Model.d_del. rewrite filter_In. cbn. split; intros [H1 H2]; (split; [exact H1|]).
    - intros ->. assert (eqk k k = true) by now apply eqk_spec. rewrite H in H2. discriminate.
    - now rewrite eqk_neq.
  Qed.
  Lemma d_del_nodup k d : NoDup (map fst d) -> NoDup (map fst (d_del k d)).
  Proof.
    induction d as [|[k' t'] d IH]; cbn; [auto|]. intros N. inversion N as [|? ? N1 N2]; subst. destruct (negb (eqk k' k)); cbn; [|auto].
    constructor; [|auto]. intros H. apply N1. apply in_map_iff in H as (p & <- & H). apply filter_In in H. apply in_map. tauto.
  Qed.
  Lemma d_del_perm k d : exists lost, Permutation (map snd d) (map snd (d_del k d) ++ lost).
  Proof.
    induction d as [|[k' t'] d (lost & P)]; cbn; [exists []; reflexivity|]. destruct (negb (eqk k' k)); cbn.
    - exists lost. now constructor.
    - exists (t' :: lost). rewrite <- Permutation_middle. now constructor.
  Qed.

  Definition rest (st : scall K T) : list (K * T) := match st with SLoop l => l | STask _ l => l | SOver => [] end.
  Definition rests (cs : list (scall K T)) : list T := map snd (flat_map rest cs).
  Arguments rests : simpl never.
  Lemma rests_put c st st' cs : nth_error cs c = Some st -> forall x lost, Permutation (map snd (rest st)) (x ++ map snd (rest st') ++ lost) ->
    Permutation (rests cs) (x ++ rests (t_put c st' cs) ++ lost).
  Proof.
    intros H x lost P. unfold rests. revert c H. induction cs as [|y cs IH]; intros [|c]; cbn; try discriminate; rewrite !map_app.
    - intros [= ->]. rewrite P, <- !app_assoc. apply Permutation_app_head. apply Permutation_app_head. apply Permutation_app_comm.
    - intros H. rewrite (IH c H). rewrite <- !app_assoc. rewrite !app_assoc. do 2 apply Permutation_app_tail. apply Permutation_app_comm.
  Qed.

  Record sinv s : Prop := Si {
    si_nodup : NoDup (map fst (s_dict s));
    si_dict : forall k t, In (k, t) (s_dict s) <-> pending (s_log s) k t;
    si_calls : forall c, In (VCall c) (s_log s) -> c < length (s_calls s);
    si_starts : forall c k t, In (VStart c k t) (s_log s) -> c < length (s_calls s);
    si_ok : forall c st, nth_error (s_calls s) c = Some st -> forall a b, s_log s = a ++ VCall c :: b ->
      exists D r, NoDup (map fst D) /\ (forall k t, In (k, t) D <-> pending a k t) /\ D = starts_of c (s_log s) ++ r /\
        match st with SOver => True | _ => r = rest st end;
    si_exit : forall c a b l2, s_log s = a ++ VCall c :: b ++ VExit c :: l2 -> forall k t, pending a k t -> In (k, t) (starts_of c (a ++ b));
    si_once : exists lost, Permutation (added (s_log s)) (started (s_log s) ++ rests (s_calls s) ++ map snd (s_dict s) ++ lost) }.

  Lemma ok_snoc l c st e : (forall a b, l = a ++ VCall c :: b ->
      exists D r, NoDup (map fst D) /\ (forall k t, In (k, t) D <-> pending a k t) /\ D = starts_of c l ++ r /\ match st with SOver => True | _ => r = rest st end) ->
    e <> VCall c -> starts_of c [e] = [] -> forall a b, l ++ [e] = a ++ VCall c :: b ->
      exists D r, NoDup (map fst D) /\ (forall k t, In (k, t) D <-> pending a k t) /\ D = starts_of c (l ++ [e]) ++ r /\ match st with SOver => True | _ => r = rest st end.
  Proof.
    intros H Ne Te a b E. apply snoc_split in E as [(_ & -> & _)|(b' & -> & E)]; [contradiction|]. destruct (H a b' E) as (D & r & P).
    exists D, r. now rewrite starts_of_app, Te, app_nil_r.
  Qed.
  Lemma sexit_snoc l e : (forall c a b l2, l = a ++ VCall c :: b ++ VExit c :: l2 -> forall k t, pending a k t -> In (k, t) (starts_of c (a ++ b))) ->
    (forall c a b, e = VExit c -> l = a ++ VCall c :: b -> forall k t, pending a k t -> In (k, t) (starts_of c (a ++ b))) ->
    forall c a b l2, l ++ [e] = a ++ VCall c :: b ++ VExit c :: l2 -> forall k t, pending a k t -> In (k, t) (starts_of c (a ++ b)).
  Proof.
    intros H1 H2 c a b l2 E. change (a ++ VCall c :: b ++ VExit c :: l2) with (a ++ (VCall c :: b) ++ VExit c :: l2) in E. rewrite app_assoc in E.
    apply snoc_split in E as [(_ & -> & E)|(d' & _ & E)].
    - eapply H2; eauto.
    - rewrite <- app_assoc in E. cbn in E. eapply H1; eauto.
  Qed.

  Lemma sinv_step s a : sinv s -> sinv (s_step s a).
  Proof.
    intros I. destruct s as [d cs l]. pose proof I as [I0 I1 I2 I3 I4 I5 (lost & I6)]. cbn in *.
    assert (N : forall c st st' e, nth_error cs c = Some st ->
      (forall k, ~ overrides k e) -> (forall k t, e <> VAdd k t) -> (forall c', e <> VCall c') ->
      (forall c' k t, e = VStart c' k t -> c' = c) -> (forall c', e = VExit c' -> c' = c) ->
      (forall a b, l ++ [e] = a ++ VCall c :: b ->
        exists D r, NoDup (map fst D) /\ (forall k t, In (k, t) D <-> pending a k t) /\ D = starts_of c (l ++ [e]) ++ r /\ match st' with SOver => True | _ => r = rest st' end) ->
      (e = VExit c -> st = SLoop []) ->
      (exists lost, Permutation (added (l ++ [e])) (started (l ++ [e]) ++ rests (t_put c st' cs) ++ map snd d ++ lost)) ->
      sinv (Ss d (t_put c st' cs) (l ++ [e]))).
    { intros c st st' e Hc H1 H2 H2' H3 H4 H5 H6 H7. constructor; cbn; rewrite ?t_put_length; auto.
      - intros k t. rewrite I1, pending_snoc. split; [intros H; right; auto|]. intros [H|[H _]]; [now apply H2 in H|exact H].
      - intros c' H. apply in_app_or in H as [H|[H|[]]]; [auto|]. now apply H2' in H.
      - intros c' k t H. apply in_app_or in H as [H|[H|[]]]; [eauto|]. apply H3 in H. subst c'. apply nth_error_Some. congruence.
      - intros c' st0 H. destruct (Nat.eq_dec c c') as [<-|X]; [rewrite (t_put_same _ _ _ _ Hc) in H; injection H as <-; exact H5|].
        rewrite t_put_other in H by auto. apply ok_snoc; [exact (I4 c' st0 H)|auto|].
        destruct e as [| | |c0 k t| |]; cbn; auto. rewrite (H3 c0 k t eq_refl). destruct (Nat.eqb_spec c c'); [contradiction|reflexivity].
      - apply sexit_snoc; [exact I5|]. intros c' a0 b0 Ee E k t P. pose proof (H4 c' Ee). subst c'. specialize (H6 Ee). subst st.
        destruct (I4 c _ Hc a0 b0 E) as (D & r & _ & HD & ED & Er). cbn in Er. subst r. rewrite app_nil_r in ED.
        apply HD in P. rewrite ED, E in P. rewrite starts_of_app in *. exact P. }
    destruct a as [k t|k| |c|c raises]; cbn [TaskThr_Model.s_step].
    - constructor; cbn.
      + now apply d_set_nodup.
      + intros k' t'. rewrite (d_set_in _ _ _ _ _ I0), pending_snoc, I1. cbn. split.
        * intros [[-> ->]|[H1 H2]]; [auto|]. right. split; [exact H2|]. congruence.
        * intros [[= <- <-]|[H1 H2]]; [auto|]. right. split; [|exact H1]. congruence.
      + intros c H. apply in_app_or in H as [H|[H|[]]]; [auto|discriminate].
      + intros c k' t' H. apply in_app_or in H as [H|[H|[]]]; [eauto|discriminate].
      + intros c st Hc. apply ok_snoc; [exact (I4 c st Hc)|discriminate|reflexivity].
      + apply sexit_snoc; [exact I5|]. discriminate.
      + destruct (d_set_perm k t d) as (lost' & P). exists (lost' ++ lost). rewrite added_app, started_app. cbn. rewrite app_nil_r.
        rewrite (app_assoc (map snd (d_set k t d)) lost' lost), <- P. rewrite <- Permutation_cons_append, I6. cbn [app].
        rewrite (app_assoc (started l) (rests cs) (t :: map snd d ++ lost)), <- Permutation_middle, <- app_assoc. reflexivity.
    - constructor; cbn.
      + now apply d_del_nodup.
      + intros k' t'. rewrite d_del_in, pending_snoc, I1. cbn. split.
        * intros [H1 H2]. right. split; [exact H1|]. congruence.
        * intros [H|[H1 H2]]; [discriminate|]. split; [exact H1|]. congruence.
      + intros c H. apply in_app_or in H as [H|[H|[]]]; [auto|discriminate].
      + intros c k' t' H. apply in_app_or in H as [H|[H|[]]]; [eauto|discriminate].
      + intros c st Hc. apply ok_snoc; [exact (I4 c st Hc)|discriminate|reflexivity].
      + apply sexit_snoc; [exact I5|]. discriminate.
      + destruct (d_del_perm k d) as (lost' & P). exists (lost' ++ lost). rewrite added_app, started_app. cbn. rewrite !app_nil_r.
        rewrite (app_assoc (map snd (d_del k d)) lost' lost), <- P. exact I6.
    - constructor; cbn.
      + constructor.
      + intros k t. rewrite pending_snoc. cbn. split; [intros []|]. intros [H|[_ H]]; [discriminate|tauto].
      + intros c H. rewrite app_length. cbn. apply in_app_or in H as [H|[H|[]]]; [apply I2 in H; lia|injection H as <-; lia].
      + intros c k t H. rewrite app_length. cbn. apply in_app_or in H as [H|[H|[]]]; [apply I3 in H; lia|discriminate].
      + intros c st H. destruct (Nat.lt_ge_cases c (length cs)) as [Lt|Ge].
        * rewrite nth_error_app1 in H by exact Lt. apply ok_snoc; [exact (I4 c st H)|intros [= X]; lia|reflexivity].
        * rewrite nth_error_app2 in H by exact Ge. destruct (c - length cs) as [|[|x]] eqn:D; cbn in H; try discriminate. injection H as <-.
          assert (c = length cs) by lia. subst c. intros a b E. apply snoc_split in E as [(_ & _ & <-)|(b' & _ & E)].
          -- exists d, d. split; [exact I0|]. split; [exact I1|]. rewrite starts_of_app. cbn. rewrite app_nil_r.
             rewrite (starts_of_none (length cs) l) by exact I3. auto.
          -- exfalso. assert (X : In (VCall (length cs)) l) by (rewrite E; apply in_or_app; right; now left). apply I2 in X. lia.
      + apply sexit_snoc; [exact I5|]. discriminate.
      + exists lost. rewrite added_app, started_app. cbn. rewrite !app_nil_r. unfold rests in *. rewrite flat_map_app, map_app. cbn.
        rewrite app_nil_r, <- app_assoc. exact I6.
    - destruct (nth_error cs c) as [[[|p r]|p r|]|] eqn:Hc; try exact I.
      + eapply N; eauto; try discriminate.
        * intros c' [= <-]. reflexivity.
        * apply (ok_snoc l c SOver (VExit c)); [|discriminate|reflexivity]. intros a b E. destruct (I4 c _ Hc a b E) as (D & r & P1 & P2 & P3 & _). exists D, r. auto.
        * exists lost. rewrite added_app, started_app. cbn. rewrite !app_nil_r.
          assert (P : Permutation (rests cs) ([] ++ rests (t_put c SOver cs) ++ [])) by (eapply rests_put; [exact Hc|reflexivity]).
          cbn in P. rewrite app_nil_r in P. rewrite <- P. exact I6.
      + eapply N; eauto; try discriminate.
        * intros c' k t [= <- _ _]. reflexivity.
        * intros a b E. apply snoc_split in E as [(_ & X & _)|(b' & _ & E)]; [discriminate|].
          destruct (I4 c _ Hc a b' E) as (D & r' & P1 & P2 & P3 & P4). cbn in P4. subst r'. exists D, r. split; [exact P1|]. split; [exact P2|].
          split; [|reflexivity]. rewrite P3, starts_of_app. cbn. rewrite Nat.eqb_refl, <- app_assoc. destruct p. reflexivity.
        * exists lost. rewrite added_app, started_app. cbn. rewrite !app_nil_r.
          assert (P : Permutation (rests cs) ([snd p] ++ rests (t_put c (STask p r) cs) ++ [])) by (eapply rests_put; [exact Hc|cbn; now rewrite app_nil_r]).
          rewrite app_nil_r in P. rewrite I6, P. cbn. rewrite <- !app_assoc. reflexivity.
    - destruct (nth_error cs c) as [[r|p r|]|] eqn:Hc; try exact I. destruct raises.
      + eapply N; eauto; try discriminate.
        * apply (ok_snoc l c SOver (VRaise c)); [|discriminate|reflexivity]. intros a b E. destruct (I4 c _ Hc a b E) as (D & r' & P1 & P2 & P3 & _). exists D, r'. auto.
        * exists (map snd r ++ lost). rewrite added_app, started_app. cbn. rewrite !app_nil_r.
          assert (P : Permutation (rests cs) ([] ++ rests (t_put c SOver cs) ++ map snd r)) by (eapply rests_put; [exact Hc|reflexivity]).
          rewrite I6, P. cbn. rewrite <- !app_assoc. do 2 apply Permutation_app_head. rewrite !app_assoc. apply Permutation_app_tail. apply Permutation_app_comm.
      + constructor; cbn; rewrite ?t_put_length; auto.
        * intros c' st H. destruct (Nat.eq_dec c c') as [<-|X]; [rewrite (t_put_same _ _ _ _ Hc) in H; injection H as <-; exact (I4 c _ Hc)|].
          rewrite t_put_other in H by auto. now apply I4.
        * exists lost. assert (P : Permutation (rests cs) ([] ++ rests (t_put c (SLoop r) cs) ++ [])) by (eapply rests_put; [exact Hc|cbn; now rewrite app_nil_r]).
          cbn in P. rewrite app_nil_r in P. rewrite <- P. exact I6.
  Qed.
  Lemma sinv_run acts : sinv (s_run acts).
  Proof.
    unfold TaskThr_Model.s_run. assert (G : forall acts s, sinv s -> sinv (fold_left s_step acts s)).
    { induction acts0 as [|a l IH]; intros s H; cbn; [exact H|]. apply IH. now apply sinv_step. }
    apply G. constructor; cbn; auto; try (intros; contradiction).
    - constructor.
    - intros k t. split; [intros []|]. intros (a & b & E & _). destruct a; discriminate.
    - intros c st H. destruct c; discriminate.
    - intros c a b d E. destruct a; discriminate.
    - exists []. reflexivity.
  Qed.
End Set_.
