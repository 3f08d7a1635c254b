From Coq Require Import Arith Bool List Lia.
From Verif Require Import PyBase LockOrder_Model LockOrder_Spec.
Import ListNotations.

(** ** sequences that take mutexes in order *)
Section Fits.
  Variable rank : nat -> nat.
  (** with [held] at the start, and [left] at the end *)
  Fixpoint fits (held : list nat) (p : list act) (left : list nat) : Prop :=
    match p with
    | [] => left = held
    | Acq n :: p' => (In n held \/ forall h, In h held -> rank h < rank n) /\ fits (n :: held) p' left
    | Rel n :: p' => exists held', held = n :: held' /\ fits held' p' left
    end.
  Lemma fits_app held mid left p q : fits held p mid -> fits mid q left -> fits held (p ++ q) left.
  Proof.
    revert held. induction p as [|[n|n] p IH]; intros held; simpl.
    - intros ->. auto.
    - intros [H1 H2] H3. eauto.
    - intros (h & -> & H2) H3. eauto.
  Qed.

  Variable list_kind : nat -> kind.
  Variable listeners : nat -> list listener.
  Variable masters : nat -> list nat.
  Notation locked := (LockOrder_Model.locked list_kind).
  Notation does := (LockOrder_Model.does list_kind listeners masters).
  Notation reaches := (LockOrder_Spec.reaches listeners).
  Hypothesis Hord : ordered listeners masters rank.

  Lemma fits_locked n p held :
    (In n held \/ forall h, In h held -> rank h < rank n) -> fits (n :: held) p (n :: held) ->
    (list_kind n = Base -> fits held p held) -> fits held (locked n p) held.
  Proof.
    intros H1 H2 H3. unfold LockOrder_Model.locked. destruct (list_kind n); auto; simpl; (split; [exact H1|]); apply (fits_app _ (n :: held)); auto; simpl; eauto.
  Qed.
  Lemma fits_read n held : (In n held \/ forall h, In h held -> rank h < rank n) -> fits held (locked n []) held.
  Proof. intros H. apply fits_locked; simpl; auto. Qed.

  (** the list may fire with these mutexes held *)
  Definition may (held : list nat) (n : nat) : Prop :=
    (forall h, In h held -> h = n \/ rank h < rank n) \/ (forall m h, reaches n m -> In h held -> rank h < rank m).
  Definition above (held : list nat) (n : nat) : Prop := forall h, In h held -> rank h < rank n.
  Definition good (held : list nat) (j : job) : Prop :=
    match j with
    | Send n _ | Sends n => may held n
    | Hears ls _ => forall l, In l ls -> match l with
                                         | Derived d => above held d
                                         | Within f => may held f
                                         | Reads m => In m held \/ above held m
                                         end
    | Hear l _ => match l with
                  | Derived d => above held d
                  | Within f => may held f
                  | Reads m => In m held \/ above held m
                  end
    | Flatten d => exists held', held = d :: held' /\ above held' d
    | Changed _ | Call _ | Calls _ => held = []
    end.
  Lemma may_above held n : above held n -> may held n.
  Proof. intros H. left. intros h Hh. right. exact (H h Hh). Qed.
  Lemma may_own held n : above held n -> may (n :: held) n.
  Proof. intros H. left. intros h [<-|Hh]; [left; reflexivity|right; exact (H h Hh)]. Qed.
  Lemma above_nil n : above [] n.
  Proof. intros h []. Qed.
  Lemma may_nil n : may [] n.
  Proof. apply may_above, above_nil. Qed.

  Lemma does_fits j p : does j p -> forall held, good held j -> fits held p held.
  Proof.
    destruct Hord as (Hd & Hm & Hw & Hr).
    intros D. induction D; intros held G; simpl in G; try solve [simpl; auto].
    - (* send *) apply IHD. simpl. intros l Hl. destruct G as [G|G].
      + destruct l as [d|f|m].
        * intros h Hh. specialize (Hd n d Hl). destruct (G h Hh) as [->|]; lia.
        * right. intros m h Hrm Hh. specialize (Hw n f m Hl Hrm). destruct (G h Hh) as [->|]; lia.
        * destruct (Hr n m Hl) as [Hlt| ->].
          -- right. intros h Hh. destruct (G h Hh) as [->|]; lia.
          -- destruct (in_dec Nat.eq_dec n held) as [Hin|Hout]; [left; exact Hin|right]. intros h Hh. destruct (G h Hh) as [->|]; [contradiction|assumption].
      + destruct l as [d|f|m].
        * intros h Hh. exact (G d h (reaches_derived _ _ _ Hl) Hh).
        * right. intros m h Hrm Hh. exact (G m h (reaches_within _ _ _ _ Hl Hrm) Hh).
        * right. intros h Hh. exact (G m h (reaches_reads _ _ _ Hl) Hh).
    - (* more *) exact (fits_app held held held p q (IHD1 held G) (IHD2 held G)).
    - (* raised *) apply IHD. apply (G l). left. reflexivity.
    - (* hears *) apply (fits_app held held); [apply IHD1; apply (G l); left; reflexivity|apply IHD2; intros l' Hl'; apply G; right; exact Hl'].
    - (* reads *) apply fits_read. exact G.
    - (* filt item *) apply fits_locked; [right; exact G|apply IHD; apply may_own; exact G|congruence].
    - (* filt note *) apply IHD. apply may_above. exact G.
    - apply fits_locked; [right; exact G|apply IHD; apply may_own; exact G|congruence].
    - apply IHD. apply may_above. exact G.
    - apply fits_locked; [right; exact G|apply IHD; apply may_own; exact G|congruence].
    - (* flat item *) apply fits_locked; [right; exact G|apply IHD; exists held; auto|congruence].
    - (* flat read *) destruct G as (h' & -> & G). apply (fits_app _ (d :: h')); [|apply IHD; exists h'; auto].
      apply fits_read. right. specialize (Hm d m H). intros h [<-|Hh]; [exact Hm|]. specialize (G h Hh). lia.
    - (* flat send *) destruct G as (h' & -> & G). apply (fits_app _ (d :: h')); [apply IHD1; apply may_own; exact G|apply IHD2; exists h'; auto].
    - (* changed *) subst held. apply (fits_app _ []); [|apply IHD2; reflexivity].
      apply fits_locked; [right; intros h []|apply IHD1; apply may_own; apply above_nil|intros _; apply IHD1; apply may_nil].
    - (* edit *) subst held. apply IHD. apply may_nil.
    - (* read *) subst held. apply fits_read. right. intros h [].
    - (* filter *) subst held. apply (fits_app _ []); [apply IHD1; apply may_nil|].
      apply fits_locked; [right; intros h []|apply IHD2; apply may_own; apply above_nil|congruence].
    - (* sort *) subst held. apply (fits_app _ []).
      + apply fits_locked; [right; intros h []|apply IHD1; apply may_own; apply above_nil|congruence].
      + apply fits_locked; [right; intros h []|apply IHD2; apply may_own; apply above_nil|congruence].
    - (* begin *) subst held. apply IHD. apply may_nil.
    - (* end *) subst held. apply fits_locked; [right; intros h []|apply IHD; apply may_own; apply above_nil|intros _; apply IHD; apply may_nil].
    - (* container *) subst held.
      assert (R : forall n k, good [] (Hears (repeat (Derived n) k) Item)) by (intros n' k l Hl; apply repeat_spec in Hl; subst l; apply above_nil).
      apply (fits_app _ []); [apply fits_read; right; intros h []|]. apply (fits_app _ []); [apply IHD1; apply R|].
      apply (fits_app _ []); [apply IHD2; apply may_nil|]. apply (fits_app _ []); [apply fits_read; right; intros h []|]. apply IHD3. apply R.
    - (* next *) subst held. apply (fits_app _ []); [apply IHD1; reflexivity|apply IHD2; reflexivity].
  Qed.
End Fits.

(** ** threads that take mutexes in order *)
Section Threads.
  Variable rank : nat -> nat.
  Definition fit (t : thread) : Prop := fits rank (t_held t) (t_acts t) [].
  (** no mutex is held by two threads *)
  Definition apart (l : list thread) : Prop := forall l1 t l2 u n, l = l1 ++ t :: l2 -> In u (l1 ++ l2) -> In n (t_held t) -> ~ In n (t_held u).
  Definition inv (l : list thread) : Prop := (forall t, In t l -> fit t) /\ apart l.

  Lemma apart_replace l1 l2 t t' :
    apart (l1 ++ t :: l2) -> (forall n, In n (t_held t') -> In n (t_held t) \/ forall u, In u (l1 ++ l2) -> ~ In n (t_held u)) -> apart (l1 ++ t' :: l2).
  Proof.
    intros A H k1 v k2 u n E Hu Hn Hc.
    (* positions *)
    assert (P : forall (a b c d : list thread) x y, a ++ x :: b = c ++ y :: d -> (a = c /\ x = y /\ b = d) \/ (exists m, c = a ++ x :: m /\ b = m ++ y :: d) \/ (exists m, a = c ++ y :: m /\ d = m ++ x :: b)).
    { clear. induction a as [|z a IH]; intros b [|w c] d x y E; simpl in E; injection E as E1 E2.
      - left. auto.
      - subst. right. left. exists c. auto.
      - subst. right. right. exists a. auto.
      - subst. destruct (IH _ _ _ _ _ E2) as [(-> & -> & ->)|[(m & -> & ->)|(m & -> & ->)]]; [left; auto|right; left; exists m; auto|right; right; exists m; auto]. }
    destruct (P _ _ _ _ _ _ E) as [(-> & <- & ->)|[(m & -> & ->)|(m & -> & ->)]].
    - destruct (H n Hn) as [Ho|Ho]; [exact (A k1 t k2 u n eq_refl Hu Ho Hc)|exact (Ho u Hu Hc)].
    - (* v after t' *) rewrite <- app_assoc in Hu. simpl in Hu. apply in_app_iff in Hu. simpl in Hu.
      assert (Hu' : In u (l1 ++ m ++ k2) \/ u = t').
      { destruct Hu as [Hu|[Hu|Hu]]; [left; apply in_app_iff; left; exact Hu|right; congruence|left; apply in_app_iff; right; exact Hu]. }
      destruct Hu' as [Hu'| ->].
      + apply (A (l1 ++ t :: m) v k2 u n); [rewrite <- app_assoc; reflexivity| |exact Hn|exact Hc].
        rewrite <- app_assoc. apply in_app_iff. apply in_app_iff in Hu'. simpl. tauto.
      + destruct (H n Hc) as [Ho|Ho].
        * apply (A l1 t (m ++ v :: k2) v n eq_refl); [|exact Ho|exact Hn]. apply in_app_iff. right. apply in_app_iff. right. left. reflexivity.
        * apply (Ho v); [|exact Hn]. apply in_app_iff. right. apply in_app_iff. right. left. reflexivity.
    - (* v before t' *)
      assert (Hu' : In u (k1 ++ m ++ l2) \/ u = t').
      { apply in_app_iff in Hu. destruct Hu as [Hu|Hu]; [left; apply in_app_iff; left; exact Hu|]. apply in_app_iff in Hu. simpl in Hu.
        destruct Hu as [Hu|[Hu|Hu]]; [|right; congruence|]; left; apply in_app_iff; right; apply in_app_iff; tauto. }
      destruct Hu' as [Hu'| ->].
      + apply (A k1 v (m ++ t :: l2) u n); [rewrite <- app_assoc; reflexivity| |exact Hn|exact Hc].
        apply in_app_iff in Hu'. apply in_app_iff. destruct Hu' as [Hu'|Hu']; [left; exact Hu'|right]. apply in_app_iff in Hu'. apply in_app_iff. simpl. tauto.
      + destruct (H n Hc) as [Ho|Ho].
        * apply (A (k1 ++ v :: m) t l2 v n); [reflexivity| |exact Ho|exact Hn]. apply in_app_iff. left. apply in_app_iff. right. left. reflexivity.
        * apply (Ho v); [|exact Hn]. apply in_app_iff. left. apply in_app_iff. right. left. reflexivity.
  Qed.
  Lemma step_inv l l' : inv l -> step l l' -> inv l'.
  Proof.
    intros [F A] S. destruct S as [l1 l2 held n p Hfree|l1 l2 held held' n p ->]; split.
    - intros t Ht. apply in_app_iff in Ht. simpl in Ht. destruct Ht as [Ht|[<-|Ht]]; [apply F; apply in_app_iff; tauto| |apply F; apply in_app_iff; simpl; tauto].
      destruct (F (Thread held (Acq n :: p))) as [_ H]; [apply in_app_iff; simpl; tauto|]. exact H.
    - apply (apart_replace _ _ (Thread held (Acq n :: p)) _ A). simpl. intros m [<-|Hm]; [right; intros u Hu; exact (Hfree u Hu)|left; exact Hm].
    - intros t Ht. apply in_app_iff in Ht. simpl in Ht. destruct Ht as [Ht|[<-|Ht]]; [apply F; apply in_app_iff; tauto| |apply F; apply in_app_iff; simpl; tauto].
      assert (H : fit (Thread (n :: held') (Rel n :: p))) by (apply F; apply in_app_iff; simpl; tauto). destruct H as (h & E & H). injection E as <-. exact H.
    - apply (apart_replace _ _ (Thread (n :: held') (Rel n :: p)) _ A). simpl. auto.
  Qed.
  Lemma steps_inv l l' : inv l -> steps l l' -> inv l'.
  Proof. intros H S. induction S as [|l l1 l2 S IH S1]; [exact H|]. exact (step_inv _ _ (IH H) S1). Qed.

  Lemma max_rank (l : list nat) : l <> [] -> exists n, In n l /\ forall m, In m l -> rank m <= rank n.
  Proof.
    induction l as [|x l IH]; [congruence|]. intros _. destruct l as [|y l].
    - exists x. split; [left; reflexivity|]. intros m [<-|[]]. lia.
    - destruct IH as (n & Hn & Hmax); [discriminate|]. destruct (le_lt_dec (rank x) (rank n)) as [Hle|Hlt].
      + exists n. split; [right; exact Hn|]. intros m [<-|Hm]; auto.
      + exists x. split; [left; reflexivity|]. intros m [<-|Hm]; [lia|]. specialize (Hmax m Hm). lia.
  Qed.
  Lemma thread_eq : forall t u : thread, {t = u} + {t <> u}.
  Proof. repeat decide equality. Qed.
  (** the mutex that each thread wants *)
  Definition wants (l : list thread) : list nat := flat_map (fun t => match t_acts t with Acq n :: _ => [n] | _ => [] end) l.

  Lemma goes_on l : inv l -> ended l \/ exists l', step l l'.
  Proof.
    intros [F A].
    (* some thread gives a mutex back *)
    destruct (List.existsb (fun t => match t_acts t with Rel _ :: _ => true | _ => false end) l) eqn:E1.
    { right. apply existsb_exists in E1. destruct E1 as ([held acts] & Hin & E1). simpl in E1. destruct acts as [|[n|n] p]; try discriminate.
      destruct (in_split _ _ Hin) as (l1 & l2 & ->). destruct (F _ Hin) as (h & E & _). simpl in E. exists (l1 ++ Thread h p :: l2). apply (step_rel _ _ _ _ _ _ E). }
    assert (N : forall t, In t l -> t_acts t = [] \/ exists n p, t_acts t = Acq n :: p).
    { intros t Ht. destruct (t_acts t) as [|[n|n] p] eqn:E; [auto|right; eauto|]. exfalso.
      assert (X : existsb (fun t => match t_acts t with Rel _ :: _ => true | _ => false end) l = true) by (apply existsb_exists; exists t; rewrite E; auto). congruence. }
    (* some thread wants a mutex that it holds *)
    destruct (existsb (fun t => match t_acts t with Acq n :: _ => if in_dec Nat.eq_dec n (t_held t) then true else false | _ => false end) l) eqn:E3.
    { right. apply existsb_exists in E3. destruct E3 as ([held acts] & Hin & E3). simpl in E3. destruct acts as [|[n|n] p]; try discriminate.
      destruct (in_dec Nat.eq_dec n held) as [Hh|]; [|discriminate]. destruct (in_split _ _ Hin) as (l1 & l2 & ->).
      exists (l1 ++ Thread (n :: held) p :: l2). apply step_acq. intros u Hu. exact (A l1 _ l2 u n eq_refl Hu Hh). }
    destruct (wants l) as [|x ws] eqn:Ew.
    - left. intros t Ht. destruct (N t Ht) as [E|(n & p & E)].
      + split; [exact E|]. specialize (F t Ht). unfold fit in F. rewrite E in F. simpl in F. auto.
      + exfalso. assert (H : In n (wants l)) by (apply in_flat_map; exists t; rewrite E; simpl; auto). rewrite Ew in H. exact H.
    - right. destruct (max_rank (wants l)) as (n & Hn & Hmax); [rewrite Ew; discriminate|].
      apply in_flat_map in Hn. destruct Hn as (t & Ht & Hn). destruct (N t Ht) as [E|(n' & p & E)]; rewrite E in Hn; simpl in Hn; [tauto|].
      destruct Hn as [->|[]]. destruct t as [held acts]. simpl in E. subst acts. destruct (in_split _ _ Ht) as (l1 & l2 & El). rewrite El.
      destruct (existsb (fun u => if in_dec Nat.eq_dec n (t_held u) then true else false) (l1 ++ l2)) eqn:E2.
      + exfalso. apply existsb_exists in E2. destruct E2 as (u & Hu & E2). destruct (in_dec Nat.eq_dec n (t_held u)) as [Hin|]; [|discriminate].
        assert (Hul : In u l) by (rewrite El; apply in_app_iff; apply in_app_iff in Hu; simpl; tauto).
        destruct (N u Hul) as [Eu|(m & q & Eu)].
        * specialize (F u Hul). unfold fit in F. rewrite Eu in F. simpl in F. rewrite <- F in Hin. exact Hin.
        * assert (Hm : rank m <= rank n) by (apply Hmax; apply in_flat_map; exists u; rewrite Eu; simpl; auto).
          assert (Fu := F u Hul). unfold fit in Fu. rewrite Eu in Fu. destruct Fu as [[Own|Hlt] _]; [|specialize (Hlt n Hin); lia].
          assert (X : existsb (fun t => match t_acts t with Acq n :: _ => if in_dec Nat.eq_dec n (t_held t) then true else false | _ => false end) l = true); [|congruence].
          apply existsb_exists. exists u. rewrite Eu. split; [exact Hul|]. destruct (in_dec Nat.eq_dec m (t_held u)); [reflexivity|contradiction].
      + exists (l1 ++ Thread (n :: held) p :: l2). apply step_acq. intros u Hu Hin.
        assert (X : existsb (fun u => if in_dec Nat.eq_dec n (t_held u) then true else false) (l1 ++ l2) = true); [|congruence].
        apply existsb_exists. exists u. split; [exact Hu|]. destruct (in_dec Nat.eq_dec n (t_held u)); [reflexivity|contradiction].
  Qed.
  Lemma started_inv ps : (forall p, In p ps -> fits rank [] p []) -> inv (started ps).
  Proof.
    intros H. assert (E : forall t, In t (started ps) -> exists p, In p ps /\ t = Thread [] p).
    { intros t Ht. apply in_map_iff in Ht. destruct Ht as (p & <- & Hp). eauto. }
    split.
    - intros t Ht. destruct (E t Ht) as (p & Hp & ->). exact (H p Hp).
    - intros l1 t l2 u n El Hu Hn. destruct (E t) as (p & _ & ->); [rewrite El; apply in_app_iff; simpl; tauto|]. destruct Hn.
  Qed.
End Threads.
Lemma step_work l l' : step l l' -> work l = S (work l').
Proof.
  intros S. unfold work. destruct S; rewrite !map_app, !list_sum_app; simpl; lia.
Qed.
Lemma takes_work n l l' : takes n l l' -> n + work l' = work l.
Proof. intros T. induction T as [|n l l' l'' T IH S]; [reflexivity|]. apply step_work in S. lia. Qed.
