From Coq Require Import List ZArith Bool Arith Permutation Sorted Lia.
From Verif Require Import PyBase Filtered_Model Filtered_Spec Filtered_Proofs Filtered_Proofs2 Filtered_Proofs3
  FiltThr_Model FiltThr_Spec.
Import ListNotations.

Section FT.
  Context {A C : Type} (A_dec : forall a b : A, {a = b} + {a <> b}).
  Notation inb := (inb A_dec).
  Notation tst := (tst A C).
  Notation tact := (tact A C).
  Notation tpc := (tpc A C).
  Notation shared := (shared A C).
  Notation t_step := (t_step A_dec).
  Notation t_move := (t_move A_dec).

  (** a list that names items of [m] in their order *)
  Definition sub (l m : list A) : Prop := exists f, l = filter f m.

  Lemma sub_incl l m : sub l m -> incl l m.
  Proof. intros [f ->] x H. apply filter_In in H. tauto. Qed.
  Lemma sub_nodup l m : sub l m -> NoDup m -> NoDup l.
  Proof. intros [f ->]. apply NoDup_filter. Qed.
  Lemma sub_self l m : sub l m -> l = filter (fun x => inb x l) m.
  Proof.
    intros [f ->]. apply filter_ext_in'. intros x Hx. destruct (f x) eqn:E; symmetry.
    - apply inb_spec, filter_In. auto.
    - apply inb_false. intros K. apply filter_In in K. destruct K. congruence.
  Qed.
  Lemma sub_filter f l m : sub l m -> sub (filter f l) m.
  Proof. intros [g ->]. exists (fun x => g x && f x). apply filter_filter. Qed.
  Lemma sub_snoc x l pre : ~ In x pre -> sub l pre -> sub (l ++ [x]) (pre ++ [x]) /\ sub l (pre ++ [x]).
  Proof.
    intros Hx [f ->].
    assert (G : forall b, filter (fun y => if A_dec y x then b else f y) (pre ++ [x]) = filter f pre ++ if b then [x] else []).
    { intros b. rewrite filter_app. f_equal.
      - apply filter_ext_in'. intros y Hy. destruct (A_dec y x) as [->|]; [contradiction|reflexivity].
      - cbn. destruct (A_dec x x); [|congruence]. destruct b; reflexivity. }
    split; [exists (fun y => if A_dec y x then true else f y)|exists (fun y => if A_dec y x then false else f y)];
      rewrite G; [reflexivity|]. rewrite app_nil_r. reflexivity.
  Qed.
  (** taking an item out of the master list and of the list *)
  Lemma sub_del x l1 l2 l : NoDup (l1 ++ x :: l2) -> sub l (l1 ++ x :: l2) ->
    forall i1 i2, l = i1 ++ x :: i2 -> ~ In x i1 -> sub (i1 ++ i2) (l1 ++ l2).
  Proof.
    intros Hn [f ->] i1 i2 E Hi. apply nodup_app_parts in Hn as (H1 & H2 & _ & _). exists f.
    rewrite filter_app_cons in E.
    destruct (f x) eqn:Ef.
    - rewrite filter_app. cbn [app] in E.
      assert (F : ~ In x (filter f l1)) by (intros K; apply filter_In in K; tauto).
      assert (G : filter f l1 = i1 /\ filter f l2 = i2).
      { clear - E F Hi. revert i1 E Hi. induction (filter f l1) as [|a l IH]; intros [|b i1] E Hi; cbn [app] in E.
        - injection E as ->. auto.
        - injection E as -> _. exfalso. apply Hi. left. reflexivity.
        - injection E as -> _. exfalso. apply F. left. reflexivity.
        - injection E as -> E. destruct (IH (fun K => F (or_intror K)) i1 E (fun K => Hi (or_intror K))) as [-> ->]. auto. }
      destruct G as [-> ->]. reflexivity.
    - exfalso. cbn [app] in E. assert (K : In x (filter f l1 ++ filter f l2)) by (rewrite E; apply in_elt).
      apply in_app_iff in K as [K|K]; apply filter_In in K; tauto.
  Qed.
  Lemma sub_del_none x l1 l2 l : sub l (l1 ++ x :: l2) -> ~ In x l -> sub l (l1 ++ l2).
  Proof.
    intros [f ->] H. exists f. rewrite filter_app_cons in *. rewrite filter_app. destruct (f x); [|reflexivity].
    exfalso. apply H. cbn. apply in_elt.
  Qed.
  Lemma sub_ins x l1 l2 l : ~ In x (l1 ++ l2) -> sub l (l1 ++ l2) -> sub l (l1 ++ x :: l2).
  Proof.
    intros H [f ->]. exists (fun y => if A_dec y x then false else f y). rewrite filter_app_cons, filter_app.
    rewrite in_app_iff in H. destruct (A_dec x x); [|congruence]. cbn [app].
    f_equal; apply filter_ext_in'; intros y Hy; (destruct (A_dec y x) as [->|]; [exfalso; tauto|reflexivity]).
  Qed.

  (** -- changing the items to a list that has been built -- *)
  Lemma apply_spec ord (h : shared) new it tr :
    apply_items A_dec ord h new = (it, tr) -> (forall l, Permutation (ord l) l) -> NoDup (h_items h) -> NoDup new ->
    Permutation it new /\ (h_flag h = false -> it = new) /\
    (NoDup (h_master h) -> sub (h_items h) (h_master h) -> sub new (h_master h) -> it = new).
  Proof.
    unfold apply_items. intros E Hord Hi Hn. destruct (h_flag h) eqn:Ef.
    - destruct (rem_loop _ (h_items h) 0 0 (h_items h)) as [it1 t1] eqn:E1.
      set (ret := filter (fun x => inb x new) (h_items h)) in *.
      assert (Hit1 : it1 = ret).
      { pose proof (rem_loop_spec (fun x => negb (inb x new)) (h_items h) [] 0 0 eq_refl (le_n 0)) as R.
        cbn [app] in R. rewrite E1 in R. cbn in R. rewrite R. unfold ret. apply filter_ext_in'.
        intros x _. rewrite negb_involutive. reflexivity. }
      subst it1. destruct (ins_loop _ _ ret) as [it2 t2] eqn:E2. injection E as <- <-.
      assert (Hp : Permutation it2 new).
      { match type of E2 with ins_loop ?p ?xs ?l = _ => pose proof (ins_loop_perm p xs l) as R end.
        rewrite E2 in R. cbn [fst] in R. rewrite R, (Hord _). apply NoDup_Permutation.
        - apply NoDup_app_intro; [apply NoDup_filter; exact Hn|apply NoDup_filter; exact Hi|].
          intros x H1 H2. apply filter_In in H1 as [_ H1]. apply filter_In in H2 as [H2 _]. apply negb_inb in H1. contradiction.
        - exact Hn.
        - intros x. rewrite in_app_iff. unfold ret. rewrite !filter_In, negb_inb, inb_spec.
          destruct (in_dec A_dec x (h_items h)); tauto. }
      split; [exact Hp|]. split; [discriminate|]. intros Hm [f Hf] [g Hg].
      match type of E2 with ins_loop (find_sorted ?op ?key) ?xs ?l = _ => pose proof (ins_loop_srt op key xs nat_swo l) as R end.
      rewrite E2 in R. cbn [fst] in R.
      assert (Hsn : srt Nat.ltb (index_in A_dec new) new).
      { apply (index_in_srt A_dec new). exact Hn. }
      eapply ss_perm_eq; [| |exact Hsn|exact Hp].
      + intros a b Ha Hb H1 H2. apply (index_in_inj A_dec new); [rewrite <- Hp; exact Ha|rewrite <- Hp; exact Hb|].
        apply Nat.ltb_ge in H1, H2. lia.
      + apply R.
        assert (Hret : ret = filter (fun x => inb x (h_items h)) new).
        { transitivity (filter (fun x => inb x new) (filter f (h_master h))); [unfold ret; rewrite <- Hf; reflexivity|].
          transitivity (filter (fun x => inb x (h_items h)) (filter g (h_master h))); [|rewrite <- Hg; reflexivity]. rewrite !filter_filter. apply filter_ext_in'. intros x Hx.
          assert (B : forall l k, l = filter k (h_master h) -> inb x l = k x).
          { intros l k ->. destruct (k x) eqn:E3; [apply inb_spec, filter_In; auto|].
            apply inb_false. intros K. apply filter_In in K. destruct K. congruence. }
          rewrite (B _ _ Hf), (B _ _ Hg). apply andb_comm. }
        rewrite Hret. apply ss_filter. exact Hsn.
    - destruct (append_loop new []) as [it2 t2] eqn:E2. injection E as <- <-.
      pose proof (append_loop_spec new []) as R. rewrite E2 in R. cbn in R. subst it2. auto.
  Qed.
  Lemma apply_trace ord (h : shared) new it tr :
    apply_items A_dec ord h new = (it, tr) -> f_follows (h_items h) tr it /\ nesting 0 tr = Some 1.
  Proof.
    unfold apply_items. destruct (h_flag h).
    - destruct (rem_loop _ (h_items h) 0 0 (h_items h)) as [it1 t1] eqn:E1.
      destruct (ins_loop _ _ it1) as [it2 t2] eqn:E2. intros [= <- <-].
      destruct (rem_loop_names _ (h_items h) [] 0 0 it1 t1 eq_refl (le_n 0) E1) as [H1 H2].
      destruct (ins_loop_names _ _ _ _ _ E2) as [H3 H4]. split.
      + apply f_names_follows. cbn [f_names]. eapply f_names_app; eassumption.
      + cbn [nesting]. rewrite (nesting_app _ _ _ 1) by apply H2. apply H4.
    - destruct (append_loop new []) as [it2 t2] eqn:E2. intros [= <- <-].
      destruct (pop_loop_follows (h_items h) (h_items h) eq_refl) as [H1 H2].
      destruct (append_loop_follows _ _ _ _ E2) as [H3 H4]. split.
      + cbn [f_follows]. eapply f_follows_app; [exact H1|apply f_names_follows; exact H3].
      + cbn [nesting]. rewrite (nesting_app _ _ _ 1) by apply H2. apply H4.
  Qed.

  (** -- dropping an item -- *)
  Lemma drop_spec (h : shared) x h1 tr : drop_item A_dec h x = (h1, tr) -> NoDup (h_items h) ->
    h1 = set_items h (h_items h1) /\ NoDup (h_items h1) /\ (forall y, In y (h_items h1) <-> In y (h_items h) /\ y <> x) /\
    (~ In x (h_items h) /\ h_items h1 = h_items h \/ exists i1 i2, h_items h = i1 ++ x :: i2 /\ ~ In x i1 /\ h_items h1 = i1 ++ i2).
  Proof.
    unfold drop_item. intros E Hn. destruct (index_of A_dec x (h_items h)) as [k|] eqn:Ei; injection E as <- <-.
    - apply index_of_some in Ei as (i1 & i2 & Hi & <- & Hx). rewrite Hi in *. cbn [set_items h_items].
      rewrite delete_at_app. apply nodup_app_parts in Hn as (H1 & H2 & H3 & H4). split; [reflexivity|].
      split; [exact H3|]. split.
      + intros y. rewrite !in_app_iff. rewrite in_app_iff in H4. cbn. split; [|intros [[K|[K|K]] K1]; [left; exact K|congruence|right; exact K]].
        intros H. split; [tauto|]. intros ->. tauto.
      + right. exists i1, i2. auto.
    - apply index_of_none in Ei. destruct h; cbn. split; [reflexivity|]. split; [exact Hn|]. split; [|left; auto].
      intros y. split; [|tauto]. intros H. split; [exact H|]. intros ->. contradiction.
  Qed.
  Lemma drop_trace (h : shared) x h1 tr : drop_item A_dec h x = (h1, tr) ->
    f_follows (h_items h) tr (h_items h1) /\ nesting 0 tr = Some 0.
  Proof.
    unfold drop_item. intros E. destruct (index_of A_dec x (h_items h)) as [k|] eqn:Ei; injection E as <- <-.
    - apply index_of_some in Ei as (i1 & i2 & Hi & <- & Hx). cbn. rewrite Hi. rewrite app_length. cbn. split; [|reflexivity].
      split; [lia|reflexivity].
    - split; reflexivity.
  Qed.

  (** -- one move -- *)
  Definition p_ok (h : shared) (p : tpc) : Prop :=
    match p with
    | TMatch x | TPlace x => In x (h_master h) /\ ~ In x (h_items h)
    | TCheck x => In x (h_master h)
    | TBuild acc rest => exists pre, h_master h = pre ++ rest /\ sub acc pre
    | TApply new => sub new (h_master h)
    | _ => True
    end.
  Record h_ok (h : shared) : Prop := Hok { k_master : NoDup (h_master h); k_items : NoDup (h_items h); k_in : incl (h_items h) (h_master h) }.
  Definition hright (h : shared) (y : A) : Prop := In y (h_items h) <-> In y (h_master h) /\ passes h y = true.
  Definition fixes (h : shared) (p : tpc) (y : A) : Prop :=
    match p with
    | TSetFlag | TUpd => True
    | TBuild acc rest => In y rest \/ (In y acc <-> In y (h_master h) /\ passes h y = true)
    | TApply new => In y new <-> In y (h_master h) /\ passes h y = true
    | TTell x | TCheck x | TMatch x => x = y
    | TPlace x => x = y /\ passes h y = true
    | _ => False
    end.

  Lemma py_insert_in i (x y : A) l : In y (py_insert i x l) <-> y = x \/ In y l.
  Proof.
    destruct (py_insert_split i x l) as (l1 & l2 & -> & ->). rewrite !in_app_iff. cbn. intuition.
  Qed.
  Lemma in_insert_at k (x y : A) l : In y (insert_at k x l) <-> y = x \/ In y l.
  Proof.
    pose proof (insert_at_perm k x l) as P. split; intros H.
    - apply (Permutation_in _ P) in H. cbn in H. intuition.
    - apply (Permutation_in _ (Permutation_sym P)). cbn. intuition.
  Qed.

  Lemma move_ok ord h p h1 p1 tr : t_move ord h p = (h1, p1, tr) -> (forall l, Permutation (ord l) l) ->
    h_ok h -> p_ok h p -> h_ok h1 /\ p_ok h1 p1.
  Proof.
    intros E Hord [Hm Hi Hin] Hp. destruct p; cbn [FiltThr_Model.t_move] in E; cbn [p_ok] in Hp.
    - destruct (inb x (h_master h)) eqn:Ex; injection E as <- <- <-.
      + split; [constructor; assumption|exact I].
      + apply inb_false in Ex. split; [constructor; cbn|].
        * destruct (py_insert_split i x (h_master h)) as (l1 & l2 & E & ->). rewrite E in *. apply nodup_insert; assumption.
        * exact Hi.
        * intros y Hy. apply py_insert_in. right. apply Hin, Hy.
        * cbn. split; [apply py_insert_in; auto|]. intros K. apply Ex, Hin, K.
    - injection E as <- <- <-. split; [constructor; assumption|]. destruct (passes h x); [exact Hp|exact I].
    - injection E as <- <- <-. split; [|exact I]. destruct Hp as [H1 H2]. constructor; cbn.
      + exact Hm.
      + eapply Permutation_NoDup; [symmetry; apply insert_at_perm|]. constructor; assumption.
      + intros y Hy. apply in_insert_at in Hy as [->|Hy]; [exact H1|apply Hin, Hy].
    - destruct (py_get (h_master h) i) as [x|] eqn:Eg; [|injection E as <- <- <-; split; [constructor; assumption|exact I]].
      destruct (py_get_split _ _ _ Eg) as (l1 & l2 & El & _ & Ed). rewrite Ed in E.
      destruct (drop_item _ _ _) as [h2 t2] eqn:E2. injection E as <- <- <-. split; [|exact I].
      destruct (drop_spec _ _ _ _ E2 Hi) as (F1 & F2 & F3 & _). rewrite F1. cbn [h_items h_master set_items] in *.
      rewrite El in *. apply nodup_app_parts in Hm as (G1 & G2 & G3 & G4). constructor; cbn; [exact G3|exact F2|].
      intros y Hy. apply F3 in Hy as [Hy Hne]. apply Hin in Hy. rewrite in_app_iff in *. cbn in Hy. intuition congruence.
    - injection E as <- <- <-. split; [constructor; assumption|exact I].
    - destruct (inb x (h_master h)) eqn:Ex; injection E as <- <- <-; (split; [constructor; assumption|]); [|exact I].
      cbn. apply inb_spec in Ex. exact Ex.
    - destruct (passes h x) eqn:Ep.
      + destruct (inb x (h_items h)) eqn:Ex; injection E as <- <- <-; (split; [constructor; assumption|]); [exact I|].
        apply inb_false in Ex. split; assumption.
      + destruct (drop_item _ _ _) as [h2 t2] eqn:E2. injection E as <- <- <-. split; [|exact I].
        destruct (drop_spec _ _ _ _ E2 Hi) as (F1 & F2 & F3 & _). rewrite F1. constructor; cbn; [exact Hm|exact F2|].
        intros y Hy. apply F3 in Hy as [Hy _]. apply Hin, Hy.
    - injection E as <- <- <-. split; [constructor; assumption|exact I].
    - injection E as <- <- <-. split; [constructor; assumption|exact I].
    - injection E as <- <- <-. split; [constructor; assumption|exact I].
    - injection E as <- <- <-. split; [constructor; assumption|exact I].
    - injection E as <- <- <-. split; [constructor; assumption|]. exists []. split; [reflexivity|]. exists (fun _ => true). reflexivity.
    - destruct rest as [|x rest]; injection E as <- <- <-; (split; [constructor; assumption|]); destruct Hp as (pre & E & Hs).
      + cbn. rewrite app_nil_r in E. rewrite E. exact Hs.
      + exists (pre ++ [x]). rewrite <- app_assoc. split; [exact E|].
        rewrite E in Hm. apply nodup_app_parts in Hm as (H1 & _). destruct (sub_snoc x acc pre H1 Hs).
        destruct (passes h x); assumption.
    - destruct (apply_items A_dec ord h new) as [it t] eqn:E2. injection E as <- <- <-. split; [|exact I].
      assert (Hnew : NoDup new) by (eapply sub_nodup; eassumption).
      destruct (apply_spec ord h new it t E2 Hord Hi Hnew) as (P & _). constructor; cbn.
      + exact Hm.
      + eapply Permutation_NoDup; [symmetry; exact P|exact Hnew].
      + intros y Hy. apply (Permutation_in _ P) in Hy. apply (sub_incl _ _ Hp), Hy.
    - injection E as <- <- <-. split; [constructor; assumption|exact I].
    - injection E as <- <- <-. split; [constructor; assumption|exact I].
    - injection E as <- <- <-. split; [constructor; assumption|exact I].
  Qed.

  (** what a call would spoil if nobody else did anything *)
  Definition breaks (h : shared) (p : tpc) (y : A) : Prop :=
    match p with
    | TBuild acc rest => ~ In y rest /\ ~ (In y acc <-> In y (h_master h) /\ passes h y = true)
    | TApply new => ~ (In y new <-> In y (h_master h) /\ passes h y = true)
    | TPlace x => x = y /\ passes h y = false
    | _ => False
    end.
  Definition fine (h : shared) (p : tpc) (y : A) : Prop := fixes h p y \/ hright h y /\ ~ breaks h p y.

  Lemma list_dec (h : shared) (l : list A) (y : A) :
    {In y l <-> In y (h_master h) /\ passes h y = true} + {~ (In y l <-> In y (h_master h) /\ passes h y = true)}.
  Proof.
    destruct (in_dec A_dec y l), (in_dec A_dec y (h_master h)), (passes h y); solve [left; intuition congruence|right; intuition congruence].
  Qed.

  Lemma move_right ord h p h1 p1 tr y : t_move ord h p = (h1, p1, tr) -> (forall l, Permutation (ord l) l) ->
    h_ok h -> p_ok h p -> fine h p y -> fine h1 p1 y.
  Proof.
    unfold fine. intros E Hord [Hm Hi Hin] Hp Hy.
    destruct p; cbn [FiltThr_Model.t_move] in E; cbn [p_ok] in Hp; cbn [fixes breaks] in Hy.
    - destruct Hy as [[]|[Hy _]].
      destruct (inb x (h_master h)) eqn:Ex; injection E as <- <- <-; [right; split; [exact Hy|intros []]|].
      destruct (A_dec x y) as [->|Hne]; [left; reflexivity|]. right. split; [|intros []].
      unfold hright, passes in *. cbn. rewrite py_insert_in. split; [intros H; apply Hy in H; tauto|].
      intros [[->|H] K]; [congruence|]. apply Hy. auto.
    - injection E as <- <- <-. destruct (passes h x) eqn:Ep.
      + destruct (A_dec x y) as [->|Hne]; [left; cbn; auto|]. destruct Hy as [Hy|[Hy _]]; [contradiction|].
        right. split; [exact Hy|]. cbn. tauto.
      + right. split; [|intros []]. destruct Hy as [->|[Hy _]]; [|exact Hy].
        unfold hright. rewrite Ep. split; [intros K; destruct Hp; contradiction|intros [_ K]; discriminate].
    - injection E as <- <- <-. right. split; [|intros []]. unfold hright, passes in *. cbn. rewrite in_insert_at. destruct Hp as [H1 H2].
      destruct (A_dec y x) as [->|Hne].
      + destruct (h_filter h (h_content h x)) eqn:Ep; [tauto|]. exfalso. destruct Hy as [[_ Hy]|[_ Hy]]; [discriminate|]. apply Hy. auto.
      + destruct Hy as [[Hy _]|[Hy _]]; [congruence|]. split; [intros [K|K]; [congruence|apply Hy, K]|]. intros K. right. apply Hy, K.
    - destruct Hy as [[]|[Hy _]].
      destruct (py_get (h_master h) i) as [x|] eqn:Eg; [|injection E as <- <- <-; right; split; [exact Hy|intros []]].
      destruct (py_get_split _ _ _ Eg) as (l1 & l2 & El & _ & Ed). rewrite Ed in E.
      destruct (drop_item _ _ _) as [h2 t2] eqn:E2. injection E as <- <- <-. right. split; [|intros []].
      destruct (drop_spec _ _ _ _ E2 Hi) as (F1 & F2 & F3 & _). unfold hright, passes in *. rewrite F3, F1.
      cbn [h_items h_master set_items h_filter h_content] in *. rewrite Hy, El.
      rewrite El in Hm. apply nodup_app_parts in Hm as (G1 & G2 & G3 & G4). rewrite !in_app_iff. cbn [In].
      rewrite in_app_iff in G4. split; [intros [[[K|[K|K]] K1] K2]; split; solve [tauto|congruence]|].
      intros [K1 K2]. split; [tauto|]. intros ->. tauto.
    - injection E as <- <- <-. destruct (A_dec x y) as [->|Hne]; [left; reflexivity|]. destruct Hy as [[]|[Hy _]].
      right. split; [|intros []]. unfold hright, passes in *. cbn. unfold update_content. destruct (A_dec y x); [congruence|]. exact Hy.
    - destruct (inb x (h_master h)) eqn:Ex; injection E as <- <- <-.
      + destruct Hy as [Hy|[Hy _]]; [left; exact Hy|right; split; [exact Hy|intros []]].
      + right. split; [|intros []]. destruct Hy as [->|[Hy _]]; [|exact Hy]. apply inb_false in Ex. split; [intros K; exfalso; apply Ex, Hin, K|tauto].
    - destruct (passes h x) eqn:Ep.
      + destruct (inb x (h_items h)) eqn:Ex; injection E as <- <- <-.
        * right. split; [|intros []]. destruct Hy as [->|[Hy _]]; [|exact Hy]. apply inb_spec in Ex. split; auto.
        * destruct Hy as [Hy|[Hy _]]; [left; exact Hy|right; split; [exact Hy|intros []]].
      + destruct (drop_item _ _ _) as [h2 t2] eqn:E2. injection E as <- <- <-. right. split; [|intros []].
        destruct (drop_spec _ _ _ _ E2 Hi) as (F1 & F2 & F3 & _). unfold hright, passes in *. rewrite F3, F1.
        cbn [h_items h_master set_items h_filter h_content] in *. destruct (A_dec y x) as [->|Hne].
        * rewrite Ep. split; [tauto|intros [_ K]; discriminate].
        * destruct Hy as [Hy|[Hy _]]; [congruence|]. tauto.
    - injection E as <- <- <-. left. exact I.
    - injection E as <- <- <-. left. exact I.
    - injection E as <- <- <-. left. exact I.
    - injection E as <- <- <-. destruct Hy as [[]|[Hy _]]. right. split; [exact Hy|intros []].
    - injection E as <- <- <-. cbn [fixes breaks]. destruct (in_dec A_dec y (h_master h)) as [K|K]; [left; left; exact K|].
      left. right. cbn. tauto.
    - destruct rest as [|x rest]; injection E as <- <- <-; cbn [fixes breaks]; destruct Hp as (pre & Em & Hs).
      + cbn in Hy. destruct Hy as [[[]|Hy]|[Hy K]]; [left; exact Hy|]. right. split; [exact Hy|]. tauto.
      + assert (D : (In y rest \/ (In y (if passes h x then acc ++ [x] else acc) <-> In y (h_master h) /\ passes h y = true)) \/
                    (y <> x /\ ~ In y rest /\ hright h y /\ ~ (In y acc <-> In y (h_master h) /\ passes h y = true))).
        { destruct (in_dec A_dec y rest) as [K|K]; [left; left; exact K|].
          destruct (A_dec y x) as [->|Hne].
          - left. right. assert (Hx : In x (h_master h)) by (rewrite Em; apply in_elt). destruct (passes h x) eqn:Ep.
            + rewrite in_app_iff. cbn. tauto.
            + split; [|intros [_ ?]; discriminate]. intros F. apply (sub_incl _ _ Hs) in F. rewrite Em in Hm.
              apply nodup_app_parts in Hm as (G & _). contradiction.
          - assert (F : In y (if passes h x then acc ++ [x] else acc) <-> In y acc).
            { destruct (passes h x); [|tauto]. rewrite in_app_iff. cbn [In]. split; [intros [Q|[Q|[]]]; [exact Q|congruence]|auto]. }
            destruct Hy as [[[Hy|Hy]|Hy]|[Hy K1]]; [congruence|contradiction|left; right; rewrite F; exact Hy|].
            destruct (list_dec h acc y) as [G|G]; [left; right; rewrite F; exact G|right; auto]. }
        destruct D as [D|(D1 & D2 & D3 & D4)]; [left; exact D|].
        exfalso. destruct Hy as [[[K|K]|K]|[_ K]]; [congruence|contradiction|contradiction|].
        apply K. split; [|exact D4]. intros [Q|Q]; [congruence|contradiction].
    - destruct (apply_items A_dec ord h new) as [it t] eqn:E2. injection E as <- <- <-. right. split; [|intros []].
      assert (Hnew : NoDup new) by (eapply sub_nodup; eassumption).
      destruct (apply_spec ord h new it t E2 Hord Hi Hnew) as (P & _).
      assert (G : In y new <-> In y (h_master h) /\ passes h y = true).
      { destruct Hy as [Hy|[_ Hy]]; [exact Hy|].
        destruct (list_dec h new y); [assumption|contradiction]. }
      unfold hright, passes in *. cbn. rewrite <- G. split; intros K; [apply (Permutation_in _ P), K|apply (Permutation_in _ (Permutation_sym P)), K].
    - injection E as <- <- <-. right. split; [|intros []]. destruct Hy as [[]|[Hy _]]. exact Hy.
    - injection E as <- <- <-. right. split; [|intros []]. destruct Hy as [[]|[Hy _]]. exact Hy.
    - injection E as <- <- <-. right. split; [|intros []]. destruct Hy as [[]|[Hy _]]. exact Hy.
  Qed.
End FT.
