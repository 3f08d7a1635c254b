(** Delivery to mapped and flattened lists. *)
From Coq Require Import List ZArith Bool Arith Permutation Sorted Lia.
From Verif Require Import PyBase Filtered_Model Filtered_Spec Mapped_Model Mapped_Spec Mapped_Proofs Flattened_Model Flattened_Spec Flattened_Proofs Feed_Model Feed_Spec Feed_Proofs.
From Verif Require Chain_Proofs Filtered_Proofs.
Import ListNotations.

Section P.
  Context {A B X : Type} (A_dec : forall a b : A, {a = b} + {a <> b}).
  Notation sink := (sink A B X).
  Notation expect := (expect A B).
  Notation fire := (fire (B := B) (X := X) A_dec).
  Notation fire_all := (fire_all (B := B) (X := X) A_dec).
  Notation hear := (hear (B := B) (X := X) A_dec).

  Record flat_at (kids : A -> list X) (l : list A) (s : flstate A X) (t : list (flev X)) : Prop := {
    fa_ok : fl_ok s; fa_sync : fl_synced s; fa_master : fl_master s = l; fa_kids : forall m, fl_kids s m = kids m;
    fa_obs : fl_observes [] t (fl_items s) }.
  Definition fits (kids : A -> list X) (l : list A) (x : expect) (k : sink) : Prop :=
    match x, k with
    | XMap f st, SMap f' true m t => f' = f /\ ms_items m = map f (l ++ st)
    | XMapOff b, SMap _ false m t => ms_items m = b
    | XFlat, SFlat true s t => flat_at kids l s t
    | XFlatOff, SFlat false s t => flat_at kids [] s t
    | _, _ => False
    end.

  Definition moves (e : fev A) (l l1 : list A) : Prop :=
    match e with
    | FIns x k => ~ In x l /\ k <= length l /\ l1 = insert_at k x l
    | FRem x k => nth_error l k = Some x /\ l1 = delete_at k l
    | _ => l1 = l
    end.

  Lemma hear_plain kids l l1 e x k : moves e l l1 -> fits kids l x k ->
    exists k1, hear e k = (k1, true) /\ fits kids l1 x k1.
  Proof.
    intros Hm Hf. destruct x as [f st|b| |]; destruct k as [f' [|] m t|[|] s t]; try contradiction.
    - destruct Hf as [-> Hi]. destruct e as [| | |y i|y i|i|i]; cbn [Feed_Model.hear moves] in *; try (subst l1; eexists; split; [reflexivity|]; split; [reflexivity|exact Hi]).
      + destruct Hm as (_ & Hk & ->). eexists. split; [reflexivity|]. split; [reflexivity|]. cbn [ms_items].
        rewrite Chain_Proofs.py_insert_nat, Hi. destruct (split_at l i Hk) as (a & b & -> & <-).
        rewrite insert_at_app, <- !app_assoc. cbn [app]. rewrite !map_app, <- (map_length f a), insert_at_app. cbn [map]. rewrite !map_app. reflexivity.
      + destruct Hm as (Hk & ->). apply nth_error_split in Hk as (a & b & -> & <-). rewrite delete_at_app.
        unfold m_removed. rewrite Hi, <- app_assoc, map_app. simpl. rewrite <- (map_length f a), py_get_at, py_del_at.
        eexists. split; [reflexivity|]. split; [reflexivity|]. simpl. rewrite <- app_assoc, !map_app. reflexivity.
    - eexists. split; [destruct e; reflexivity|]. exact Hf.
    - destruct Hf as [Ok Sy Ma Ki Ob]. destruct e as [| | |y i|y i|i|i]; cbn [Feed_Model.hear moves] in *; try (subst l1; eexists; split; [reflexivity|split; assumption]).
      + destruct Hm as (Hx & Hk & ->). destruct (master_inserted A_dec s y (Z.of_nat i)) as [[s1 t1] e1] eqn:E.
        destruct (master_inserted_lemma A_dec _ _ _ _ _ _ E Ok Sy ltac:(rewrite Ma; exact Hx)) as (-> & Ok1 & Sy1 & _ & K1 & M1 & Ob1).
        eexists. split; [reflexivity|]. split; [exact Ok1|exact Sy1|rewrite M1, Ma; apply Chain_Proofs.py_insert_nat|intros m; rewrite K1; apply Ki|].
        eapply fl_observes_app; eassumption.
      + destruct Hm as (Hk & ->). apply nth_error_split in Hk as (a & b & El & Hl). rewrite El, <- Hl, delete_at_app.
        destruct (master_removed A_dec s y (Z.of_nat (length a))) as [[s1 t1] e1] eqn:E.
        destruct (master_removed_lemma A_dec _ _ _ a b _ _ _ E Ok Sy ltac:(congruence) ltac:(rewrite Ma, El; apply py_del_at)) as (-> & Ok1 & Sy1 & _ & K1 & M1 & Ob1).
        eexists. split; [reflexivity|]. split; [exact Ok1|exact Sy1|exact M1|intros m; rewrite K1; apply Ki|].
        eapply fl_observes_app; eassumption.
    - eexists. split; [destruct e; reflexivity|]. exact Hf.
  Qed.
  Lemma fire_plain kids l l1 e xs ks : moves e l l1 -> Forall2 (fits kids l) xs ks -> Forall2 (fits kids l1) xs (fire e ks).
  Proof.
    intros Hm H. induction H as [|x k xs ks Hx H IH]; [constructor|]. cbn [Feed_Model.fire].
    destruct (hear_plain kids l l1 e x k Hm Hx) as (k1 & -> & Hk). constructor; assumption.
  Qed.
  Lemma fire_all_plain kids xs tr : forall l l' ks, plain l tr l' -> Forall2 (fits kids l) xs ks -> Forall2 (fits kids l') xs (fire_all tr ks).
  Proof.
    induction tr as [|e tr IH]; intros l l' ks Hp H; [simpl in Hp; subst; exact H|].
    change (fire_all (e :: tr) ks) with (fire_all tr (fire e ks)).
    destruct e; cbn [plain] in Hp;
      try (eapply IH; [exact Hp|]; eapply fire_plain; [|exact H]; reflexivity).
    - destruct Hp as (H1 & H2 & Hp). eapply IH; [exact Hp|]. eapply fire_plain; [|exact H]. repeat split; assumption.
    - destruct Hp as (H1 & Hp). eapply IH; [exact Hp|]. eapply fire_plain; [|exact H]. repeat split; assumption.
  Qed.
  Lemma fire_all_app t1 t2 ks : fire_all (t1 ++ t2) ks = fire_all t2 (fire_all t1 ks).
  Proof. apply fold_left_app. Qed.
  Lemma fire_all_quiet kids xs tr : forall l ks, forallb Chain_Proofs.quiet tr = true -> Forall2 (fits kids l) xs ks -> Forall2 (fits kids l) xs (fire_all tr ks).
  Proof.
    intros l ks Hq. apply fire_all_plain. revert Hq. induction tr as [|e tr IH]; intros Hq; [reflexivity|]. cbn [forallb] in Hq.
    apply andb_prop in Hq as [He Hq]. destruct e; try discriminate; apply IH; exact Hq.
  Qed.

  (** ** a rebuild: all items removed with indices that go down while the names go up *)
  Lemma offset_zero (ch : A -> list X) x p q : (forall y, In y p -> ch y = []) -> forall n, fl_offset A_dec ch x (firstn n (p ++ x :: q)) = 0.
  Proof.
    induction p as [|y p IH]; intros H [|n]; simpl; try reflexivity.
    - destruct (A_dec x x); [reflexivity|congruence].
    - destruct (A_dec y x); [reflexivity|]. rewrite (H y (or_introl eq_refl)). simpl. apply IH. intros z Hz. apply H. right. exact Hz.
  Qed.
  Lemma offset_upd (ch : A -> list X) x c l : fl_offset A_dec (upd A_dec ch x c) x l = fl_offset A_dec ch x l.
  Proof.
    induction l as [|y l IH]; simpl; [reflexivity|]. destruct (A_dec y x); [reflexivity|]. rewrite IH, upd_neq by assumption. reflexivity.
  Qed.

  (** removing the children of an item that come first *)
  Lemma first_children x rest cs : forall (s : flstate A X) s' tr e,
    ch_remove_loop A_dec x cs s = (s', tr, e) -> fl_offset A_dec (fl_children s) x (fl_master s) = 0 ->
    fl_children s x = rev cs -> fl_items s = rev cs ++ rest ->
    e = None /\ same_frame s s' /\ fl_items s' = rest /\ fl_children s' x = [] /\
    (forall y, y <> x -> fl_children s' y = fl_children s y) /\ fl_observes (fl_items s) tr rest.
  Proof.
    induction cs as [|c cs IH]; intros s s' tr e; cbn [ch_remove_loop].
    - intros [= <- <- <-] _ Hc Hi. simpl in *. repeat split; auto.
    - intros E Ho Hc Hi. simpl in Hc, Hi. rewrite <- app_assoc in Hi. simpl in Hi.
      unfold child_removed in E. rewrite Ho, Hc, Hi in E. rewrite <- (rev_length cs) in E.
      change (Z.of_nat 0 + Z.of_nat (length (rev cs)))%Z with (Z.of_nat (length (rev cs))) in E. rewrite !py_del_at, app_nil_r in E.
      set (s1 := Fl _ _ _ _ _ _) in E. destruct (ch_remove_loop A_dec x cs s1) as [[s2 t2] e2] eqn:E2. injection E as <- <- <-.
      destruct (IH _ _ _ _ E2) as (-> & Fr & Hi2 & Hc2 & Hy & Hob).
      { unfold s1. simpl. rewrite offset_upd. exact Ho. } { apply upd_eq. } { reflexivity. }
      split; [reflexivity|]. split; [exact Fr|]. split; [exact Hi2|]. split; [exact Hc2|].
      split; [intros y Hne; rewrite Hy by exact Hne; apply upd_neq; exact Hne|].
      simpl. rewrite Hi, py_get_at. split; [reflexivity|]. eexists. split; [apply py_del_at|]. exact Hob.
  Qed.

  (** state of a flattened list after the items [p] of [p ++ q] have been named in removals *)
  Record flat_pop (kids : A -> list X) (p q : list A) (s : flstate A X) (t : list (flev X)) : Prop := {
    fp_master : fl_master s = firstn (length q) (p ++ q);
    fp_listen : forall m, In m (fl_listen s) <-> In m q;
    fp_children : forall m, fl_children s m = if in_dec A_dec m q then kids m else [];
    fp_items : fl_items s = flat_map kids q;
    fp_kids : forall m, fl_kids s m = kids m;
    fp_obs : fl_observes [] t (fl_items s) }.

  Lemma flat_pop_step kids p x q (s : flstate A X) t :
    flat_pop kids p (x :: q) s t -> NoDup (p ++ x :: q) ->
    exists s1 t1 e1, master_removed A_dec s x (Z.of_nat (length q)) = (s1, t1, e1) /\
      flat_pop kids (p ++ [x]) q s1 (t ++ t1) /\ returned e1 = (length q <=? length p).
  Proof.
    intros [Ma Li Ch It Ki Ob] Nd. unfold master_removed.
    assert (Hx : ~ In x p /\ ~ In x q) by (apply NoDup_remove_2 in Nd; rewrite in_app_iff in Nd; tauto).
    destruct Hx as [Hxp Hxq].
    destruct (ch_remove_loop A_dec x (rev (fl_kids s x)) s) as [[s1 t1] e1] eqn:E1.
    destruct (first_children x (flat_map kids q) _ _ _ _ _ E1) as (-> & (F1 & F2 & F3 & F4) & Hi & Hc & Hy & Hob).
    - rewrite Ma. apply offset_zero. intros y Hyp. rewrite Ch. destruct (in_dec A_dec y (x :: q)) as [Hin|]; [|reflexivity].
      exfalso. apply in_split in Hyp as (p1 & p2 & ->). rewrite <- app_assoc in Nd. apply NoDup_remove_2 in Nd. apply Nd.
      apply in_app_iff. right. apply in_app_iff. right. exact Hin.
    - rewrite rev_involutive, Ch, Ki. destruct (in_dec A_dec x (x :: q)) as [|n]; [reflexivity|]. destruct n. left. reflexivity.
    - rewrite rev_involutive, Ki, It. reflexivity.
    - assert (Hlen : length (firstn (length (x :: q)) (p ++ x :: q)) = S (length q)) by (rewrite firstn_length, app_length; cbn [length]; lia).
      assert (Hd : py_del (fl_master s1) (Z.of_nat (length q)) = Ok (firstn (length q) (p ++ x :: q))).
      { rewrite F3, Ma. unfold py_del. rewrite py_index_nat by lia. unfold delete_at. rewrite firstn_firstn, skipn_all2 by lia.
        rewrite app_nil_r. simpl length. rewrite Nat.min_l by lia. reflexivity. }
      rewrite Hd. cbv zeta. rewrite (proj2 (fl_in_spec A_dec x (fl_listen s1))) by (rewrite F4; apply Li; left; reflexivity).
      eexists _, _, _. split; [reflexivity|]. split.
      + split; simpl.
        * rewrite <- app_assoc. reflexivity.
        * intros m. split.
          -- intros H. apply in_remove in H as [H Hne]. rewrite F4 in H. apply Li in H as [H|H]; [congruence|exact H].
          -- intros H. apply in_in_remove; [intros ->; contradiction|]. rewrite F4. apply Li. right. exact H.
        * intros m. destruct (A_dec m x) as [->|Hne].
          -- rewrite Hc. destruct (in_dec A_dec x q); [contradiction|reflexivity].
          -- rewrite Hy, Ch by exact Hne. destruct (in_dec A_dec m (x :: q)) as [[H|H]|H], (in_dec A_dec m q) as [H'|H']; try reflexivity; try congruence; try contradiction.
             exfalso. apply H. right. exact H'.
        * exact Hi.
        * intros m. rewrite F2. apply Ki.
        * rewrite Hi. eapply fl_observes_app; eassumption.
      + assert (Hin : In x (firstn (length q) (p ++ x :: q)) <-> length p < length q).
        { split.
          - intros H. destruct (le_lt_dec (length q) (length p)) as [Hle|Hlt]; [|exact Hlt]. exfalso.
            rewrite firstn_app in H. replace (length q - length p) with 0 in H by lia. simpl in H. rewrite app_nil_r in H.
            apply Hxp. revert H. clear. intros H. rewrite <- (firstn_skipn (length q) p). apply in_app_iff. auto.
          - intros Hlt. rewrite firstn_app. apply in_app_iff. right. destruct (length q - length p) eqn:Eq; [lia|]. left. reflexivity. }
        destruct (fl_in A_dec x (firstn (length q) (p ++ x :: q))) eqn:Ef.
        * apply fl_in_spec in Ef. apply Hin in Ef. symmetry. apply Nat.leb_gt. exact Ef.
        * apply fl_in_false in Ef. rewrite Hin in Ef. symmetry. apply Nat.leb_le. lia.
  Qed.

  (** a mapped list after the removals of [p]: before a flattened list it loses the last item each time; after one it
      misses the removals while the second part is longer *)
  Definition pop_shown (after : bool) (p q : list A) : list A :=
    let l := p ++ q in
    let n := length l in
    if after then firstn (Nat.min (length q) (n - n / 2)) l ++ skipn (n - n / 2) l else firstn (length q) l.

  Definition fits_pop (kids : A -> list X) (after : bool) (p q : list A) (x : expect) (k : sink) : Prop :=
    match x, k with
    | XMap f st, SMap f' true m t => f' = f /\ ms_items m = map f (pop_shown after p q ++ st)
    | XMapOff b, SMap _ false m t => ms_items m = b
    | XFlat, SFlat true s t => flat_pop kids p q s t
    | XFlatOff, SFlat false s t => flat_at kids [] s t
    | _, _ => False
    end.
  Definition flat_x (x : expect) : bool := match x with XFlat => true | _ => false end.
  Fixpoint popping (kids : A -> list X) (after : bool) (p q : list A) (xs : list expect) (ks : list sink) : Prop :=
    match xs, ks with
    | [], [] => True
    | x :: xs', k :: ks' => fits_pop kids after p q x k /\ (flat_x x = true -> after = false) /\ popping kids (after || flat_x x) p q xs' ks'
    | _, _ => False
    end.
  (** at most one attached flattened list, none if [after] *)
  Fixpoint single (after : bool) (xs : list expect) : Prop :=
    match xs with [] => True | x :: xs' => (flat_x x = true -> after = false) /\ single (after || flat_x x) xs' end.

  Lemma half_le n : n / 2 <= n.
  Proof. apply Nat.div_le_upper_bound; lia. Qed.
  Lemma half_lt n a b : n = a + S b -> (b <=? a) = false <-> a < n / 2.
  Proof.
    intros ->. rewrite Nat.leb_gt. pose proof (Nat.div_mod (a + S b) 2 ltac:(lia)) as E. pose proof (Nat.mod_upper_bound (a + S b) 2 ltac:(lia)).
    set (h := (a + S b) / 2) in *. lia.
  Qed.

  Lemma popping_start kids l xs ks after : single after xs -> Forall2 (fits kids l) xs ks -> NoDup l -> popping kids after [] l xs ks.
  Proof.
    intros Hs H Nd. revert after Hs. induction H as [|x k xs ks Hx H IH]; intros after Hs; cbn [popping single] in *; [exact I|].
    destruct Hs as [H1 H2]. split; [|split; [exact H1|apply IH; exact H2]].
    destruct x as [f st|b| |]; destruct k as [f' [|] m t|[|] s t]; try contradiction; try exact Hx.
    - destruct Hx as [-> Hi]. split; [reflexivity|]. rewrite Hi. f_equal. f_equal. unfold pop_shown. cbn [app].
      pose proof (half_le (length l)). destruct after; [rewrite Nat.min_r by lia; symmetry; apply firstn_skipn|symmetry; apply firstn_all].
    - destruct Hx as [[Nd' Li Ou It] Sy Ma Ki Ob]. split; cbn [app].
      + rewrite firstn_all. exact Ma.
      + rewrite <- Ma. exact Li.
      + intros m. destruct (in_dec A_dec m l) as [Hm|Hm]; [rewrite <- Ki; apply Sy; rewrite Ma; exact Hm|apply Ou; rewrite Ma; exact Hm].
      + rewrite It, Ma. rewrite !flat_map_concat_map. f_equal. apply map_ext_in. intros m Hm. rewrite <- Ki. apply Sy. rewrite Ma. exact Hm.
      + exact Ki.
      + exact Ob.
  Qed.

  Lemma popping_end kids l half xs : forall after ks, popping kids after l [] xs ks -> half = second_half l ->
    Forall2 (fits kids []) (spoil after half xs) ks.
  Proof.
    induction xs as [|x xs IH]; intros after ks H ->; destruct ks as [|k ks]; cbn [popping] in H; try contradiction; [constructor|].
    destruct H as (Hx & _ & H). specialize (IH _ _ H eq_refl).
    destruct x as [f st|b| |]; destruct k as [f' [|] m t|[|] s t]; try contradiction; cbn [spoil flat_x] in *; rewrite ?orb_false_r, ?orb_true_r in IH; constructor; try exact IH; try exact Hx.
    - destruct Hx as [-> Hi]. split; [reflexivity|]. rewrite Hi. unfold pop_shown, second_half. rewrite app_nil_r. cbn [length].
      destruct after; reflexivity.
    - destruct Hx as [Ma Li Ch It Ki Ob]. rewrite app_nil_r in Ma. simpl in Ma. split; auto.
      + split.
        * rewrite Ma. constructor.
        * intros m'. rewrite Li, Ma. reflexivity.
        * intros m' _. rewrite Ch. reflexivity.
        * rewrite It, Ma. reflexivity.
      + intros m' Hm'. rewrite Ma in Hm'. destruct Hm'.
  Qed.

  (** the lists behind the flattened one while their removals are lost *)
  Lemma popping_lost kids p x q xs : forall ks, popping kids true p (x :: q) xs ks -> (length q <=? length p) = false ->
    popping kids true (p ++ [x]) q xs ks.
  Proof.
    induction xs as [|x0 xs IH]; intros [|k ks] H Hlt; cbn [popping] in *; try contradiction; [exact I|].
    destruct H as (Hx & H1 & H). split; [|split; [exact H1|apply IH; assumption]].
    destruct x0 as [f st|b| |]; destruct k as [f' [|] m t|[|] s t]; try contradiction; try exact Hx.
    - destruct Hx as [-> Hi]. split; [reflexivity|]. rewrite Hi. f_equal. f_equal. unfold pop_shown. rewrite <- app_assoc. cbn [app].
      f_equal. f_equal. assert (E : length (p ++ x :: q) = length p + S (length q)) by (rewrite app_length; reflexivity). rewrite E.
      apply (half_lt _ _ _ eq_refl) in Hlt. cbn [length]. lia.
    - discriminate (H1 eq_refl).
  Qed.

  Lemma hear_map_pop (f : A -> B) m t after p x q st : ms_items m = map f (pop_shown after p (x :: q) ++ st) ->
    (after = true -> (length q <=? length p) = true) ->
    exists m1 t1, hear (FRem x (length q)) (SMap f true m t) = (SMap f true m1 (t ++ t1), true) /\
      ms_items m1 = map f (pop_shown after (p ++ [x]) q ++ st).
  Proof.
    intros Hi Ha. cbn [Feed_Model.hear].
    set (l := p ++ x :: q) in *. assert (El : length l = length p + S (length q)) by (unfold l; rewrite app_length; reflexivity).
    assert (G : exists y r, pop_shown after p (x :: q) = firstn (length q) l ++ y :: r /\ pop_shown after (p ++ [x]) q = firstn (length q) l ++ r).
    { unfold pop_shown. rewrite <- app_assoc. cbn [app]. fold l. cbn [length].
      assert (Hf : exists y, firstn (S (length q)) l = firstn (length q) l ++ [y]).
      { assert (Hlt : length q < length l) by lia. destruct (nth_error l (length q)) as [y|] eqn:En; [|apply nth_error_None in En; lia].
        exists y. apply nth_error_split in En as (l1 & l2 & -> & <-). rewrite !firstn_app, firstn_all, Nat.sub_diag, firstn_all2 by lia.
        replace (S (length l1) - length l1) with 1 by lia. rewrite app_nil_r. reflexivity. }
      destruct Hf as [y Hf]. destruct after.
      - specialize (Ha eq_refl). assert (Hh : ~ length p < length l / 2).
        { intros Hh. rewrite El in Hh. apply (half_lt _ _ _ eq_refl) in Hh. congruence. }
        rewrite !Nat.min_l by lia. exists y, (skipn (length l - length l / 2) l). rewrite Hf, <- app_assoc. auto.
      - exists y, []. rewrite Hf, app_nil_r. auto. }
    destruct G as (y & r & G1 & G2). unfold m_removed. rewrite Hi, G1, <- app_assoc, map_app. simpl.
    assert (Hlen : Z.of_nat (length q) = Z.of_nat (length (map f (firstn (length q) l)))) by (rewrite map_length, firstn_length; lia).
    rewrite Hlen, py_get_at, py_del_at. eexists _, _. split; [reflexivity|]. simpl. rewrite G2, <- app_assoc, !map_app. reflexivity.
  Qed.

  Lemma popping_step kids p x q xs : NoDup (p ++ x :: q) -> forall after ks, popping kids after p (x :: q) xs ks ->
    (after = true -> (length q <=? length p) = true) ->
    popping kids after (p ++ [x]) q xs (fire (FRem x (length q)) ks).
  Proof.
    intros Nd. induction xs as [|x0 xs IH]; intros after [|k ks] H Ha; cbn [popping] in H; try contradiction; [exact I|].
    destruct H as (Hx & H1 & H). cbn [Feed_Model.fire].
    destruct x0 as [f st|b| |]; destruct k as [f' [|] m t|[|] s t]; try contradiction.
    - destruct Hx as [-> Hi]. destruct (hear_map_pop f m t after p x q st Hi Ha) as (m1 & t1 & -> & Hi1). cbn [popping].
      split; [split; [reflexivity|exact Hi1]|]. split; [exact H1|]. apply IH; [exact H|]. cbn [flat_x]. rewrite orb_false_r. exact Ha.
    - cbn [Feed_Model.hear popping]. split; [exact Hx|]. split; [exact H1|]. apply IH; [exact H|]. cbn [flat_x]. rewrite orb_false_r. exact Ha.
    - cbn [fits_pop] in Hx. destruct (flat_pop_step _ _ _ _ _ _ Hx Nd) as (s1 & t1 & e1 & E & Hp & Hr). cbn [Feed_Model.hear]. rewrite E, Hr.
      cbn [popping]. split; [exact Hp|]. split; [exact H1|]. cbn [flat_x] in *. rewrite orb_true_r in *.
      destruct (length q <=? length p) eqn:El; [apply IH; [exact H|auto]|apply popping_lost; assumption].
    - cbn [Feed_Model.hear popping]. split; [exact Hx|]. split; [exact H1|]. apply IH; [exact H|]. cbn [flat_x]. rewrite orb_false_r. exact Ha.
  Qed.

  Lemma pop_loop_cons (x : A) old items : pop_loop (x :: old) items = FRem x (length (removelast items)) :: pop_loop old (removelast items).
  Proof. reflexivity. Qed.
  Lemma removelast_firstn_len (l : list A) : length (removelast l) = length l - 1.
  Proof. induction l as [|a [|b l] IH]; simpl in *; lia. Qed.
  Lemma fire_all_pop kids xs q : forall p items ks, NoDup (p ++ q) -> length items = length q -> popping kids false p q xs ks ->
    popping kids false (p ++ q) [] xs (fire_all (pop_loop q items) ks).
  Proof.
    induction q as [|x q IH]; intros p items ks Nd Hl H; [rewrite app_nil_r; exact H|].
    rewrite pop_loop_cons. rewrite removelast_firstn_len, Hl. cbn [length]. replace (S (length q) - 1) with (length q) by lia.
    change (fire_all (FRem x (length q) :: pop_loop q (removelast items)) ks) with (fire_all (pop_loop q (removelast items)) (fire (FRem x (length q)) ks)).
    replace (p ++ x :: q) with ((p ++ [x]) ++ q) in * by (rewrite <- app_assoc; reflexivity). apply IH; [exact Nd|rewrite removelast_firstn_len, Hl; simpl; lia|].
    apply popping_step; [rewrite <- app_assoc in Nd; exact Nd|exact H|discriminate].
  Qed.

  Lemma fire_all_rebuild kids l l' xs t1 t2 ks :
    NoDup l -> single false xs -> forallb Chain_Proofs.quiet t1 = true -> plain [] t2 l' -> Forall2 (fits kids l) xs ks ->
    Forall2 (fits kids l') (spoil false (second_half l) xs) (fire_all (t1 ++ pop_loop l l ++ t2) ks).
  Proof.
    intros Nd Hs Hq Hp H. rewrite !fire_all_app. apply (fire_all_quiet kids xs t1 l ks Hq) in H.
    eapply fire_all_plain; [exact Hp|]. eapply popping_end; [|reflexivity].
    apply (fire_all_pop kids xs l [] l _ Nd eq_refl). apply popping_start; assumption.
  Qed.
End P.
