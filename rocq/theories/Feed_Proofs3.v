(** Invariants of a whole feed. *)
From Coq Require Import List ZArith Bool Arith Permutation Sorted Lia.
From Verif Require Import PyBase Filtered_Model Filtered_Spec Filtered_Proofs Filtered_Proofs2 Filtered_Proofs3 Mapped_Model Mapped_Spec Mapped_Proofs Flattened_Model Flattened_Spec Flattened_Proofs Feed_Model Feed_Spec Feed_Proofs Feed_Proofs2.
Import ListNotations.

Section P.
  Context {A B C K X : Type} (A_dec : forall a b : A, {a = b} + {a <> b}) (lt : K -> K -> bool).
  Notation sink := (sink A B X).
  Notation expect := (expect A B).
  Notation feed := (feed A B C K X).
  Notation fdop := (fdop A B C K X).

  (** ** attaching and detaching *)
  Lemma m_remove_loop_gen xs : forall (m : mstate A B) m' tr e,
    m_remove_loop (A := A) (B := B) xs m = (m', tr, e) -> length xs <= length (ms_items m) ->
    e = None /\ ms_items m' = firstn (length (ms_items m) - length xs) (ms_items m) /\ m_observes (ms_items m) tr (ms_items m') /\
    quiet tr /\ ms_level m' = ms_level m.
  Proof.
    induction xs as [|x xs IH]; intros m m' tr e; cbn [m_remove_loop].
    - intros [= <- <- <-] _. rewrite Nat.sub_0_r, firstn_all. split; [reflexivity|]. split; [reflexivity|]. split; [reflexivity|]. split; [intros b; reflexivity|reflexivity].
    - intros E Hl. cbn [length] in Hl. assert (Hne : ms_items m <> []) by (intros H; rewrite H in Hl; simpl in Hl; lia).
      destruct (exists_last Hne) as (l1 & b & Eb).
      destruct (m_removed m _) as [[m1 t1] e1] eqn:E1.
      destruct (m_removed_stretch (fun _ (_ : A) => b) m _ l1 b [] _ _ _ E1 Eb) as (-> & S1 & Q1 & _ & L1 & I1 & _).
      { rewrite Eb, app_length. simpl. rewrite Nat.add_1_r. apply last_index'. }
      destruct (m_remove_loop xs m1) as [[m2 t2] e2] eqn:E2. injection E as <- <- <-. rewrite app_nil_r in I1.
      rewrite Eb, app_length in Hl. simpl in Hl.
      destruct (IH _ _ _ _ E2) as (-> & I2 & O2 & Q2 & L2); [rewrite I1; lia|].
      split; [reflexivity|]. split.
      { rewrite I2, I1, Eb, app_length. cbn [length]. rewrite firstn_app.
        replace (length l1 + 1 - S (length xs)) with (length l1 - length xs) by lia.
        replace (length l1 - length xs - length l1) with 0 by lia. rewrite app_nil_r. reflexivity. }
      split; [eapply m_observes_app; [exact (st_obs _ _ _ _ _ _ _ S1)|exact O2]|]. split; [apply quiet_app; assumption|congruence].
  Qed.

  Lemma new_map_fits kids (f : A -> B) l : fits (B := B) (X := X) kids l (XMap f []) (new_map f l).
  Proof.
    unfold new_map, m_set_container, m_new. cbn [ms_cont m_attach]. destruct (m_insert_loop (fun _ => f) l 0 _) as [m1 t1] eqn:E.
    destruct (m_insert_loop_stretch _ _ _ _ _ _ E eq_refl) as (_ & _ & _ & _ & I). split; [reflexivity|]. rewrite I, app_nil_r. cbn [ms_items app ms_calls].
    clear. generalize 0. induction l as [|x l IH]; intros n; [reflexivity|]. simpl. f_equal. apply IH.
  Qed.
  Lemma new_flat_fits kids l : NoDup l -> fits (B := B) (X := X) kids l XFlat (new_flat A_dec kids l).
  Proof.
    intros Nd. unfold new_flat, fl_set_container. cbn [fl_cont fl_new].
    destruct (fl_insert_loop A_dec l 0 _) as [[s1 t1] e1] eqn:E.
    destruct (fl_new_inv kids) as (Ok0 & Sy0 & _).
    apply (fl_insert_loop_lemma A_dec) in E; [|destruct Ok0; split; assumption|exact Sy0|reflexivity|exact Nd].
    destruct E as (_ & Ok & Sy & _ & Ki & Ma & Ob). split; [exact Ok|exact Sy|exact Ma|intros m; rewrite Ki; reflexivity|exact Ob].
  Qed.
  Lemma detach_fits kids l x k : fits (B := B) (X := X) kids l x k -> fits kids l (x_detach l x) (detach A_dec l k).
  Proof.
    intros H. destruct x as [f st|b| |]; destruct k as [f' [|] m t|[|] s t]; try contradiction; cbn [x_detach detach]; try exact H.
    - destruct H as [-> Hi]. unfold m_set_container. cbn [ms_cont].
      destruct (m_remove_loop (rev l) _) as [[m1 t1] e1] eqn:E.
      apply m_remove_loop_gen in E; [|cbn [ms_items]; rewrite Hi, rev_length, map_length, app_length; lia].
      destruct E as (-> & I1 & _). cbn [m_attach fits ms_items] in *. rewrite I1, Hi, rev_length, map_length, app_length.
      f_equal. lia.
    - destruct H as [Ok Sy Ma Ki Ob]. unfold fl_set_container. cbn [fl_cont with_fl_cont].
      destruct (fl_remove_loop A_dec (rev l) _) as [[s1 t1] e1] eqn:E.
      apply (fl_remove_loop_lemma A_dec) in E; [|destruct Ok; split; assumption|exact Sy|simpl; rewrite rev_involutive; exact Ma].
      destruct E as (-> & Ok1 & Sy1 & K1 & M1 & Ob1). cbn [fits]. split.
      + destruct Ok1; split; assumption.
      + exact Sy1.
      + exact M1.
      + intros m. simpl. rewrite K1. apply Ki.
      + eapply fl_observes_app; eassumption.
  Qed.
  Lemma at_nth_fits kids l n : forall xs ks, Forall2 (fits (B := B) (X := X) kids l) xs ks ->
    Forall2 (fits kids l) (x_at (x_detach l) n xs) (at_nth (detach A_dec l) n ks).
  Proof.
    induction n as [|n IH]; intros xs ks H; destruct H as [|x k xs ks Hx H]; try constructor; auto. apply detach_fits, Hx.
  Qed.

  (** ** child edits *)
  Lemma kid_insert_fits kids l x k m i c : (0 <= i <= Z.of_nat (length (kids m)))%Z -> fits (B := B) (X := X) kids l x k ->
    fits (upd A_dec kids m (py_insert i c (kids m))) l x (kid_edit A_dec (LfKidInsert m i c) k).
  Proof.
    intros Hi.
    assert (G : forall l0 s t, flat_at kids l0 s t -> forall s1 t1 e1, fl_step A_dec s (LfKidInsert m i c) = (s1, t1, e1) ->
      flat_at (upd A_dec kids m (py_insert i c (kids m))) l0 s1 (t ++ t1)).
    { intros l0 s t [Ok Sy Ma Ki Ob] s1 t1 e1 E. cbn [fl_step] in E. rewrite Ki in E.
      set (s0 := with_kids s _) in E. assert (Ok1 : fl_ok s0) by (apply with_kids_ok; exact Ok).
      assert (K0 : forall m', fl_kids s0 m' = upd A_dec kids m (py_insert i c (kids m)) m').
      { intros m'. simpl. destruct (A_dec m' m) as [->|Hne]; [rewrite !upd_eq; reflexivity|rewrite !upd_neq by exact Hne; apply Ki]. }
      destruct (fl_in A_dec m (fl_listen s)) eqn:Ein.
      - apply fl_in_spec in Ein. apply (ok_listen s Ok) in Ein. destruct (child_inserted A_dec s0 m c i) as [s2 t2] eqn:E2. injection E as <- <- <-.
        assert (Hc : fl_children s m = kids m) by (rewrite <- Ki; apply Sy, Ein).
        destruct (split_at (kids m) (Z.to_nat i) ltac:(lia)) as (c1 & c2 & Ek & H1).
        replace i with (Z.of_nat (length c1)) in E2 by lia.
        destruct (child_inserted_lemma A_dec _ _ _ _ c2 _ _ E2 Ok1 Ein) as (p & q & _ & _ & (F1 & F2 & F3 & F4) & Ok2 & Ch & Ob1 & _); [simpl; congruence|].
        split; [exact Ok2| |rewrite F3; exact Ma|intros m'; rewrite F2; apply K0|eapply fl_observes_app; eassumption].
        intros m' H. rewrite Ch, F2, K0. destruct (A_dec m' m) as [->|Hne].
        + rewrite !upd_eq, Ek. replace i with (Z.of_nat (length c1)) by lia. rewrite py_insert_at. reflexivity.
        + rewrite !upd_neq by exact Hne. rewrite <- Ki. apply Sy. rewrite F3 in H. exact H.
      - apply fl_in_false in Ein. injection E as <- <- <-. rewrite app_nil_r. split; [exact Ok1| |exact Ma|exact K0|exact Ob].
        intros m' H. rewrite K0. rewrite upd_neq; [rewrite <- Ki; apply Sy, H|]. intros ->. apply Ein, (ok_listen s Ok), H. }
    intros H. destruct x as [f st|b| |]; destruct k as [f' [|] ms t|[|] s t]; try contradiction; cbn [kid_edit fits]; try exact H;
      destruct (fl_step A_dec s (LfKidInsert m i c)) as [[s1 t1] e1] eqn:E; exact (G _ _ _ H _ _ _ E).
  Qed.

  Lemma flat_ext kids kids' l s t : (forall m, kids m = kids' m) -> flat_at (X := X) kids l s t -> flat_at (A := A) kids' l s t.
  Proof. intros E [Ok Sy Ma Ki Ob]. split; auto. intros m. rewrite Ki. apply E. Qed.

  Lemma kid_remove_fits kids l x k m i : (0 <= i)%Z -> fits (B := B) (X := X) kids l x k ->
    fits (match py_del (kids m) i with Ok c => upd A_dec kids m c | Err _ => kids end) l x (kid_edit A_dec (LfKidRemove m i) k).
  Proof.
    intros Hi.
    assert (G : forall l0 s t, flat_at kids l0 s t -> forall s1 t1 e1, fl_step A_dec s (LfKidRemove m i) = (s1, t1, e1) ->
      flat_at (match py_del (kids m) i with Ok c => upd A_dec kids m c | Err _ => kids end) l0 s1 (t ++ t1)).
    { intros l0 s t [Ok Sy Ma Ki Ob] s1 t1 e1 E. cbn [fl_step] in E. rewrite Ki in E.
      destruct (py_get (kids m) i) as [x0|] eqn:Eg.
      2:{ assert (Ed : exists e, py_del (kids m) i = Err e).
          { unfold py_get in Eg. unfold py_del. destruct (py_index (length (kids m)) i) as [j|] eqn:Ej; [|eauto].
            destruct (nth_error (kids m) j) eqn:En; [discriminate|]. apply nth_error_None in En. apply py_index_lt in Ej. lia. }
          destruct Ed as [e0 ->]. injection E as <- <- <-. rewrite app_nil_r. split; auto. }
      destruct (py_del (kids m) i) as [l'|] eqn:Ed; [|injection E as <- <- <-; rewrite app_nil_r; split; auto].
      set (s0 := with_kids s _) in E. assert (Ok1 : fl_ok s0) by (apply with_kids_ok; exact Ok).
      assert (K0 : forall m', fl_kids s0 m' = upd A_dec kids m l' m').
      { intros m'. simpl. destruct (A_dec m' m) as [->|Hne]; [rewrite !upd_eq; reflexivity|rewrite !upd_neq by exact Hne; apply Ki]. }
      assert (Hs : exists l1 l2, kids m = l1 ++ x0 :: l2 /\ l' = l1 ++ l2 /\ i = Z.of_nat (length l1)).
      { unfold py_get in Eg. unfold py_del in Ed. destruct (py_index (length (kids m)) i) as [k0|] eqn:Ek; [|discriminate].
        assert (k0 = Z.to_nat i). { unfold py_index in Ek. repeat (match type of Ek with context [if ?b then _ else _] => destruct b eqn:? end; try discriminate). all: injection Ek; lia. }
        destruct (nth_error (kids m) k0) as [m'|] eqn:En; [|discriminate]. injection Eg as ->.
        apply nth_error_split in En as (l1 & l2 & El & Hk). rewrite El, <- Hk, delete_at_app in Ed. injection Ed as <-.
        exists l1, l2. repeat split; [exact El|lia]. }
      destruct Hs as (c1 & c2 & Ek & -> & Hz). rewrite Hz in E.
      destruct (fl_in A_dec m (fl_listen s)) eqn:Ein.
      - apply fl_in_spec in Ein. apply (ok_listen s Ok) in Ein.
        assert (Hc : fl_children s m = kids m) by (rewrite <- Ki; apply Sy, Ein).
        destruct (child_removed_lemma A_dec _ _ _ _ c2 _ _ _ E Ok1 Ein) as (p & q & _ & _ & (F1 & F2 & F3 & F4) & Ok2 & Ch & Ob1 & _); [simpl; congruence|].
        split; [exact Ok2| |rewrite F3; exact Ma|intros m'; rewrite F2; apply K0|eapply fl_observes_app; eassumption].
        intros m' H. rewrite Ch, F2, K0. destruct (A_dec m' m) as [->|Hne].
        + rewrite !upd_eq. reflexivity.
        + rewrite !upd_neq by exact Hne. rewrite <- Ki. apply Sy. rewrite F3 in H. exact H.
      - apply fl_in_false in Ein. injection E as <- <- <-. rewrite app_nil_r. split; [exact Ok1| |exact Ma|exact K0|exact Ob].
        intros m' H. rewrite K0. rewrite upd_neq; [rewrite <- Ki; apply Sy, H|]. intros ->. apply Ein, (ok_listen s Ok), H. }
    intros H. destruct x as [f st|b| |]; destruct k as [f' [|] ms t|[|] s t]; try contradiction; cbn [kid_edit fits]; try exact H;
      destruct (fl_step A_dec s (LfKidRemove m i)) as [[s1 t1] e1] eqn:E; exact (G _ _ _ H _ _ _ E).
  Qed.

  (** ** at most one flattened list *)
  Lemma single_spoil half xs : forall a b, single (A := A) (B := B) b xs -> single b (spoil a half xs).
  Proof.
    induction xs as [|x xs IH]; intros a b H; [exact I|]. destruct H as [H1 H2]. destruct x; cbn [spoil single flat_x] in *; split; auto.
  Qed.
  Lemma single_weaken xs : single (A := A) (B := B) true xs -> single false xs.
  Proof.
    induction xs as [|x xs IH]; [intros _; exact I|]. intros [H1 H2]. split; [reflexivity|]. destruct x; cbn [flat_x orb] in *; auto.
  Qed.
  Lemma single_at l n : forall b xs, single (A := A) (B := B) b xs -> single b (x_at (x_detach l) n xs).
  Proof.
    induction n as [|n IH]; intros b [|x xs] H; try exact I; destruct H as [H1 H2]; cbn [x_at single].
    - destruct x; cbn [x_detach flat_x] in *; split; auto; try discriminate.
      rewrite orb_true_r in H2. rewrite (H1 eq_refl). apply single_weaken, H2.
    - split; auto.
  Qed.
  Lemma single_app b xs x : single (A := A) (B := B) b xs -> (flat_x x = true -> b = false /\ forall y, In y xs -> flat_x y = false) -> single b (xs ++ [x]).
  Proof.
    revert b. induction xs as [|y xs IH]; intros b H Hx; cbn [app single] in *.
    - split; [intros F; apply (Hx F)|exact I].
    - destruct H as [H1 H2]. split; [exact H1|]. apply IH; [exact H2|]. intros F. destruct (Hx F) as [-> Hy].
      split; [rewrite (Hy y (or_introl eq_refl)); reflexivity|]. intros z Hz. apply Hy. right. exact Hz.
  Qed.

  (** ** the invariant of a feed *)
  Record fed (xs : list expect) (d : feed) : Prop := {
    fed_up : inv (fd_up d); fed_single : single false xs; fed_fits : Forall2 (fits (fd_kids d) (fs_items (fd_up d))) xs (fd_sinks d) }.

  Lemma fed_step xs d o : fed xs d -> fd_ok d o -> one_flat d o -> fed (x_step d xs o) (fd_step A_dec lt d o).
  Proof.
    intros [Hu Hs Hf] Ho H1. destruct o as [o|m i x|m i|f| |n]; cbn [fd_step x_step fd_ok one_flat] in *.
    - destruct Ho as (Hd & Hso & _). destruct (f_step A_dec lt (fd_up d) o) as [[u tr] e] eqn:E.
      pose proof (step_shape A_dec lt _ _ _ _ _ E Hu Hd Hso) as Sh. destruct (step_inv A_dec lt _ _ _ _ _ E Hu Hd Hso) as [Hu' _].
      split; cbn [fd_up fd_kids fd_sinks]; [exact Hu'| |].
      + destruct (rebuilds (fd_up d) o); [apply single_spoil; exact Hs|exact Hs].
      + destruct (rebuilds (fd_up d) o).
        * destruct Sh as (t1 & t2 & -> & Hq & Hp). apply fire_all_rebuild; try assumption. apply Hu.
        * eapply fire_all_plain; eassumption.
    - split; cbn [fd_up fd_kids fd_sinks]; [exact Hu|exact Hs|]. induction Hf as [|x0 k xs ks Hx Hf IH]; constructor; [apply kid_insert_fits; assumption|].
      apply IH. cbn [single] in Hs. destruct Hs as [_ Hs]. revert Hs. destruct (flat_x x0); cbn [orb]; [apply single_weaken|auto].
    - split; cbn [fd_up fd_kids fd_sinks]; [exact Hu|exact Hs|]. clear Hs. induction Hf as [|x0 k xs ks Hx Hf IH]; constructor; [apply kid_remove_fits; assumption|exact IH].
    - split; cbn [fd_up fd_kids fd_sinks]; [exact Hu| |].
      + apply single_app; [exact Hs|discriminate].
      + apply Forall2_app; [exact Hf|]. constructor; [apply new_map_fits|constructor].
    - split; cbn [fd_up fd_kids fd_sinks]; [exact Hu| |].
      + apply single_app; [exact Hs|]. intros _. split; [reflexivity|]. intros y Hy. clear Hs.
        induction Hf as [|x0 k xs ks Hx Hf IH]; [destruct Hy|]. inversion H1; subst. destruct Hy as [<-|Hy]; [|apply IH; assumption].
        destruct x0; try reflexivity. destruct k as [? [|] ? ?|[|] ? ?]; try contradiction.
      + apply Forall2_app; [exact Hf|]. constructor; [apply new_flat_fits; apply Hu|constructor].
    - split; cbn [fd_up fd_kids fd_sinks]; [exact Hu|apply single_at; exact Hs|apply at_nth_fits; exact Hf].
  Qed.
  Lemma fed_run h : forall xs d, fed xs d -> fd_along A_dec lt fd_ok d h -> fd_along A_dec lt one_flat d h -> fed (x_run A_dec lt d xs h) (fd_run A_dec lt d h).
  Proof.
    induction h as [|o h IH]; intros xs d H Ho H1; [exact H|]. destruct Ho as [Ho1 Ho2]. destruct H1 as [Ha Hb].
    apply IH; [apply fed_step; assumption|exact Ho2|exact Hb].
  Qed.
  Lemma fed_new w kids : fed [] (fd_new w kids).
  Proof. split; [apply (new_inv A_dec lt)|exact I|constructor]. Qed.

  (** ** observers of mapped lists, whatever happens *)
  Definition told_map (k : sink) : Prop := match k with SMap _ _ m t => m_observes [] t (ms_items m) | SFlat _ _ _ => True end.
  Lemma hear_told e k : told_map k -> told_map (fst (hear A_dec e k)).
  Proof.
    intros H. destruct k as [f [|] m t|on s t]; [|exact H|].
    - destruct e as [| | |x i|x i|i|i]; cbn [hear m_step fst]; try exact H.
      + simpl. eapply m_observes_app; [exact H|]. destruct (_ =? _)%Z; reflexivity.
      + simpl. eapply m_observes_app; [exact H|]. destruct (_ =? _)%Z; reflexivity.
      + destruct (m_inserted (fun _ => f) m x (Z.of_nat i)) as [m1 t1] eqn:E. cbn [told_map].
        destruct (m_inserted_stretch _ _ _ _ _ _ E) as (S1 & _). eapply m_observes_app; [exact H|exact (st_obs _ _ _ _ _ _ _ S1)].
      + unfold m_removed. destruct (py_get (ms_items m) (Z.of_nat i)) as [b|] eqn:Eg; [|simpl; rewrite app_nil_r; exact H].
        destruct (py_del (ms_items m) (Z.of_nat i)) as [l|] eqn:Ed; [|simpl; rewrite app_nil_r; exact H].
        simpl. eapply m_observes_app; [exact H|]. simpl. split; [exact Eg|]. exists l. auto.
    - destruct e, on; cbn [hear]; try exact I; destruct (master_inserted _ _ _ _) as [[? ?] ?] || destruct (master_removed _ _ _ _) as [[? ?] ?]; exact I.
  Qed.
  Lemma fire_told e ks : Forall told_map ks -> Forall told_map (fire A_dec e ks).
  Proof.
    induction 1 as [|k ks H Hs IH]; [constructor|]. cbn [fire]. pose proof (hear_told e k H) as Hk.
    destruct (hear A_dec e k) as [k1 [|]]; constructor; auto.
  Qed.
  Lemma fire_all_told tr : forall ks, Forall told_map ks -> Forall told_map (fire_all A_dec tr ks).
  Proof. induction tr as [|e tr IH]; intros ks H; [exact H|]. apply IH, fire_told, H. Qed.

  (** ** begin and end of changes *)
  Definition levelled (n : nat) (k : sink) : Prop :=
    match k with
    | SMap _ true m t => ms_level m = Z.of_nat n /\ alternating false t = Some (negb (n =? 0))
    | SMap _ false m t => alternating false t = Some false
    | SFlat _ _ _ => True
    end.
  Definition deeper (n : nat) (e : fev A) (n1 : nat) : Prop :=
    match e with FBegin => n1 = S n | FEnd => n = S n1 | _ => n1 = n end.
  Lemma hear_levelled n n1 e k : deeper n e n1 -> levelled n k -> levelled n1 (fst (hear A_dec e k)).
  Proof.
    intros D H. destruct k as [f [|] m t|on s t]; [|destruct e; exact H|].
    - destruct H as [H1 H2]. destruct e as [| | |x i|x i|i|i]; cbn [hear m_step fst deeper] in *; try (subst n1; split; assumption).
      + subst n1. cbn [levelled ms_level]. split; [lia|]. rewrite (alternating_app _ _ _ _ H2), H1. destruct n; reflexivity.
      + subst n. cbn [levelled ms_level]. split; [lia|]. rewrite (alternating_app _ _ _ _ H2), H1. cbn [negb Nat.eqb].
        destruct (Z.eqb_spec (Z.of_nat (S n1) - 1) 0) as [Hz|Hz]; destruct n1; try lia; reflexivity.
      + subst n1. destruct (m_inserted (fun _ => f) m x (Z.of_nat i)) as [m1 t1] eqn:E. cbn [levelled].
        destruct (m_inserted_stretch _ _ _ _ _ _ E) as (_ & Q & _ & L & _). split; [congruence|]. rewrite (alternating_app _ _ _ _ H2). apply Q.
      + subst n1. unfold m_removed. destruct (py_get (ms_items m) (Z.of_nat i)) as [b|]; [|simpl; rewrite app_nil_r; auto].
        destruct (py_del (ms_items m) (Z.of_nat i)) as [l|]; [|simpl; rewrite app_nil_r; auto].
        simpl. split; [exact H1|]. rewrite (alternating_app _ _ _ _ H2). reflexivity.
    - destruct e, on; cbn [hear]; try exact I; destruct (master_inserted _ _ _ _) as [[? ?] ?] || destruct (master_removed _ _ _ _) as [[? ?] ?]; exact I.
  Qed.
  Lemma hear_returns e k : match e with FIns _ _ | FRem _ _ => False | _ => True end -> snd (hear (B := B) (X := X) A_dec e k) = true.
  Proof. destruct e, k as [f [|] m t|[|] s t]; cbn; tauto. Qed.
  Lemma levelled_same e (k : sink) n n1 : match e with FIns _ _ | FRem _ _ => True | _ => False end -> deeper n e n1 -> levelled n k -> levelled n1 k.
  Proof. destruct e; cbn; try tauto; intros _ ->; auto. Qed.
  Lemma fire_levelled n n1 e ks : deeper n e n1 -> Forall (levelled n) ks -> Forall (levelled n1) (fire A_dec e ks).
  Proof.
    intros D. induction 1 as [|k ks H Hs IH]; [constructor|]. cbn [fire]. pose proof (hear_levelled n n1 e k D H) as Hk.
    pose proof (hear_returns e k) as Hr. destruct (hear A_dec e k) as [k1 [|]]; constructor; auto.
    assert (He : match e with FIns _ _ | FRem _ _ => True | _ => False end) by (destruct e; try exact I; discriminate (Hr I)).
    revert Hs. apply Forall_impl. intros k2. apply (levelled_same e); assumption.
  Qed.
  Lemma fire_all_levelled tr : forall n n1 ks, nesting n tr = Some n1 -> Forall (levelled n) ks -> Forall (levelled n1) (fire_all A_dec tr ks).
  Proof.
    induction tr as [|e tr IH]; intros n n1 ks N H; [simpl in N; injection N as <-; exact H|].
    change (fire_all A_dec (e :: tr) ks) with (fire_all A_dec tr (fire A_dec e ks)).
    destruct e; cbn [nesting] in N.
    - eapply IH; [exact N|]. eapply fire_levelled; [reflexivity|exact H].
    - destruct n as [|n]; [discriminate|]. eapply IH; [exact N|]. eapply fire_levelled; [reflexivity|exact H].
    - eapply IH; [exact N|]. eapply fire_levelled; [reflexivity|exact H].
    - destruct n as [|n]; [discriminate|]. eapply IH; [exact N|]. eapply fire_levelled; [reflexivity|exact H].
    - destruct n as [|n]; [discriminate|]. eapply IH; [exact N|]. eapply fire_levelled; [reflexivity|exact H].
    - eapply IH; [exact N|]. eapply fire_levelled; [reflexivity|exact H].
    - eapply IH; [exact N|]. eapply fire_levelled; [reflexivity|exact H].
  Qed.

  Lemma at_nth_forall (P : sink -> Prop) f n : (forall k, P k -> P (f k)) -> forall ks, Forall P ks -> Forall P (at_nth f n ks).
  Proof. intros Hf. induction n as [|n IH]; intros ks H; destruct H; constructor; auto. Qed.

  (** detaching: the removals are made one by one while there are items *)
  Lemma m_remove_loop_any xs : forall (m : mstate A B) m' tr e, m_remove_loop xs m = (m', tr, e) ->
    m_observes (ms_items m) tr (ms_items m') /\ quiet tr /\ ms_level m' = ms_level m.
  Proof.
    induction xs as [|x xs IH]; intros m m' tr e; cbn [m_remove_loop]; [intros [= <- <- <-]; repeat split|].
    unfold m_removed. destruct (py_get (ms_items m) _) as [b|] eqn:Eg; [|intros [= <- <- <-]; repeat split].
    destruct (py_del (ms_items m) _) as [l|] eqn:Ed; [|intros [= <- <- <-]; repeat split].
    destruct (m_remove_loop xs _) as [[m2 t2] e2] eqn:E2. intros [= <- <- <-]. destruct (IH _ _ _ _ E2) as (O & Q & L).
    split; [|split; [intros b0; simpl; apply Q|exact L]]. simpl. split; [exact Eg|]. exists l. auto.
  Qed.
  Lemma detach_told l k : told_map k -> told_map (detach A_dec l k).
  Proof.
    intros H. destruct k as [f [|] m t|[|] s t]; try exact H; cbn [detach].
    - unfold m_set_container. cbn [ms_cont]. destruct (m_remove_loop (rev l) _) as [[m1 t1] [e|]] eqn:E.
      + destruct (m_remove_loop_any _ _ _ _ _ E) as (O & _). cbn [told_map]. eapply m_observes_app; [exact H|exact O].
      + destruct (m_remove_loop_any _ _ _ _ _ E) as (O & _). cbn [m_attach told_map]. rewrite app_nil_r. eapply m_observes_app; [exact H|exact O].
    - destruct (fl_set_container _ _ _) as [[? ?] ?]. exact I.
  Qed.
  Lemma detach_levelled l k : levelled 0 k -> levelled 0 (detach A_dec l k).
  Proof.
    intros H. destruct k as [f [|] m t|[|] s t]; try exact H; cbn [detach].
    - unfold m_set_container. cbn [ms_cont]. destruct (m_remove_loop (rev l) _) as [[m1 t1] [e|]] eqn:E; destruct (m_remove_loop_any _ _ _ _ _ E) as (_ & Q & _);
        cbn [m_attach levelled] in *; destruct H as [_ H]; rewrite ?app_nil_r, (alternating_app _ _ _ _ H); apply Q.
    - destruct (fl_set_container _ _ _) as [[? ?] ?]. exact I.
  Qed.
  Lemma new_map_told (f : A -> B) l : told_map (new_map f l) /\ levelled 0 (new_map f l).
  Proof.
    unfold new_map, m_set_container, m_new. cbn [ms_cont m_attach]. destruct (m_insert_loop (fun _ => f) l 0 _) as [m1 t1] eqn:E.
    destruct (m_insert_loop_stretch _ _ _ _ _ _ E eq_refl) as (S1 & Q & _ & L & _). cbn [told_map levelled]. split; [exact (st_obs _ _ _ _ _ _ _ S1)|].
    split; [exact L|apply Q].
  Qed.

  Lemma feed_told h : forall d : feed, Forall told_map (fd_sinks d) -> Forall told_map (fd_sinks (fd_run A_dec lt d h)).
  Proof.
    induction h as [|o h IH]; intros d H; [exact H|]. apply IH. destruct o as [o|m i x|m i|f| |n]; cbn [fd_step].
    - destruct (f_step A_dec lt (fd_up d) o) as [[u tr] e]. apply fire_all_told, H.
    - apply Forall_map. revert H. apply Forall_impl. intros [f on m0 t|on s t] Hk; [exact Hk|]. cbn [kid_edit]. destruct (fl_step _ _ _) as [[? ?] ?]. exact I.
    - apply Forall_map. revert H. apply Forall_impl. intros [f on m0 t|on s t] Hk; [exact Hk|]. cbn [kid_edit]. destruct (fl_step _ _ _) as [[? ?] ?]. exact I.
    - apply Forall_app. split; [exact H|]. constructor; [apply new_map_told|constructor].
    - apply Forall_app. split; [exact H|]. constructor; [|constructor]. unfold new_flat. destruct (fl_set_container _ _ _) as [[? ?] ?]. exact I.
    - apply at_nth_forall; [apply detach_told|exact H].
  Qed.
  Lemma feed_levelled h : forall d : feed, fd_along A_dec lt fd_ok d h -> Forall (levelled 0) (fd_sinks d) -> Forall (levelled 0) (fd_sinks (fd_run A_dec lt d h)).
  Proof.
    induction h as [|o h IH]; intros d Ho H; [exact H|]. destruct Ho as [Ho1 Ho2]. apply IH; [exact Ho2|]. clear IH Ho2. destruct o as [o|m i x|m i|f| |n]; cbn [fd_step].
    - destruct (f_step A_dec lt (fd_up d) o) as [[u tr] e] eqn:E. cbn [fd_sinks]. destruct (f_step_trace A_dec lt _ _ _ _ _ E) as (_ & _ & N).
      eapply fire_all_levelled; [|exact H]. destruct Ho1 as (_ & _ & Ho). apply N; intros ->; exact Ho.
    - apply Forall_map. revert H. apply Forall_impl. intros [f on m0 t|on s t] Hk; [exact Hk|]. cbn [kid_edit]. destruct (fl_step _ _ _) as [[? ?] ?]. exact I.
    - apply Forall_map. revert H. apply Forall_impl. intros [f on m0 t|on s t] Hk; [exact Hk|]. cbn [kid_edit]. destruct (fl_step _ _ _) as [[? ?] ?]. exact I.
    - apply Forall_app. split; [exact H|]. constructor; [apply new_map_told|constructor].
    - apply Forall_app. split; [exact H|]. constructor; [|constructor]. unfold new_flat. destruct (fl_set_container _ _ _) as [[? ?] ?]. exact I.
    - apply at_nth_forall; [apply detach_levelled|exact H].
  Qed.
  (** ** lists that show the right items *)
  Lemma flat_at_shows kids l s t : flat_at (A := A) (X := X) kids l s t -> fl_items s = flat_map kids l.
  Proof.
    intros [Ok Sy Ma Ki _]. rewrite (ok_items s Ok), Ma.
    assert (H : forall m, In m l -> fl_children s m = kids m) by (intros m Hm; rewrite <- Ki; apply Sy; rewrite Ma; exact Hm).
    clear -H. induction l as [|m l IH]; [reflexivity|]. cbn [flat_map]. rewrite (H m (or_introl eq_refl)), IH; [reflexivity|]. intros m' Hm. apply H. right. exact Hm.
  Qed.
  Lemma no_flat kids l xs (ks : list sink) : Forall2 (fits kids l) xs ks -> Forall (fun k => ~ is_flat k) ks -> Forall (fun x => flat_x x = false) xs.
  Proof.
    induction 1 as [|x k xs ks Hx Hf IH]; intros H; [constructor|]. inversion H; subst. constructor; [|auto].
    destruct x; try reflexivity. destruct k as [? [|] ? ?|[|] ? ?]; try contradiction. exfalso. match goal with H : ~ is_flat _ |- _ => apply H; exact I end.
  Qed.
  Lemma no_flat_single xs : Forall (fun x : expect => flat_x x = false) xs -> single false xs.
  Proof. induction 1 as [|x xs H Hs IH]; [exact I|]. cbn [single]. rewrite H. auto. Qed.
  Lemma no_flat_spoil half xs : Forall (fun x : expect => flat_x x = false) xs -> spoil false half xs = xs.
  Proof. induction 1 as [|x xs H Hs IH]; [reflexivity|]. destruct x; cbn [spoil]; try discriminate H; rewrite IH; reflexivity. Qed.
  Lemma fits_step xs (d : feed) o : inv (fd_up d) -> Forall2 (fits (fd_kids d) (fs_items (fd_up d))) xs (fd_sinks d) -> fd_ok d o -> calm d o ->
    inv (fd_up (fd_step A_dec lt d o)) /\
    Forall2 (fits (fd_kids (fd_step A_dec lt d o)) (fs_items (fd_up (fd_step A_dec lt d o)))) (x_step d xs o) (fd_sinks (fd_step A_dec lt d o)).
  Proof.
    intros Hu Hf Ho H1. destruct o as [o|m i x|m i|f| |n]; cbn [fd_step x_step fd_ok calm] in *.
    - destruct Ho as (Hd & Hso & _). destruct (f_step A_dec lt (fd_up d) o) as [[u tr] e] eqn:E.
      pose proof (step_shape A_dec lt _ _ _ _ _ E Hu Hd Hso) as Sh. destruct (step_inv A_dec lt _ _ _ _ _ E Hu Hd Hso) as [Hu' _].
      cbn [fd_up fd_kids fd_sinks]. split; [exact Hu'|]. destruct (rebuilds (fd_up d) o).
      + destruct Sh as (t1 & t2 & -> & Hq & Hp). apply fire_all_rebuild; try assumption; [apply Hu|]. apply no_flat_single. eapply no_flat; eauto.
      + eapply fire_all_plain; eassumption.
    - split; [exact Hu|]. cbn [fd_up fd_kids fd_sinks]. clear H1. induction Hf as [|x0 k xs ks Hx Hf IH]; constructor; [apply kid_insert_fits; assumption|exact IH].
    - split; [exact Hu|]. cbn [fd_up fd_kids fd_sinks]. clear H1. induction Hf as [|x0 k xs ks Hx Hf IH]; constructor; [apply kid_remove_fits; assumption|exact IH].
    - split; [exact Hu|]. apply Forall2_app; [exact Hf|]. constructor; [apply new_map_fits|constructor].
    - split; [exact Hu|]. apply Forall2_app; [exact Hf|]. constructor; [apply new_flat_fits; apply Hu|constructor].
    - split; [exact Hu|]. apply at_nth_fits; exact Hf.
  Qed.

  (** nothing stale, unless after a flattened list *)
  Fixpoint clean (after : bool) (xs : list expect) : Prop :=
    match xs with
    | [] => True
    | XMap _ st :: xs' => (after = false -> st = []) /\ clean after xs'
    | XMapOff b :: xs' => (after = false -> b = []) /\ clean after xs'
    | XFlat :: xs' | XFlatOff :: xs' => clean true xs'
    end.
  Lemma clean_app b xs x : clean b xs -> (clean false [x]) -> clean b (xs ++ [x]).
  Proof.
    revert b. induction xs as [|y xs IH]; intros b H Hx; cbn [app].
    - destruct x; cbn in *; tauto.
    - destruct y; cbn [clean] in *; (destruct H; split; [assumption|]) || idtac; apply IH; assumption.
  Qed.
  Lemma clean_spoil half xs : forall a b, (a = true -> b = true) -> clean b xs -> clean b (spoil a half xs).
  Proof.
    induction xs as [|x xs IH]; intros a b Hab H; [exact I|]. destruct x; cbn [spoil clean] in *.
    - destruct H as [H1 H2]. split; [|apply IH; assumption]. intros Hb. destruct a; [rewrite (Hab eq_refl) in Hb; discriminate|auto].
    - destruct H as [H1 H2]. split; [exact H1|apply IH; assumption].
    - apply IH; auto.
    - apply IH; auto.
  Qed.
  Lemma clean_at l n : forall b xs, clean b xs -> clean b (x_at (x_detach l) n xs).
  Proof.
    induction n as [|n IH]; intros b [|x xs] H; try exact I; cbn [x_at].
    - destruct x; cbn [x_detach clean] in *; try exact H. destruct H as [H1 H2]. split; [|exact H2]. intros Hb. rewrite (H1 Hb). reflexivity.
    - destruct x; cbn [clean] in *; try (destruct H; split); auto.
  Qed.
  Lemma clean_run h : forall xs (d : feed), clean false xs -> clean false (x_run A_dec lt d xs h).
  Proof.
    induction h as [|o h IH]; intros xs d H; [exact H|]. apply IH. destruct o as [o|m i x|m i|f| |n]; cbn [x_step]; try exact H.
    - destruct (rebuilds _ _); [apply clean_spoil; [discriminate|exact H]|exact H].
    - apply clean_app; [exact H|]. cbn. auto.
    - apply clean_app; [exact H|]. cbn. auto.
    - apply clean_at, H.
  Qed.
  Lemma clean_right kids l (ks1 : list sink) k ks2 : forall b xs, clean b xs -> b = false -> Forall2 (fits kids l) xs (ks1 ++ k :: ks2) -> Forall (fun k => ~ flattened k) ks1 ->
    match k with SMap f true m _ => ms_items m = map f l | SMap _ false m _ => ms_items m = [] | SFlat _ _ _ => True end.
  Proof.
    induction ks1 as [|k1 ks1 IH]; intros b xs Hc Hb Hf Hn; cbn [app] in Hf; inversion Hf as [|x k' xs' ks' Hx Hr]; subst xs; [subst k' ks'|subst k' ks'].
    - destruct x as [f st|b0| |]; destruct k as [f' [|] m t|[|] s t]; try contradiction; try exact I; cbn [clean fits] in *.
      + destruct Hx as [-> Hx]. destruct Hc as [Hc _]. rewrite (Hc Hb), app_nil_r in Hx. exact Hx.
      + destruct Hc as [Hc _]. rewrite Hx. apply Hc, Hb.
    - apply (Forall_inv_tail) in Hn as Hn'. apply Forall_inv in Hn.
      destruct x as [f st|b0| |]; destruct k1 as [f' [|] m t|[|] s t]; try contradiction; try (exfalso; apply Hn; exact I); cbn [clean] in Hc;
        destruct Hc as [_ Hc]; exact (IH _ _ Hc Hb Hr Hn').
  Qed.

  (** without rebuilds nothing at all is stale *)
  Definition fresh (x : expect) : Prop := match x with XMap _ st => st = [] | XMapOff b => b = [] | _ => True end.
  Lemma fresh_run h : forall xs (d : feed), inv (fd_up d) -> Forall fresh xs -> Forall2 (fits (fd_kids d) (fs_items (fd_up d))) xs (fd_sinks d) ->
    fd_along A_dec lt fd_ok d h -> fd_along A_dec lt calm d h -> Forall (right (fd_run A_dec lt d h)) (fd_sinks (fd_run A_dec lt d h)).
  Proof.
    induction h as [|o h IH]; intros xs d Hu Hx Hf Ho Hc.
    - cbn [fd_run fold_left]. clear Ho Hc. induction Hf as [|x k xs ks H Hf IH]; [constructor|]. inversion Hx; subst. constructor; [|apply IH; assumption].
      destruct x as [f st|b0| |]; destruct k as [f' [|] m t|[|] s t]; try contradiction; cbn [fits fresh right] in *; subst.
      + destruct H as [-> H]. rewrite app_nil_r in H. exact H.
      + congruence.
      + eapply flat_at_shows; exact H.
      + exact (flat_at_shows _ _ _ _ H).
    - destruct Ho as [Ho1 Ho2]. destruct Hc as [Hc1 Hc2]. destruct (fits_step xs d o Hu Hf Ho1 Hc1) as [Hu' Hf'].
      apply (IH (x_step d xs o)); try assumption. destruct o as [o|m i x|m i|f| |n]; cbn [x_step calm] in *; try exact Hx.
      + destruct (rebuilds (fd_up d) o); [|exact Hx]. rewrite no_flat_spoil; [exact Hx|]. eapply no_flat; eauto.
      + apply Forall_app. split; [exact Hx|]. constructor; [reflexivity|constructor].
      + apply Forall_app. split; [exact Hx|]. constructor; [exact I|constructor].
      + clear -Hx. revert n. induction Hx as [|x xs H Hx IH]; intros [|n]; constructor; auto. destruct x; cbn [x_detach fresh] in *; auto. subst. reflexivity.
  Qed.

  Lemma up_inv h : forall d : feed, inv (fd_up d) -> fd_along A_dec lt fd_ok d h -> inv (fd_up (fd_run A_dec lt d h)).
  Proof.
    induction h as [|o h IH]; intros d Hu Ho; [exact Hu|]. destruct Ho as [Ho1 Ho2]. apply IH; [|exact Ho2]. destruct o; cbn [fd_step]; try exact Hu.
    destruct Ho1 as (Hd & Hso & _). destruct (f_step A_dec lt (fd_up d) o) as [[u tr] e] eqn:E. apply (step_inv A_dec lt _ _ _ _ _ E Hu Hd Hso).
  Qed.
  Lemma along_split (P : feed -> fdop -> Prop) h1 h2 : forall d, fd_along A_dec lt P d (h1 ++ h2) ->
    fd_along A_dec lt P d h1 /\ fd_along A_dec lt P (fd_run A_dec lt d h1) h2.
  Proof.
    induction h1 as [|o1 h1 IH]; intros d H; [split; [exact I|exact H]|]. destruct H as [Ha Hb]. destruct (IH _ Hb) as [Hc Hd].
    split; [split; assumption|exact Hd].
  Qed.
End P.
