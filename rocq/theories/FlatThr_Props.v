(** Property C119: flattened lists whose child lists are edited by threads. *)
From Coq Require Import List ZArith Bool Arith Permutation Lia.
From Verif Require Import PyBase Flattened_Model Flattened_Spec Flattened_Proofs FlatThr_Model FlatThr_Spec FlatThr_Proofs FlatThr_Proofs2 FlatThr_Proofs3.
Import ListNotations.

Section P.
  Context {M X : Type} (M_dec : forall a b : M, {a = b} + {a <> b}).
  Notation flstate := (flstate M X).
  Notation fth := (fth M X).
  Notation frun := (frun M_dec).
  Notation fstep := (fstep M_dec).
  Notation along := (along M_dec).
  Notation in_flat := (@in_flat M X).

  Lemma kid_step (s : fth) m e l :
    t_call s m = None ->
    let f := with_kids (t_fl s) (upd M_dec (fl_kids (t_fl s)) m l) in
    if fl_in M_dec m (fl_listen (t_fl s)) then
      exists n, put s m f (Some (PKid e (fl_offset M_dec (fl_children (t_fl s)) m (fl_master (t_fl s)) + kindex e))) (t_said s) (t_raised s)
        (frun (repeat (AGo m) n) (kbegin M_dec s m e l))
    else put s m f None (t_said s) (t_raised s) (kbegin M_dec s m e l).
  Proof.
    intros Ec. cbv zeta. unfold kbegin. cbn [fl_listen with_kids]. destruct (fl_in M_dec m (fl_listen (t_fl s))).
    - match goal with |- exists n, put _ _ _ _ _ _ (FlatThr_Model.frun _ _ ?t) => set (s1 := t) end.
      destruct (walk_alone M_dec m e (fl_master (t_fl s)) 0 s1) as (n & P1 & P2 & P3 & P4 & P5); [cbn; apply set_call_eq|].
      exists n. split; [exact P1|]. split; [exact P2|]. split; [|split; assumption].
      intros m' N. rewrite P3 by exact N. cbn. apply set_call_neq, N.
    - repeat split; cbn; auto.
  Qed.

  (** a call that no other step comes between does what it does in Flattened_Model.v *)
  Theorem flatthr_alone (s : fth) m i :
    t_call s m = None ->
    (forall x, i <= length (fl_kids (t_fl s) m) ->
       let '(f, tr, e) := fl_step M_dec (t_fl s) (LfKidInsert m (Z.of_nat i) x) in
       exists n, let s' := frun (AIns m i x :: repeat (AGo m) n) s in
         t_fl s' = f /\ t_said s' = t_said s ++ tr /\ t_raised s' = t_raised s /\ e = None /\ forall m', t_call s' m' = t_call s m') /\
    (i < length (fl_kids (t_fl s) m) ->
       let '(f, tr, e) := fl_step M_dec (t_fl s) (LfKidRemove m (Z.of_nat i)) in
       exists n, let s' := frun (ARem m i :: repeat (AGo m) n) s in
         t_fl s' = f /\ t_said s' = t_said s ++ tr /\ t_raised s' = t_raised s ++ match e with Some x => [x] | None => [] end /\
         forall m', t_call s' m' = t_call s m').
  Proof.
    intros Ec. assert (Rest : forall s' f said r, put s m f None said r s' -> forall m', t_call s' m' = t_call s m').
    { intros s' f said r (_ & P2 & P3 & _) m'. destruct (M_dec m' m) as [->|N]; [congruence|apply P3, N]. }
    split.
    - intros x Hi. cbn [fl_step]. rewrite py_insert_nat by exact Hi.
      pose proof (kid_step s m (KIns i x) (insert_at i x (fl_kids (t_fl s) m)) Ec) as K. cbv zeta in K.
      assert (E0 : fstep s (AIns m i x) = kbegin M_dec s m (KIns i x) (insert_at i x (fl_kids (t_fl s) m))) by (cbn; rewrite Ec; reflexivity).
      destruct (fl_in M_dec m (fl_listen (t_fl s))).
      + destruct K as (n & P1 & P2 & P3 & P4 & P5). unfold child_inserted. cbn [fl_children fl_master with_kids fl_cont fl_kids fl_items fl_listen].
        exists (n + 3). cbv zeta. cbn [FlatThr_Model.frun fold_left]. rewrite E0. rewrite repeat_app.
        change (fold_left fstep ?a ?b) with (frun a b). rewrite frun_app.
        pose proof (call_alone M_dec m _ _ _ P2) as C. cbv beta iota in C. destruct C as (C1 & C2 & C3 & C4 & C5).
        rewrite P1 in C1. cbn [with_kids fl_cont fl_kids fl_master fl_children fl_items fl_listen kindex] in C1, C4.
        rewrite Nat2Z.inj_add in C1, C4. split; [exact C1|]. split; [rewrite C4, P4; reflexivity|]. split; [rewrite C5, P5, app_nil_r; reflexivity|].
        split; [reflexivity|]. intros m'. destruct (M_dec m' m) as [->|N]; [congruence|]. rewrite C3, P3 by exact N. reflexivity.
      + exists 0. cbv zeta. cbn [repeat FlatThr_Model.frun fold_left]. rewrite E0. pose proof (Rest _ _ _ _ K) as K'.
        destruct K as (P1 & P2 & P3 & P4 & P5). rewrite app_nil_r. auto.
    - intros Hi. cbn [fl_step]. rewrite py_del_nat by exact Hi.
      destruct (nth_error (fl_kids (t_fl s) m) i) as [x|] eqn:En; [|apply nth_error_None in En; lia].
      assert (Eg : py_get (fl_kids (t_fl s) m) (Z.of_nat i) = Ok x).
      { unfold py_get. rewrite py_index_nat by exact Hi. rewrite En. reflexivity. }
      rewrite Eg. pose proof (kid_step s m (KRem i x) (delete_at i (fl_kids (t_fl s) m)) Ec) as K. cbv zeta in K.
      assert (E0 : fstep s (ARem m i) = kbegin M_dec s m (KRem i x) (delete_at i (fl_kids (t_fl s) m))) by (cbn; rewrite Ec, En; reflexivity).
      destruct (fl_in M_dec m (fl_listen (t_fl s))).
      + destruct K as (n & P1 & P2 & P3 & P4 & P5). unfold child_removed. cbn [fl_children fl_master with_kids fl_cont fl_kids fl_items fl_listen].
        pose proof (call_alone M_dec m _ _ _ P2) as C. cbv beta iota in C. rewrite P1 in C. cbn [with_kids fl_cont fl_kids fl_master fl_children fl_items fl_listen kindex] in C.
        rewrite Nat2Z.inj_add in C.
        assert (Fin : forall f tr ex, put (frun (repeat (AGo m) n) (kbegin M_dec s m (KRem i x) (delete_at i (fl_kids (t_fl s) m)))) m f None
                   (t_said (frun (repeat (AGo m) n) (kbegin M_dec s m (KRem i x) (delete_at i (fl_kids (t_fl s) m)))) ++ tr)
                   (t_raised (frun (repeat (AGo m) n) (kbegin M_dec s m (KRem i x) (delete_at i (fl_kids (t_fl s) m)))) ++ ex)
                   (frun (repeat (AGo m) 3) (frun (repeat (AGo m) n) (kbegin M_dec s m (KRem i x) (delete_at i (fl_kids (t_fl s) m))))) ->
                 exists n0, let s' := frun (ARem m i :: repeat (AGo m) n0) s in
                   t_fl s' = f /\ t_said s' = t_said s ++ tr /\ t_raised s' = t_raised s ++ ex /\ forall m', t_call s' m' = t_call s m').
        { intros f tr ex (C1 & C2 & C3 & C4 & C5). exists (n + 3). cbv zeta. cbn [FlatThr_Model.frun fold_left]. rewrite E0, repeat_app.
          change (fold_left fstep ?a ?b) with (frun a b). rewrite frun_app. split; [exact C1|]. split; [rewrite C4, P4; reflexivity|].
          split; [rewrite C5, P5; reflexivity|]. intros m'. destruct (M_dec m' m) as [->|N]; [congruence|]. rewrite C3, P3 by exact N. reflexivity. }
        destruct (py_del (fl_children (t_fl s) m) (Z.of_nat i)) as [l|ex]; [destruct (py_del (fl_items (t_fl s)) _) as [it|ex]|]; apply Fin, C.
      + exists 0. cbv zeta. cbn [repeat FlatThr_Model.frun fold_left]. rewrite E0. pose proof (Rest _ _ _ _ K) as K'.
        destruct K as (P1 & P2 & P3 & P4 & P5). rewrite !app_nil_r. auto.
  Qed.

  (** whatever the interleaving, the list's own copies of the children are right once the calls are over *)
  Theorem flatthr_children (kids : M -> list X) h m :
    let s := frun h (fth_new kids) in
    along fproper (fth_new kids) h -> t_call s m = None ->
    fl_children (t_fl s) m = if in_dec M_dec m (masters (t_fl s)) then fl_kids (t_fl s) m else [].
  Proof.
    intros s Ha Ec. pose proof (frun_inv M_dec h _ (new_inv kids) Ha) as I. fold s in I.
    rewrite <- (i_masters s I). destruct (in_dec M_dec m _) as [H|H]; [|apply (i_out s I), H].
    pose proof (i_local s I m H) as L. rewrite Ec in L. exact L.
  Qed.

  (** whatever the interleaving, the flattened list has one item for each child it should have and one more for each call that raised *)
  Theorem flatthr_count (kids : M -> list X) h :
    let s := frun h (fth_new kids) in
    along fproper (fth_new kids) h ->
    length (fl_items (t_fl s)) = length (flat_map (in_flat s) (masters (t_fl s))) + length (t_raised s) /\
    (idle s -> length (fl_items (t_fl s)) = length (flat_map (fl_kids (t_fl s)) (masters (t_fl s))) + length (t_raised s)).
  Proof.
    intros s Ha. pose proof (frun_inv M_dec h _ (new_inv kids) Ha) as I. fold s in I. pose proof (i_count s I) as C.
    rewrite (i_masters s I) in C. split; [exact C|]. intros Hid. rewrite C, idle_flat by exact Hid. do 2 f_equal.
    apply flat_map_same. intros m Hm. rewrite <- (i_masters s I) in Hm. pose proof (i_local s I m Hm) as L. rewrite (Hid m) in L. exact L.
  Qed.

  Lemma idle_kids (s : fth) : finv s -> idle s -> flat_map (in_flat s) (fl_master (t_fl s)) = flat_map (fl_kids (t_fl s)) (masters (t_fl s)).
  Proof.
    intros I Hid. rewrite idle_flat by exact Hid. rewrite <- (i_masters s I). apply flat_map_same. intros m Hm.
    pose proof (i_local s I m Hm) as L. rewrite (Hid m) in L. exact L.
  Qed.

  (** insertions from any number of threads lose nothing and add nothing; the order is all that can be wrong *)
  Theorem flatthr_insertions (kids : M -> list X) h0 h :
    let s0 := frun h0 (fth_new kids) in let s := frun h s0 in
    along fproper (fth_new kids) (h0 ++ h) -> idle s0 -> Forall inserting h ->
    Permutation (fl_items (t_fl s0)) (flat_map (fl_kids (t_fl s0)) (masters (t_fl s0))) -> idle s ->
    Permutation (fl_items (t_fl s)) (flat_map (fl_kids (t_fl s)) (masters (t_fl s))).
  Proof.
    intros s0 s Ha Hid0 Hin Hp Hid.
    assert (Al : forall P h1 h2 (t : fth), along P t (h1 ++ h2) -> along P t h1 /\ along P (frun h1 t) h2).
    { intros P h1. induction h1 as [|a h1 IH]; intros h2 t H; [split; [exact I|exact H]|]. destruct H as [H1 H2].
      destruct (IH _ _ H2) as [H3 H4]. split; [split; assumption|exact H4]. }
    apply Al in Ha as [Ha0 Ha]. pose proof (frun_inv M_dec h0 _ (new_inv kids) Ha0) as I0. fold s0 in I0, Ha.
    pose proof (frun_inv M_dec h _ I0 Ha) as I1. fold s in I1.
    assert (G : growing s). { apply (growing_run M_dec h s0 I0 Ha Hin). split; [intros m p E; rewrite (Hid0 m) in E; discriminate|]. rewrite idle_kids by assumption. exact Hp. }
    destruct G as [_ G]. rewrite idle_kids in G by assumption. exact G.
  Qed.

  (** if each edit of the list is made where the child is at that time, the list is right and nothing raises *)
  Theorem flatthr_in_place (kids : M -> list X) h :
    let s := frun h (fth_new kids) in
    along fproper (fth_new kids) h -> along (in_place M_dec) (fth_new kids) h ->
    fl_items (t_fl s) = flat_map (in_flat s) (masters (t_fl s)) /\ t_raised s = [] /\
    (idle s -> fl_items (t_fl s) = flat_map (fl_kids (t_fl s)) (masters (t_fl s))).
  Proof.
    intros s Ha Hp. pose proof (frun_inv M_dec h _ (new_inv kids) Ha) as I. fold s in I.
    destruct (ordered_run M_dec h _ (new_inv kids) Ha Hp (conj eq_refl eq_refl)) as [O1 O2]. fold s in O1, O2.
    split; [rewrite <- (i_masters s I); exact O1|]. split; [exact O2|]. intros Hid. rewrite O1. apply idle_kids; assumption.
  Qed.

  (** and the first edit made elsewhere makes it wrong, if the items are distinct *)
  Theorem flatthr_out_of_place (kids : M -> list X) h m e k :
    let s := frun h (fth_new kids) in let s' := fstep s (AGo m) in
    along fproper (fth_new kids) h -> along (in_place M_dec) (fth_new kids) h ->
    t_call s m = Some (PFlat e k) ->
    NoDup (match e with KIns _ x => x :: fl_items (t_fl s) | KRem _ _ => fl_items (t_fl s) end) ->
    (in_place M_dec s (AGo m) <-> fl_items (t_fl s') = flat_map (in_flat s') (masters (t_fl s'))).
  Proof.
    intros s s' Ha Hp Ec Nd. pose proof (frun_inv M_dec h _ (new_inv kids) Ha) as I. fold s in I.
    pose proof (ordered_run M_dec h _ (new_inv kids) Ha Hp (conj eq_refl eq_refl)) as O. fold s in O.
    assert (Hpr : fproper s (AGo m)) by exact Logic.I.
    pose proof (fstep_inv M_dec s (AGo m) I Hpr) as I'. fold s' in I'. rewrite <- (i_masters s' I'). split.
    - intros H. apply (ordered_step M_dec s (AGo m) I Hpr H O).
    - intros H. assert (D : in_place M_dec s (AGo m) \/ ~ in_place M_dec s (AGo m)).
      { cbn [in_place]. rewrite Ec. destruct (Nat.eq_dec (lands e k (length (fl_items (t_fl s)))) (length (flat_map (in_flat s) (before M_dec m (fl_master (t_fl s)))) + kindex e)); auto. }
      destruct D as [D|D]; [exact D|]. exfalso. eapply (out_of_place M_dec s m e k); eauto.
  Qed.

  (** an observer has the items of the list if every edit of it is told before the next is made, whether or not they were made in place *)
  Theorem flatthr_told (kids : M -> list X) h :
    let s := frun h (fth_new kids) in
    along fproper (fth_new kids) h -> along told_first (fth_new kids) h ->
    (forall m e k, t_call s m <> Some (PTell e k)) -> follow [] (t_said s) = Some (fl_items (t_fl s)).
  Proof.
    intros s Ha Ht Hn. destruct (followed_run M_dec h _ (new_inv kids) Ha Ht (followed_new kids)) as (l & Fo & D). fold s in Fo, D.
    rewrite Fo. destruct D as [[_ ->]|(m & D & _)]; [reflexivity|]. exfalso.
    destruct (t_call s m) as [[| | |e k]|] eqn:E; cbn in D; try contradiction. eapply Hn, E.
  Qed.

  (** one call after the other: list and observers are right and nothing raises *)
  Theorem flatthr_one_by_one (kids : M -> list X) h :
    let s := frun h (fth_new kids) in
    along fproper (fth_new kids) h -> along one_by_one (fth_new kids) h -> idle s ->
    fl_items (t_fl s) = flat_map (fl_kids (t_fl s)) (masters (t_fl s)) /\ t_raised s = [] /\
    follow [] (t_said s) = Some (fl_items (t_fl s)).
  Proof.
    intros s Ha Ho Hid. pose proof (frun_inv M_dec h _ (new_inv kids) Ha) as I. fold s in I.
    assert (Hs : single M_dec (fth_new kids)) by (left; intros m; reflexivity).
    destruct (single_run M_dec h _ (new_inv kids) Ha Ho Hs (conj eq_refl eq_refl) (followed_new kids)) as [[O1 O2] (l & Fo & D)].
    fold s in O1, O2, Fo, D. split; [rewrite O1; apply idle_kids; assumption|]. split; [exact O2|].
    rewrite Fo. destruct D as [[_ ->]|(m & D & _)]; [reflexivity|]. exfalso. rewrite (Hid m) in D. exact D.
  Qed.

  (** ** a new container *)
  Lemma detach (s : fth) f tr e :
    finv s -> idle s -> fl_step M_dec (t_fl s) (LfSetContainer None) = (f, tr, e) ->
    e = None /\ fl_cont f = None /\ fl_kids f = fl_kids (t_fl s) /\ length (fl_items f) = length (t_raised s).
  Proof.
    intros I Hid E. destruct (seq_step M_dec s (LfSetContainer None) f tr e I Hid Logic.I E) as (f1 & E1 & I1 & Ef & El).
    pose proof (straight_inv s I Hid) as (Ok0 & Sy0 & M0).
    cbn [fl_step] in E1. unfold fl_set_container in E1.
    assert (P : exists s1 t1, (match fl_cont (straight s) with None => (straight s, [], None) | Some old => fl_remove_loop M_dec (rev old) (straight s) end) = (s1, t1, None) /\
      fl_ok s1 /\ fl_kids s1 = fl_kids (t_fl s) /\ fl_master s1 = []).
    { unfold masters in M0. destruct (fl_cont (straight s)) as [old|] eqn:Ec.
      - destruct (fl_remove_loop M_dec (rev old) (straight s)) as [[s1 t1] e1] eqn:E2.
        destruct (fl_remove_loop_lemma _ _ _ _ _ _ E2 Ok0 Sy0) as (-> & Ok1 & Sy1 & K1 & M1 & _); [rewrite rev_involutive; exact M0|].
        exists s1, t1. auto.
      - exists (straight s), []. repeat split; auto; apply Ok0. }
    destruct P as (s1 & t1 & P1 & P2 & P3 & P4). rewrite P1 in E1. injection E1 as <- <- <-.
    assert (Ec : fl_cont f = None) by (rewrite Ef; reflexivity). assert (Ek : fl_kids f = fl_kids (t_fl s)) by (rewrite Ef; exact P3).
    split; [reflexivity|]. split; [exact Ec|]. split; [exact Ek|]. rewrite El. cbn. rewrite (ok_items s1 P2), P4. reflexivity.
  Qed.
  Lemma set_two (f : flstate) l :
    fl_step M_dec f (LfSetContainer (Some l)) =
    match fl_step M_dec f (LfSetContainer None) with
    | (f1, t1, Some e) => (f1, t1, Some e)
    | (f1, t1, None) => let '(f2, t2, e) := fl_step M_dec f1 (LfSetContainer (Some l)) in (f2, t1 ++ t2, e)
    end.
  Proof.
    cbn [fl_step]. unfold fl_set_container at 1 2.
    destruct (match fl_cont f with None => (f, [], None) | Some old => fl_remove_loop M_dec (rev old) f end) as [[s1 t1] [e|]]; [reflexivity|].
    unfold fl_set_container. cbn [fl_cont with_fl_cont]. unfold with_fl_cont at 2. cbn.
    change (Fl (Some l) (fl_kids s1) (fl_master s1) (fl_children s1) (fl_items s1) (fl_listen s1)) with (with_fl_cont s1 (Some l)).
    destruct (fl_insert_loop M_dec l 0 (with_fl_cont s1 (Some l))) as [[s3 t3] e3]. reflexivity.
  Qed.

  (** with no container the list has as many items as calls raised; if none did, a container set makes it right *)
  Theorem flatthr_set_container (kids : M -> list X) h l :
    let s := frun h (fth_new kids) in
    let s1 := fstep s (ASeq (LfSetContainer None)) in let s2 := fstep s (ASeq (LfSetContainer (Some l))) in
    along fproper (fth_new kids) h -> idle s -> NoDup l ->
    length (fl_items (t_fl s1)) = length (t_raised s) /\
    (t_raised s = [] -> fl_items (t_fl s2) = flat_map (fl_kids (t_fl s)) l /\ masters (t_fl s2) = l).
  Proof.
    intros s s1 s2 Ha Hid Nd. pose proof (frun_inv M_dec h _ (new_inv kids) Ha) as I. fold s in I.
    pose proof (fstep_inv M_dec s (ASeq (LfSetContainer None)) I Logic.I) as I1. fold s1 in I1.
    unfold s1, s2 in *. cbn [FlatThr_Model.fstep] in *. rewrite (idle_forallb s Hid) in *.
    rewrite (set_two (t_fl s) l). destruct (fl_step M_dec (t_fl s) (LfSetContainer None)) as [[f tr] e] eqn:E.
    destruct (detach s f tr e I Hid E) as (-> & Ec & Ek & El). split; [exact El|]. intros Hr.
    assert (Eit : fl_items f = []) by (rewrite Hr in El; destruct (fl_items f); [reflexivity|discriminate]).
    destruct (fl_step M_dec f (LfSetContainer (Some l))) as [[f2 t2] e2] eqn:E2. cbn [t_fl].
    pose proof (straight_inv _ I1 Hid) as If. unfold straight in If. cbn [t_fl] in If.
    pose proof (i_masters _ I1) as Ma. cbn [t_fl] in Ma. unfold masters in Ma. rewrite Ec in Ma. rewrite Ma in If. cbn [flat_map] in If.
    replace (with_items f []) with f in If by (destruct f; cbn in Eit; subst; reflexivity).
    pose proof (fl_step_lemma M_dec _ _ _ _ _ E2 If Nd) as [If2 _].
    cbn [fl_step] in E2. unfold fl_set_container in E2. rewrite Ec in E2.
    destruct (fl_insert_loop M_dec l 0 (with_fl_cont f (Some l))) as [[s3 t3] e3] eqn:E3. injection E2 as <- <- <-.
    destruct If as (Ok0 & Sy0 & M0).
    destruct (fl_insert_loop_lemma M_dec _ _ _ _ _ _ E3) as (_ & _ & _ & C3 & K3 & _); [destruct Ok0; split; assumption|exact Sy0|cbn; rewrite Ma; reflexivity|cbn; rewrite Ma; exact Nd|].
    assert (Em : masters s3 = l) by (unfold masters; rewrite C3; reflexivity).
    split; [|exact Em]. rewrite (fl_inv_items _ If2), Em, K3. cbn. rewrite Ek. reflexivity.
  Qed.
End P.
Print Assumptions flatthr_alone.
Print Assumptions flatthr_children.
Print Assumptions flatthr_count.
Print Assumptions flatthr_insertions.
Print Assumptions flatthr_in_place.
Print Assumptions flatthr_out_of_place.
Print Assumptions flatthr_told.
Print Assumptions flatthr_one_by_one.
Print Assumptions flatthr_set_container.

(** ** cases *)
Definition fx_kids (m : nat) : list nat := match m with 0 => [1; 2] | 1 => [10] | 2 => [20; 21; 22] | _ => [] end.
Definition fx_run (h : list (fact nat nat)) : fth nat nat := frun Nat.eq_dec h (fth_new fx_kids).
Definition go (m n : nat) : list (fact nat nat) := repeat (AGo m) n.
Definition fx_right (s : fth nat nat) : list nat := flat_map (fl_kids (t_fl s)) (masters (t_fl s)).
Definition fx_set (l : list nat) : fact nat nat := ASeq (LfSetContainer (Some l)).

(** two threads at once, with edits that happen to be made in place *)
Definition fx_good : list (fact nat nat) :=
  [fx_set [0; 2; 1]; AIns 0 2 3; ARem 2 1] ++ go 0 4 ++ go 2 5 ++ [AIns 1 0 11] ++ go 1 6.
Example flatthr_in_place_case :
  along Nat.eq_dec fproper (fth_new fx_kids) fx_good /\ along Nat.eq_dec (in_place Nat.eq_dec) (fth_new fx_kids) fx_good /\
  along Nat.eq_dec told_first (fth_new fx_kids) fx_good /\ ~ along Nat.eq_dec one_by_one (fth_new fx_kids) fx_good /\
  fl_items (t_fl (fx_run fx_good)) = [1; 2; 3; 20; 22; 11; 10] /\ fx_right (fx_run fx_good) = [1; 2; 3; 20; 22; 11; 10] /\
  follow [] (t_said (fx_run fx_good)) = Some [1; 2; 3; 20; 22; 11; 10].
Proof.
  assert (Nd : NoDup [0; 2; 1]) by (repeat constructor; simpl; intuition discriminate).
  split; [vm_compute; repeat split; (exact Nd || lia)|]. split; [vm_compute; repeat split|].
  split; [vm_compute; repeat split; intros [|[|[|m]]] e k; vm_compute; discriminate|].
  split; [|vm_compute; auto].
  intros (_ & _ & H & _). specialize (H 0). vm_compute in H. discriminate.
Qed.

Example flatthr_alone_case :
  let s := fx_run [fx_set [0; 1]; ARem 1 0; AGo 1] in
  fl_step Nat.eq_dec (t_fl s) (LfKidInsert 0 1 9) =
    (t_fl (frun Nat.eq_dec (AIns 0 1 9 :: go 0 4) s), [LfIns 9 1; LfSelIns 1], None).
Proof. vm_compute. reflexivity. Qed.

(** 11 goes in front of the children of 1; the place was counted before 3 came into the children of 0 *)
Definition fx_late : list (fact nat nat) := [fx_set [0; 1]; AIns 1 0 11] ++ go 1 3 ++ [AIns 0 2 3] ++ go 0 4 ++ go 1 2.
Theorem flatthr_order_refuted :
  along Nat.eq_dec fproper (fth_new fx_kids) fx_late /\ idle (fx_run fx_late) /\
  fl_items (t_fl (fx_run fx_late)) = [1; 2; 11; 3; 10] /\ fx_right (fx_run fx_late) = [1; 2; 3; 11; 10] /\
  t_raised (fx_run fx_late) = [] /\
  fl_items (t_fl (fx_run (fx_late ++ [fx_set [0; 1]]))) = [1; 2; 3; 11; 10].
Proof.
  assert (Nd : NoDup [0; 1]) by (repeat constructor; simpl; intuition discriminate).
  split; [vm_compute; repeat split; (exact Nd || lia)|]. split; [intros [|[|m]]; reflexivity|]. vm_compute. auto.
Qed.
Print Assumptions flatthr_order_refuted.

(** 10 is removed at the place it had before 1 was removed: IndexError, dropped; it stays for good *)
Definition fx_raise : list (fact nat nat) := [fx_set [0; 1]; ARem 1 0] ++ go 1 3 ++ [ARem 0 0] ++ go 0 4 ++ go 1 1.
Theorem flatthr_left_over_refuted :
  along Nat.eq_dec fproper (fth_new fx_kids) fx_raise /\ idle (fx_run fx_raise) /\
  fl_items (t_fl (fx_run fx_raise)) = [2; 10] /\ fx_right (fx_run fx_raise) = [2] /\ t_raised (fx_run fx_raise) = [IndexError] /\
  fl_items (t_fl (fx_run (fx_raise ++ [ASeq (LfSetContainer None)]))) = [10] /\
  fl_items (t_fl (fx_run (fx_raise ++ [fx_set [2]]))) = [20; 21; 22; 10].
Proof.
  assert (Nd : NoDup [0; 1]) by (repeat constructor; simpl; intuition discriminate).
  split; [vm_compute; repeat split; (exact Nd || lia)|]. split; [intros [|[|m]]; reflexivity|]. vm_compute. auto 10.
Qed.
Print Assumptions flatthr_left_over_refuted.

(** with items behind it another item goes: 20 is taken out and 10 is told *)
Definition fx_wrong : list (fact nat nat) := [fx_set [0; 1; 2]; ARem 1 0] ++ go 1 3 ++ [ARem 0 0] ++ go 0 4 ++ go 1 2.
Theorem flatthr_wrong_item_refuted :
  along Nat.eq_dec fproper (fth_new fx_kids) fx_wrong /\ idle (fx_run fx_wrong) /\
  fl_items (t_fl (fx_run fx_wrong)) = [2; 10; 21; 22] /\ fx_right (fx_run fx_wrong) = [2; 20; 21; 22] /\ t_raised (fx_run fx_wrong) = [] /\
  skipn 12 (t_said (fx_run fx_wrong)) = [LfRem 1 0; LfSelRem 0; LfRem 10 2; LfSelRem 2].
Proof.
  assert (Nd : NoDup [0; 1; 2]) by (repeat constructor; simpl; intuition discriminate).
  split; [vm_compute; repeat split; (exact Nd || lia)|]. split; [intros [|[|[|m]]]; reflexivity|]. vm_compute. auto 10.
Qed.
Print Assumptions flatthr_wrong_item_refuted.

(** both edits are made in place, but told the other way round: the observer has another list *)
Definition fx_untold : list (fact nat nat) := [fx_set [0; 1]; AIns 1 0 11] ++ go 1 4 ++ [AIns 0 0 5] ++ go 0 4 ++ go 1 1.
Theorem flatthr_told_refuted :
  along Nat.eq_dec fproper (fth_new fx_kids) fx_untold /\ along Nat.eq_dec (in_place Nat.eq_dec) (fth_new fx_kids) fx_untold /\
  idle (fx_run fx_untold) /\
  fl_items (t_fl (fx_run fx_untold)) = [5; 1; 2; 11; 10] /\ fx_right (fx_run fx_untold) = [5; 1; 2; 11; 10] /\
  follow [] (t_said (fx_run fx_untold)) = Some [5; 1; 11; 2; 10].
Proof.
  assert (Nd : NoDup [0; 1]) by (repeat constructor; simpl; intuition discriminate).
  split; [vm_compute; repeat split; (exact Nd || lia)|]. split; [vm_compute; repeat split|]. split; [intros [|[|m]]; reflexivity|]. vm_compute. auto.
Qed.
Print Assumptions flatthr_told_refuted.

(** the hypotheses of the other theorems, in cases *)
Example flatthr_count_case :
  let s := fx_run (firstn 9 fx_raise) in
  ~ idle s /\ length (fl_items (t_fl s)) = 2 /\ in_flat s 1 = [10] /\ fl_children (t_fl s) 1 = [] /\ flat_map (in_flat s) (masters (t_fl s)) = [2; 10].
Proof. split; [intros H; specialize (H 1); vm_compute in H; discriminate|]. vm_compute. auto. Qed.
Example flatthr_insertions_case :
  Forall inserting (skipn 1 fx_late) /\ idle (fx_run (firstn 1 fx_late)) /\
  fl_items (t_fl (fx_run (firstn 1 fx_late))) = fx_right (fx_run (firstn 1 fx_late)) /\
  fl_items (t_fl (fx_run fx_late)) <> fx_right (fx_run fx_late).
Proof. split; [repeat constructor|]. split; [intros m; reflexivity|]. split; [reflexivity|]. vm_compute. discriminate. Qed.
Example flatthr_out_of_place_case :
  let s := fx_run (firstn 10 fx_late) in
  t_call s 1 = Some (PFlat (KIns 0 11) 2) /\ fl_items (t_fl s) = [1; 2; 3; 10] /\ ~ in_place Nat.eq_dec s (AGo 1).
Proof. vm_compute. repeat split. discriminate. Qed.
Example flatthr_told_case :
  along Nat.eq_dec told_first (fth_new fx_kids) fx_wrong /\ follow [] (t_said (fx_run fx_wrong)) = Some [2; 10; 21; 22].
Proof. split; [|vm_compute; reflexivity]. vm_compute; repeat split; intros [|[|[|m]]] e k; vm_compute; discriminate. Qed.
Example flatthr_one_by_one_case :
  let h := [fx_set [0; 1]; AIns 1 0 11] ++ go 1 5 ++ [ARem 0 0] ++ go 0 4 in
  along Nat.eq_dec one_by_one (fth_new fx_kids) h /\ idle (fx_run h) /\ fl_items (t_fl (fx_run h)) = [2; 11; 10].
Proof. split; [vm_compute; repeat split; intros [|[|m]]; reflexivity|]. split; [intros [|[|m]]; reflexivity|]. vm_compute. reflexivity. Qed.
