(** Closing recorders and replaying in the same world: proofs. *)
From Coq Require Import Arith Bool List Permutation Lia.
From Verif Require Import PyBase Recorder_Model Recorder_Spec Recorder_Proofs Recorder_Proofs2 Recorder_Proofs3 RecLife_Model RecLife_Spec.
Import ListNotations.

Section P.
  Context {V : Type} (item : nat -> bool) (recordable : nat -> nat -> bool).
  Notation obj := (node (nat * list V)).
  Notation world := (@world V).
  Notation life := (life V).
  Notation hear := (hear item recordable).
  Notation call_on := (call_on item recordable).
  Notation live := (live item recordable).
  Notation lrun := (lrun item recordable).
  Notation lstep := (lstep item recordable).
  Notation change := (change item).
  Implicit Types (o x : obj) (w : world) (s : life).

  (** ** closed *)
  Lemma hear_closed s a : l_rec s = None -> l_rec (hear s a) = None /\ l_log (hear s a) = l_log s.
  Proof. intros E. unfold RecLife_Model.hear. rewrite E. destruct (change (l_world s) a); auto. Qed.
  Lemma lrun_closed l : forall s, l_rec s = None -> l_rec (lrun s l) = None /\ l_log (lrun s l) = l_log s.
  Proof.
    induction l as [|x l IH]; intros s E; [auto|]. change (lrun s (x :: l)) with (lrun (lstep s x) l).
    assert (H : l_rec (lstep s x) = None /\ l_log (lstep s x) = l_log s).
    { destruct x as [a|]; cbn [RecLife_Model.lstep]; [apply hear_closed, E|]. unfold close. rewrite E. auto. }
    destruct H as [H1 H2]. destruct (IH _ H1) as [H3 H4]. split; congruence.
  Qed.
  Lemma call_closed s r e s' : l_rec s = None -> call_on s r e = Ok s' -> l_rec s' = None /\ l_log s' = l_log s.
  Proof.
    intros E. unfold RecLife_Model.call_on. destruct (lookup r (l_world s)) as [o|]; [|discriminate].
    destruct e as [q i p|q k n c|q k n]; (destruct (walk item q o) as [x|]; [|discriminate]).
    - destruct (lookup i (l_world s)) as [y|]; [|discriminate]. destruct (nth_error (props_of y) p); [|discriminate].
      intros [= <-]. apply hear_closed, E.
    - destruct (lookup c (l_world s)) as [y|]; [|discriminate]. destruct (k <? length (slots x)); [|discriminate].
      intros [= <-]. apply (hear_closed (Life _ _ _)). exact E.
    - destruct (nth_error (slots x) k) as [l|]; [|discriminate]. destruct (nth_error l n); [|discriminate].
      intros [= <-]. apply hear_closed, E.
  Qed.
  Lemma live_closed n r : forall pos s, l_rec s = None ->
    l_rec (final (live n r pos s)) = None /\ l_log (final (live n r pos s)) = l_log s /\
    (pos <= length (l_log s) -> length (l_log s) < pos + n -> over (live n r pos s)).
  Proof.
    induction n as [|n IH]; intros pos s E; cbn [RecLife_Model.live].
    - cbn [final over]. split; [exact E|]. split; [reflexivity|]. lia.
    - destruct (nth_error (l_log s) pos) as [e|] eqn:En; [|cbn; auto].
      destruct (call_on s r e) as [s'|x] eqn:Ec; [|cbn; auto].
      destruct (call_closed s r e s' E Ec) as [E1 E2]. destruct (IH (S pos) s' E1) as (H1 & H2 & H3).
      split; [exact H1|]. split; [congruence|]. assert (pos < length (l_log s)) by (apply nth_error_Some; congruence).
      intros Hp Hq. apply H3; rewrite E2; lia.
  Qed.

  (** ** setting properties *)
  Lemma walk_sub q : forall o x, sub q o = Some x -> walk item q o = Ok x.
  Proof.
    induction q as [|[k i] q IH]; intros o x; cbn [sub walk]; [intros [= ->]; reflexivity|].
    destruct (nth_error (slots o) k) as [l|]; [|discriminate]. destruct (nth_error l i) as [y|]; [|discriminate]. apply IH.
  Qed.
  Lemma set_change w i p v x : NoDup (all_ids w) -> lookup i w = Some x -> p < length (props_of x) ->
    change w (SetProp i p v) = Some (map (upd (is_id i) (set_prop p v)) w).
  Proof.
    intros Hn Hl Hp. unfold Recorder_Model.change. cbn [target left_over]. rewrite Hl. cbn [possible].
    apply Nat.ltb_lt in Hp. rewrite Hp. reflexivity.
  Qed.
  Lemma set_same w i p v x : NoDup (all_ids w) -> lookup i w = Some x -> nth_error (props_of x) p = Some v ->
    change w (SetProp i p v) = Some w.
  Proof.
    intros Hn Hl Hv. rewrite (set_change w i p v x Hn Hl); [|apply nth_error_Some; congruence]. f_equal.
    destruct (place i w x Hn Hl) as (w1 & r & w2 & q & E & Hq & Hf). rewrite Hf. rewrite E. do 2 f_equal.
    replace (set_prop p v x) with x; [apply put_same, Hq|]. unfold set_prop. rewrite (set_nth_same p v _ Hv).
    destruct x as [[j ps] ss]. reflexivity.
  Qed.
  Lemma upd_ident {A} (is : A -> bool) (n : node A) : upd is (fun m => m) n = n.
  Proof.
    induction n as [a ss IH] using node_deep. cbn [upd]. destruct (is a); [reflexivity|]. f_equal.
    rewrite <- (map_id ss) at 2. apply map_ext_in. intros l Hl. rewrite <- (map_id l) at 2. apply map_ext_in. intros y Hy.
    rewrite Forall_forall in IH. specialize (IH l Hl). rewrite Forall_forall in IH. apply IH, Hy.
  Qed.
  Lemma mk_set i p v o q : NoDup (ids o) -> mk q (upd (is_id i) (set_prop p v) o) = mk q o.
  Proof.
    intros Hn. destruct (in_dec Nat.eq_dec i (ids o)) as [Hi|Hi]; [|rewrite upd_absent by exact Hi; reflexivity].
    unfold ids in Hi. apply in_map_iff in Hi. destruct Hi as (x & Hx & Hi). destruct (nodes_sub o x Hi) as (u & Hu).
    rewrite (upd_put (is_id i) _ u o x); [|apply hits_once, Hn|exact Hu|unfold is_id; apply Nat.eqb_eq; exact Hx].
    rewrite <- mk_put. replace (mk (q ++ u) (set_prop p v x)) with (mk (q ++ u) x); [|rewrite !mk_eq; reflexivity].
    rewrite mk_put, (put_same u o x Hu). reflexivity.
  Qed.

  (** the entry sets the property of an object of [o] *)
  Definition good (o : obj) (e : entry) : Prop :=
    exists q i p x, e = ESet q i p /\ sub q o = Some x /\ id_of x = i /\ p < length (props_of x) /\ recordable i p = true.
  Definition follows_obj (s : life) (r : nat) (o : obj) : Prop :=
    NoDup (all_ids (l_world s)) /\ lookup r (l_world s) = Some o /\
    (l_rec s = Some (mk [] o) \/ l_rec s = None) /\ Forall (good o) (l_log s).

  Lemma good_form o o' e : form o' o -> good o e -> good o' e.
  Proof.
    intros F (q & i & p & x & -> & Hs & Hi & Hp & Hr). destruct (like_sub _ q o' o x F Hs) as (y & Hy & L).
    apply like_label in L. destruct L as [L1 L2]. exists q, i, p, y. unfold id_of, props_of in *. repeat split; try assumption; first [congruence | lia].
  Qed.
  Lemma hear_set s r o i p v :
    follows_obj s r o ->
    exists o', follows_obj (hear s (SetProp i p v)) r o' /\ form o' o /\
      (forall j y, lookup j (l_world s) = Some y ->
         lookup j (l_world (hear s (SetProp i p v))) = Some y \/
         lookup j (l_world (hear s (SetProp i p v))) = Some (upd (is_id i) (set_prop p v) y)) /\
      (l_rec s = None -> l_rec (hear s (SetProp i p v)) = None) /\ (l_rec s <> None -> l_rec (hear s (SetProp i p v)) <> None) /\
      forall j u, (exists q, In (ESet q j u) (l_log (hear s (SetProp i p v)))) <->
        (exists q, In (ESet q j u) (l_log s)) \/
        (l_rec s <> None /\ j = i /\ u = p /\ recordable i p = true /\ exists y, In y (nodes o) /\ id_of y = i /\ p < length (props_of y)).
  Proof.
    intros (Hn & Hl & Hr & Hg). destruct (change (l_world s) (SetProp i p v)) as [w|] eqn:Ec.
    2:{ assert (E : hear s (SetProp i p v) = s).
        { unfold RecLife_Model.hear, step. cbn [st_world]. destruct s as [w0 [rc|] lg]; cbn [l_rec l_world l_log] in *; rewrite Ec; reflexivity. }
        rewrite E. exists o. split; [split; [|split; [|split]]; assumption|]. split; [apply form_refl|]. split; [auto|]. split; [auto|]. split; [auto|].
        intros j u. split; [auto|]. intros [H|(_ & -> & -> & _ & y & Hy & Hi & Hp)]; [exact H|]. exfalso.
        destruct (lookup_some _ _ _ Hl) as [Ho _]. apply in_all_nodes in Ho. destruct Ho as (ro & Hro & Ho).
        assert (Hy' : In y (all_nodes (l_world s))) by (apply in_all_nodes; exists ro; split; [exact Hro|exact (nodes_trans ro o y Ho Hy)]).
        pose proof (lookup_in _ _ Hn Hy') as Ly. rewrite Hi in Ly. rewrite (set_change _ i p v y Hn Ly Hp) in Ec. discriminate. }
    set (o' := upd (is_id i) (set_prop p v) o). pose proof (form_set i p v o) as F. fold o' in F.
    pose proof (change_nodup item _ _ _ Hn Ec) as Hn'.
    pose proof (change_lookup item _ _ _ r o Hn Ec Hl) as Hl'. cbn [target act taken] in Hl'. change (upd (is_id i) (act (SetProp i p v) None) o) with o' in Hl'.
    assert (Hno : NoDup (ids o)) by (apply (nodup_root o (l_world s) Hn), (lookup_some r), Hl).
    assert (Hw : l_world (hear s (SetProp i p v)) = w).
    { unfold RecLife_Model.hear, step. cbn [st_world]. destruct (l_rec s); rewrite Ec; reflexivity. }
    assert (Hlk : forall j y, lookup j (l_world s) = Some y -> lookup j w = Some (upd (is_id i) (set_prop p v) y)).
    { intros j y Hj. rewrite (change_lookup item _ _ _ j y Hn Ec Hj). reflexivity. }
    assert (Hgo : Forall (good o') (l_log s)).
    { rewrite Forall_forall in *. intros e He. apply (good_form o); [exact F|]. apply Hg, He. }
    exists o'. rewrite Hw.
    destruct Hr as [Hr|Hr].
    - assert (Hrec : l_rec (hear s (SetProp i p v)) = Some (mk [] o')).
      { unfold RecLife_Model.hear, step. cbn [st_world]. rewrite Hr, Ec. cbn [l_rec st_rec target].
        unfold o'. rewrite (mk_set i p v o [] Hno). f_equal. apply upd_ident. }
      assert (Hlog : l_log (hear s (SetProp i p v)) =
                l_log s ++ flat_map (logs recordable (SetProp i p v)) (filter (fun m => is_id i (label m)) (nodes (mk [] o)))).
      { unfold RecLife_Model.hear, step. cbn [st_world]. rewrite Hr, Ec. reflexivity. }
      assert (Hcase : (exists y q, sub q o = Some y /\ id_of y = i /\ filter (fun m => is_id i (label m)) (nodes (mk [] o)) = [mk q y]) \/
                      (~ In i (ids o) /\ filter (fun m => is_id i (label m)) (nodes (mk [] o)) = [])).
      { destruct (in_dec Nat.eq_dec i (ids o)) as [Hi|Hi].
        - left. unfold ids in Hi. apply in_map_iff in Hi. destruct Hi as (y & Hy & Hi). destruct (nodes_sub o y Hi) as (q & Hq).
          exists y, q. split; [exact Hq|]. split; [exact Hy|]. apply (one_heard (is_id i) q).
          + rewrite mk_hits. apply hits_once, Hno.
          + rewrite mk_sub, Hq. reflexivity.
          + rewrite mk_eq. unfold is_id. cbn [label fst]. apply Nat.eqb_eq, Hy.
        - right. split; [exact Hi|]. apply none_heard. rewrite mk_hits. apply hits_absent, Hi. }
      assert (Hlen : forall y, In y (nodes o) -> id_of y = i -> p < length (props_of y)).
      { intros y Hy Hi. destruct (change_cases item _ _ _ Hn Ec) as (y' & _ & _ & Ly & Hpo & _). cbn [target possible] in Ly, Hpo.
        assert (Hy' : In y (all_nodes (l_world s))).
        { destruct (lookup_some _ _ _ Hl) as [Ho _]. apply in_all_nodes in Ho. destruct Ho as (ro & Hro & Ho). apply in_all_nodes.
          exists ro. split; [exact Hro|exact (nodes_trans ro o y Ho Hy)]. }
        pose proof (lookup_in _ _ Hn Hy') as L2. rewrite Hi in L2. assert (y = y') by congruence. subst y'. apply Nat.ltb_lt, Hpo. }
      split; [|split; [exact F|split; [intros j y Hj; right; apply Hlk, Hj|split; [congruence|split; [intros _; rewrite Hrec; discriminate|]]]]].
      + split; [rewrite Hw; exact Hn'|]. split; [rewrite Hw; exact Hl'|]. split; [left; exact Hrec|].
        rewrite Hlog. apply Forall_app. split; [exact Hgo|].
        destruct Hcase as [(y & q & Hq & Hi & ->)|[_ ->]]; [|constructor]. cbn [flat_map]. rewrite app_nil_r. cbn [logs].
        destruct (recordable i p) eqn:Er; [|constructor]. constructor; [|constructor]. apply (good_form o); [exact F|].
        exists q, i, p, y. rewrite mk_eq. cbn [label snd]. repeat split; try assumption. apply Hlen; [apply (sub_nodes q), Hq|exact Hi].
      + intros j u. rewrite Hlog. destruct Hcase as [(y & q & Hq & Hi & ->)|[Hi ->]].
        * cbn [flat_map]. rewrite app_nil_r. cbn [logs]. rewrite mk_eq. cbn [label snd]. split.
          -- intros (q' & H). apply in_app_or in H. destruct H as [H|H]; [eauto|]. destruct (recordable i p) eqn:Er; [|destruct H].
             destruct H as [[= <- <- <-]|[]]. right. split; [congruence|]. repeat split; auto. exists y.
             pose proof (sub_nodes q o y Hq) as Hy. split; [exact Hy|]. split; [exact Hi|]. apply Hlen; assumption.
          -- intros [(q' & H)|(_ & -> & -> & -> & _)]; [exists q'; apply in_or_app; auto|]. exists q. apply in_or_app. right. left. reflexivity.
        * cbn [flat_map]. rewrite app_nil_r. split; [auto|]. intros [H|(_ & -> & -> & _ & y & Hy & Hiy & _)]; [exact H|]. exfalso.
          apply Hi. rewrite <- Hiy. apply in_map, Hy.
    - assert (E : hear s (SetProp i p v) = Life w None (l_log s)) by (unfold RecLife_Model.hear; rewrite Hr, Ec; reflexivity).
      rewrite E. split; [|split; [exact F|split; [intros j y Hj; right; apply Hlk, Hj|split; [auto|split; [congruence|]]]]].
      + split; [exact Hn'|]. split; [exact Hl'|]. split; [right; reflexivity|exact Hgo].
      + cbn [l_log]. intros j u. split; [auto|]. intros [H|[H _]]; [exact H|congruence].
  Qed.

  (** setting a property of the recorded object to the value it has *)
  Lemma self_call s r o e : follows_obj s r o -> good o e ->
    call_on s r e = Ok (Life (l_world s) (l_rec s) (l_log s ++ match l_rec s with Some _ => [e] | None => [] end)).
  Proof.
    intros (Hn & Hl & Hr & Hg) (q & i & p & x & -> & Hq & Hi & Hp & Hrec). unfold RecLife_Model.call_on. rewrite Hl, (walk_sub q o x Hq).
    assert (Hx : In x (all_nodes (l_world s))).
    { destruct (lookup_some _ _ _ Hl) as [Ho _]. apply in_all_nodes in Ho. destruct Ho as (ro & Hro & Ho). apply in_all_nodes.
      exists ro. split; [exact Hro|]. exact (nodes_trans ro o x Ho (sub_nodes q o x Hq)). }
    pose proof (lookup_in _ _ Hn Hx) as Lx. rewrite Hi in Lx. rewrite Lx.
    destruct (nth_error (props_of x) p) as [v|] eqn:Ev; [|apply nth_error_None in Ev; lia]. rewrite Hi. f_equal.
    pose proof (set_same _ i p v x Hn Lx Ev) as Es. unfold RecLife_Model.hear, step. cbn [st_world st_rec st_log].
    assert (Hno : NoDup (ids o)) by (apply (nodup_root o (l_world s) Hn), (lookup_some r), Hl).
    destruct Hr as [Hr|Hr]; rewrite Hr, Es; [|cbn [l_log l_rec]; rewrite app_nil_r; reflexivity]. cbn [st_world st_rec st_log target].
    rewrite (one_heard (is_id i) q (mk [] o) (mk q x)).
    - cbn [flat_map]. rewrite app_nil_r. cbn [logs]. rewrite Hrec. f_equal; [f_equal; apply upd_ident|]. rewrite (mk_eq q x). reflexivity.
    - rewrite mk_hits. apply hits_once, Hno.
    - rewrite mk_sub, Hq. reflexivity.
    - rewrite mk_eq. unfold is_id. cbn [label fst]. apply Nat.eqb_eq, Hi.
  Qed.

  Lemma self_open n r o : forall pos s, follows_obj s r o -> l_rec s <> None -> pos < length (l_log s) ->
    exists s', live n r pos s = Going (pos + n) s' /\ l_world s' = l_world s /\ l_rec s' = l_rec s /\
      length (l_log s') = length (l_log s) + n /\ firstn (length (l_log s)) (l_log s') = l_log s /\
      (forall j, j < n -> nth_error (l_log s') (length (l_log s) + j) = nth_error (l_log s') (pos + j)).
  Proof.
    induction n as [|n IH]; intros pos s Hf Hr Hp; cbn [RecLife_Model.live].
    - exists s. rewrite !Nat.add_0_r. repeat split; auto; [apply firstn_all|lia].
    - destruct (nth_error (l_log s) pos) as [e|] eqn:En; [|apply nth_error_None in En; lia].
      assert (Hg : good o e). { destruct Hf as (_ & _ & _ & Hg). rewrite Forall_forall in Hg. apply Hg, (nth_error_In _ _ En). }
      rewrite (self_call s r o e Hf Hg). destruct (l_rec s) as [rc|] eqn:Er; [|congruence].
      set (s1 := Life (l_world s) (Some rc) (l_log s ++ [e])).
      assert (Hf1 : follows_obj s1 r o).
      { destruct Hf as (H1 & H2 & H3 & H4). split; [exact H1|]. split; [exact H2|]. split; [rewrite Er in H3; exact H3|].
        apply Forall_app. split; [exact H4|]. constructor; [exact Hg|constructor]. }
      assert (Hl1 : length (l_log s1) = S (length (l_log s))) by (cbn; rewrite app_length; simpl; lia).
      destruct (IH (S pos) s1 Hf1) as (s' & E & H1 & H2 & H3 & H4 & H5); [discriminate|lia|].
      exists s'. rewrite E. split; [f_equal; lia|]. split; [exact H1|]. split; [exact H2|]. split; [lia|].
      rewrite Hl1 in *.
      assert (Hpre : forall j, j < S (length (l_log s)) -> nth_error (l_log s') j = nth_error (l_log s ++ [e]) j).
      { intros j Hj. change (l_log s ++ [e]) with (l_log s1). rewrite <- H4. symmetry. rewrite <- (firstn_skipn (S (length (l_log s))) (l_log s')) at 2.
        rewrite nth_error_app1; [reflexivity|]. rewrite firstn_length. lia. }
      split.
      + apply list_ext. intros j. destruct (Nat.lt_ge_cases j (length (l_log s))) as [Hj|Hj].
        * rewrite <- (firstn_skipn (length (l_log s)) (l_log s')) in Hpre. specialize (Hpre j ltac:(lia)).
          rewrite nth_error_app1 in Hpre by (rewrite firstn_length; lia). rewrite Hpre, nth_error_app1 by lia. reflexivity.
        * rewrite !(proj2 (nth_error_None _ _)); [reflexivity|lia|rewrite firstn_length; lia].
      + intros [|j] Hj.
        * rewrite !Nat.add_0_r. rewrite !Hpre by lia. rewrite nth_error_app2, Nat.sub_diag by lia. rewrite nth_error_app1 by lia. rewrite En. reflexivity.
        * replace (length (l_log s) + S j) with (S (length (l_log s)) + j) by lia. replace (pos + S j) with (S pos + j) by lia. apply H5. lia.
  Qed.
  Lemma self_closed n r o : forall pos s, follows_obj s r o -> l_rec s = None -> pos <= length (l_log s) ->
    length (l_log s) < pos + n -> live n r pos s = Done s.
  Proof.
    induction n as [|n IH]; intros pos s Hf Hr Hp Hn; cbn [RecLife_Model.live]; [lia|].
    destruct (nth_error (l_log s) pos) as [e|] eqn:En; [|reflexivity].
    assert (Hg : good o e). { destruct Hf as (_ & _ & _ & Hg). rewrite Forall_forall in Hg. apply Hg, (nth_error_In _ _ En). }
    rewrite (self_call s r o e Hf Hg), Hr, app_nil_r. assert (pos < length (l_log s)) by (apply nth_error_Some; congruence).
    replace (Life (l_world s) None (l_log s)) with s by (destruct s; cbn in *; congruence). apply IH; try assumption; lia.
  Qed.

  (** histories that set properties *)
  Lemma setting_run l : forall s r o, Forall setting l -> follows_obj s r o ->
    exists o', follows_obj (lrun s l) r o' /\ form o' o /\
      (l_rec s = None -> l_rec (lrun s l) = None) /\
      (forall j u, (exists q, In (ESet q j u) (l_log (lrun s l))) <->
        (exists q, In (ESet q j u) (l_log s)) \/
        (l_rec s <> None /\ was_recorded recordable l j u /\ exists y, In y (nodes o) /\ id_of y = j /\ u < length (props_of y))).
  Proof.
    induction l as [|x l IH]; intros s r o Hs Hf.
    - exists o. split; [exact Hf|]. split; [apply form_refl|]. split; [auto|]. intros j u. split; [auto|].
      intros [H|(_ & (_ & v & []) & _)]. exact H.
    - inversion Hs as [|? ? Hx Hl]; subst. change (lrun s (x :: l)) with (lrun (lstep s x) l).
      destruct x as [[i p v|i k n c|i k n|i k c]|]; try contradiction; cbn [RecLife_Model.lstep].
      + destruct (hear_set s r o i p v Hf) as (o1 & Hf1 & F1 & _ & Hc1 & Ho1 & L1).
        destruct (IH (hear s (SetProp i p v)) r o1 Hl Hf1) as (o' & Hf' & F' & Hc' & L').
        exists o'. split; [exact Hf'|]. split; [exact (form_trans _ _ _ F' F1)|]. split; [auto|]. intros j u. rewrite L', L1.
        assert (Hnodes : (exists y, In y (nodes o1) /\ id_of y = j /\ u < length (props_of y)) <-> (exists y, In y (nodes o) /\ id_of y = j /\ u < length (props_of y))).
        { assert (W : forall a b : obj, form a b -> (exists y, In y (nodes b) /\ id_of y = j /\ u < length (props_of y)) -> exists y, In y (nodes a) /\ id_of y = j /\ u < length (props_of y)).
          { intros a b Fab (y & Hy & Hi & Hu). destruct (nodes_sub b y Hy) as (q & Hq). destruct (like_sub _ q a b y Fab Hq) as (z & Hz & L).
            apply like_label in L. destruct L as [La Lb]. exists z. split; [exact (sub_nodes q a z Hz)|]. unfold id_of, props_of in *. split; [congruence|lia]. }
          split; [|apply W, F1]. apply W. apply (like_flip _ _ _) in F1. refine (like_impl _ _ _ _ _ F1). intros ? ? _ [? ?]. split; congruence. }
        rewrite Hnodes. unfold was_recorded. cbn [until_closed In].
        split.
        * intros [[H|(H0 & -> & -> & H1 & H2)]|(H0 & (H1 & v' & H2) & H3)].
          -- left. exact H.
          -- right. split; [exact H0|]. split; [|exact H2]. split; [exact H1|]. exists v. left. reflexivity.
          -- right. split; [intros E; apply H0, Hc1, E|]. split; [|exact H3]. split; [exact H1|]. exists v'. right. exact H2.
        * intros [H|(H0 & (H1 & v' & [H2|H2]) & H3)].
          -- left. left. exact H.
          -- injection H2 as <- <- <-. left. right. auto.
          -- right. split; [apply Ho1, H0|]. split; [|exact H3]. split; [exact H1|]. exists v'. exact H2.
      + assert (Hcl : exists s1, (match close s with Ok s' => s' | Err _ => s end) = s1 /\ l_rec s1 = None /\ l_world s1 = l_world s /\ l_log s1 = l_log s).
        { unfold close. destruct (l_rec s) eqn:E; eexists; (split; [reflexivity|]); auto. }
        destruct Hcl as (s1 & -> & E1 & E2 & E3).
        assert (Hf1 : follows_obj s1 r o). { destruct Hf as (H1 & H2 & H3 & H4). unfold follows_obj. rewrite E1, E2, E3. auto. }
        destruct (IH s1 r o Hl Hf1) as (o' & Hf' & F' & Hc' & L'). exists o'. split; [exact Hf'|]. split; [exact F'|].
        split; [auto|]. intros j u. rewrite L', E1, E3. unfold was_recorded. cbn [until_closed]. split.
        * intros [H|(H & _)]; [auto|congruence].
        * intros [H|(_ & (_ & v' & []) & _)]. auto.
  Qed.
  Lemma open_follows w r o : NoDup (all_ids w) -> lookup r w = Some o -> follows_obj (open w o) r o.
  Proof. intros Hn Hl. split; [exact Hn|]. split; [exact Hl|]. split; [left; reflexivity|constructor]. Qed.
End P.
