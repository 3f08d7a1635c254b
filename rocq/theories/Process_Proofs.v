From Coq Require Import List Arith Lia.
From Verif Require Import PyBase Process_Model Process_Spec.
Import ListNotations.

Section Q.
  Context {T : Type} (behave : list T -> T -> list T * bool).

  Lemma tq_loop_lemma q1 : forall q2 u ran,
    length q1 <= u ->
    exists done puts rest,
      q1 = done ++ rest /\
      ( (rest = [] /\ executes behave ran done puts /\
         tq_loop behave (length q1) (Tq (q1 ++ q2) u ran)
           = (Tq (q2 ++ puts) (u - length done + length puts) (ran ++ done), None))
      \/ (exists t rest' p, rest = t :: rest' /\ executes behave ran done puts /\
            behave (ran ++ done) t = (p, true) /\
            tq_loop behave (length q1) (Tq (q1 ++ q2) u ran)
            = (Tq (rest' ++ q2 ++ puts ++ p) (u - length done + length puts + length p) (ran ++ done ++ [t]),
               Some HandlerError)) ).
  Proof.
    induction q1 as [|t q1 IH]; intros q2 u ran Hu.
    - exists [], [], []. split; [reflexivity|]. left. simpl. repeat split; [constructor|].
      rewrite !app_nil_r. f_equal. f_equal. lia.
    - simpl length in *. cbn [tq_loop tq_queue app tq_ran tq_unfinished].
      destruct (behave ran t) as [p [|]] eqn:Hb; unfold tq_put; cbn [tq_queue tq_unfinished tq_ran].
      + exists [], [], (t :: q1). split; [reflexivity|]. right. exists t, q1, p.
        split; [reflexivity|]. split; [constructor|]. rewrite app_nil_r. split; [exact Hb|].
        cbn [app length]. rewrite <- app_assoc. f_equal. f_equal. lia.
      + rewrite <- app_assoc.
        destruct (IH (q2 ++ p) (u + length p - 1) (ran ++ [t])) as (done & puts & rest & E & Hcase); [lia|].
        exists (t :: done), (p ++ puts), rest. split; [rewrite E; reflexivity|].
        destruct Hcase as [(Hr & Hex & El)|(t' & rest' & p' & Hr & Hex & Hb' & El)].
        * left. split; [exact Hr|]. split; [econstructor; eassumption|].
          rewrite El. rewrite <- !app_assoc. f_equal. simpl. rewrite app_length. f_equal.
          assert (length done <= u - 1).
          { apply (f_equal (@length _)) in E. rewrite app_length in E. lia. }
          lia.
        * right. exists t', rest', p'. split; [exact Hr|]. split; [econstructor; eassumption|].
          split; [rewrite <- app_assoc in Hb'; exact Hb'|].
          rewrite El. rewrite <- !app_assoc. f_equal. simpl. rewrite app_length. f_equal.
          assert (length done <= u - 1).
          { apply (f_equal (@length _)) in E. rewrite app_length in E. lia. }
          lia.
  Qed.

  Lemma tq_perform_lemma s :
    length (tq_queue s) <= tq_unfinished s ->
    (exists puts, executes behave (tq_ran s) (tq_queue s) puts /\
       tq_perform behave s = (Tq puts (tq_unfinished s - length (tq_queue s) + length puts)
                                 (tq_ran s ++ tq_queue s), None)) \/
    (exists done t rest puts p, tq_queue s = done ++ t :: rest /\ executes behave (tq_ran s) done puts /\
       behave (tq_ran s ++ done) t = (p, true) /\
       tq_perform behave s = (Tq (rest ++ puts ++ p) (tq_unfinished s - length done + length puts + length p)
                                 (tq_ran s ++ done ++ [t]), Some HandlerError)).
  Proof.
    intros H. destruct s as [q u ran]. simpl in *.
    destruct (tq_loop_lemma q [] u ran H) as (done & puts & rest & E & [(Hr & Hex & El)|(t & rest' & p & Hr & Hex & Hb & El)]).
    - left. subst rest. rewrite app_nil_r in E. subst done. exists puts. split; [exact Hex|].
      unfold tq_perform. simpl. rewrite app_nil_r in El. rewrite El. reflexivity.
    - right. exists done, t, rest', puts, p. subst rest. split; [exact E|]. split; [exact Hex|]. split; [exact Hb|].
      unfold tq_perform. simpl. rewrite app_nil_r in El. rewrite El. reflexivity.
  Qed.

  Lemma tq_step_count s o n :
    tq_unfinished s = length (tq_queue s) + n ->
    tq_unfinished (fst (tq_step behave s o)) = length (tq_queue (fst (tq_step behave s o))) + (is_raise (snd (tq_step behave s o)) + n).
  Proof.
    intros H. destruct o; simpl.
    - rewrite app_length. simpl. lia.
    - destruct (tq_perform_lemma s) as [(puts & Hex & E)|(dn & t & rest & puts & p & Eq & Hex & Hb & E)]; [lia| |].
      + rewrite E. simpl. lia.
      + rewrite E. simpl. rewrite H, Eq, !app_length. simpl. lia.
    - lia.
  Qed.

  Lemma tq_run_count h s n :
    tq_unfinished s = length (tq_queue s) + n ->
    tq_unfinished (fst (tq_run behave s h)) = length (tq_queue (fst (tq_run behave s h))) + (snd (tq_run behave s h) + n).
  Proof.
    revert s n. induction h as [|o h IH]; intros s n H; simpl; [exact H|].
    pose proof (tq_step_count s o n H) as Hs.
    destruct (tq_step behave s o) as [s1 e]. simpl in Hs.
    specialize (IH s1 (is_raise e + n) Hs). destruct (tq_run behave s1 h) as [s2 m]. simpl in *. lia.
  Qed.

  Lemma tq_unfinished_lemma h :
    tq_unfinished (fst (tq_run behave tq_new h)) = length (tq_queue (fst (tq_run behave tq_new h))) + snd (tq_run behave tq_new h).
  Proof. rewrite (tq_run_count h tq_new 0); [lia|reflexivity]. Qed.
End Q.

Section S.
  Context {K T : Type} (K_dec : forall a b : K, {a = b} + {a <> b}).
  Variable behave : list (K * T) -> T -> list (tsact K T) * bool.

  Lemma latest_from_app a b k (cur : option T) :
    latest_from K_dec (a ++ b) k cur = latest_from K_dec b k (latest_from K_dec a k cur).
  Proof. revert cur. induction a as [|[k' t|k'] a IH]; intros cur; simpl; auto. Qed.

  Lemma ts_acts_lemma (acts : list (tsact K T)) (d : list (K * T)) ran :
    NoDup (map fst d) ->
    let s' := fold_left (ts_act K_dec) acts (Ts d ran) in
    NoDup (map fst (ts_dict s')) /\ ts_ran s' = ran /\
    forall k, dict_get K_dec k (ts_dict s') = latest_from K_dec acts k (dict_get K_dec k d).
  Proof.
    revert d. induction acts as [|a acts IH]; intros d Hd; simpl.
    - auto.
    - destruct a as [k' t|k']; simpl.
      + destruct (IH (dict_set K_dec k' t d)) as (H1 & H2 & H3); [apply dict_set_nodup; exact Hd|].
        split; [exact H1|]. split; [exact H2|]. intros k. rewrite H3, dict_get_set. reflexivity.
      + destruct (IH (dict_del K_dec k' d)) as (H1 & H2 & H3); [apply dict_del_nodup; exact Hd|].
        split; [exact H1|]. split; [exact H2|]. intros k. rewrite H3, dict_get_del by exact Hd. reflexivity.
  Qed.


  Lemma ts_loop_lemma l : forall s acts0,
    reached K_dec s acts0 ->
    exists done rest acts, l = done ++ rest /\
      ((rest = [] /\ set_executes behave (ts_ran s) done acts /\
       exists s', ts_loop K_dec behave l s = (s', None) /\ ts_ran s' = ts_ran s ++ done /\ reached K_dec s' (acts0 ++ acts))
       \/
       exists k t rest' p s', rest = (k, t) :: rest' /\ set_executes behave (ts_ran s) done acts /\
         behave (ts_ran s ++ done) t = (p, true) /\
         ts_loop K_dec behave l s = (s', Some HandlerError) /\
         ts_ran s' = ts_ran s ++ done ++ [(k, t)] /\ reached K_dec s' (acts0 ++ acts ++ p)).
  Proof.
    induction l as [|[k t] l IH]; intros s acts0 Hr.
    - exists [], [], []. split; [reflexivity|]. left. split; [reflexivity|]. split; [constructor|].
      exists s. simpl. rewrite !app_nil_r. auto.
    - cbn [ts_loop]. destruct (behave (ts_ran s) t) as [p raises] eqn:Hb.
      destruct (ts_acts_lemma p (ts_dict s) (ts_ran s ++ [(k, t)])) as (H1 & H2 & H3); [apply Hr|].
      set (s1 := fold_left (ts_act K_dec) p (Ts (ts_dict s) (ts_ran s ++ [(k, t)]))) in *.
      assert (Hr1 : reached K_dec s1 (acts0 ++ p)).
      { split; [exact H1|]. intros j. rewrite H3. destruct Hr as [_ Hr]. rewrite Hr.
        unfold latest. rewrite latest_from_app. reflexivity. }
      destruct raises.
      + exists [], ((k, t) :: l), []. split; [reflexivity|]. right. exists k, t, l, p, s1.
        split; [reflexivity|]. split; [constructor|]. rewrite app_nil_r. split; [exact Hb|].
        split; [reflexivity|]. split; [exact H2|]. exact Hr1.
      + destruct (IH s1 (acts0 ++ p) Hr1) as (done & rest & acts & E & Hc).
        exists ((k, t) :: done), rest, (p ++ acts). split; [rewrite E; reflexivity|].
        rewrite H2 in Hc.
        destruct Hc as [(Er & Hex & s' & El & Hran & Hr')|(k' & t' & rest' & p' & s' & Er & Hex & Hb' & El & Hran & Hr')].
        * left. split; [exact Er|]. split; [econstructor; eassumption|]. exists s'. split; [exact El|].
          split; [rewrite Hran, <- app_assoc; reflexivity|]. rewrite app_assoc. exact Hr'.
        * right. exists k', t', rest', p', s'. split; [exact Er|]. split; [econstructor; eassumption|].
          split; [rewrite <- app_assoc in Hb'; exact Hb'|]. split; [exact El|].
          split; [rewrite Hran, <- !app_assoc; reflexivity|].
          rewrite <- app_assoc in Hr'. rewrite <- app_assoc. exact Hr'.
  Qed.

  Lemma ts_perform_lemma s acts :
    reached K_dec s acts ->
    NoDup (map fst (ts_dict s)) /\ (forall k t, In (k, t) (ts_dict s) <-> latest K_dec acts k = Some t) /\
    ((exists acts' s', set_executes behave (ts_ran s) (ts_dict s) acts' /\
        ts_perform K_dec behave s = (s', None) /\ ts_ran s' = ts_ran s ++ ts_dict s /\ reached K_dec s' acts') \/
     (exists done k t rest acts' p s', ts_dict s = done ++ (k, t) :: rest /\
        set_executes behave (ts_ran s) done acts' /\ behave (ts_ran s ++ done) t = (p, true) /\
        ts_perform K_dec behave s = (s', Some HandlerError) /\
        ts_ran s' = ts_ran s ++ done ++ [(k, t)] /\ reached K_dec s' (acts' ++ p))).
  Proof.
    intros [Hnd Hg]. split; [exact Hnd|]. split.
    { intros k t. rewrite <- Hg. split; [apply dict_in_get; exact Hnd|apply dict_get_in]. }
    unfold ts_perform.
    destruct (ts_loop_lemma (ts_dict s) (Ts [] (ts_ran s)) []) as (done & rest & acts' & E & Hc).
    { split; [constructor|reflexivity]. }
    simpl in Hc. destruct Hc as [(Er & Hex & s' & El & Hran & Hr')|(k & t & rest' & p & s' & Er & Hex & Hb & El & Hran & Hr')].
    - left. subst rest. rewrite app_nil_r in E. subst done. exists acts', s'. auto.
    - right. subst rest. exists done, k, t, rest', acts', p, s'. auto 10.
  Qed.

  Lemma reached_new : reached K_dec (@ts_new K T) [].
  Proof. split; [constructor|reflexivity]. Qed.

  Lemma reached_act (s : @ts K T) acts a : reached K_dec s acts -> reached K_dec (ts_act K_dec s a) (acts ++ [a]).
  Proof.
    intros [Hnd Hg]. destruct (ts_acts_lemma [a] (ts_dict s) (ts_ran s) Hnd) as (H1 & _ & H3).
    destruct s as [d ran]. simpl in *. split.
    - exact H1.
    - intros k. rewrite H3, Hg. unfold latest. rewrite latest_from_app. reflexivity.
  Qed.

  (** every reachable state is reached by some sequence of calls since the last perform *)
  Lemma ts_reachable_lemma h :
    exists acts, reached K_dec (fold_left (fun s o => fst (ts_step K_dec behave s o)) h ts_new) acts.
  Proof.
    induction h as [|o h IH] using rev_ind; [exists []; apply reached_new|].
    destruct IH as [acts IH]. rewrite fold_left_app. simpl.
    set (s := fold_left _ h ts_new) in *. destruct o as [a|]; simpl.
    - exists (acts ++ [a]). apply reached_act. exact IH.
    - destruct (ts_perform_lemma s acts IH) as (_ & _ & [(a' & s' & _ & E & _ & Hr)|(dn & k & t & rest & a' & p & s' & _ & _ & _ & E & _ & Hr)]);
        rewrite E; simpl; eauto.
  Qed.
End S.
