(** Steps of the net, and what follows for what a listener is told. *)
From stdpp Require Import gmap sets list.
From Verif Require Import PyBase Registry_Model Registry_Spec Registry_Proofs RegNet_Model RegNet_Spec.

Section Proofs.
  Context {C T : Type} `{Countable C} `{Countable T}.
  Variable order : gset C -> list C.
  Notation note := (@rnote C T _ _).
  Notation netT := (net C T).
  Notation registryT := (@registry C T _ _ _ _).

  (** one use of the registry, classified *)
  Lemma op_cases (r : registryT) (o : rop C T) :
    views_agree r -> set_args o ->
    (exists e, reg_step r o = (r, Some e)) \/
    (exists r' n, reg_step r o = (r', None) /\ views_agree r' /\ r_notes r' = r_notes r ++ [n] /\
       (forall c t, about c t n -> touches c t o /\ (listed r' c t <-> is_reg n = true) /\ (listed r c t <-> is_reg n = false)) /\
       (forall c t, ~ about c t n -> (touches c t o -> named o) -> (listed r' c t <-> listed r c t)) /\
       (named o -> forall c t, touches c t o -> about c t n)).
  Proof.
    intros Hv Ha. destruct o as [c ts|c [ts|]]; simpl in Ha |- *.
    - destruct (decide (Exists (fun t => c ∈ components_by_type r t) ts)) as [He|He].
      + left. exists AssertionError. apply Exists_exists in He as (t & Ht & Hc).
        apply register_fail. exists t. split; done.
      + right. assert (Hn : forall t, t ∈ ts -> ~ listed r c t).
        { intros t Ht Hl. apply He, Exists_exists. exists t. split; done. }
        destruct (register_ok c ts r Hn) as (r' & E & Hl & Hr & Hno). exists r', (NRegistered c (list_to_set ts)).
        split; [exact E|]. split; [intros d t; rewrite Hl, Hr, (Hv d t); tauto|]. split; [exact Hno|]. simpl.
        split; [|split].
        * intros d t [<- Ht]. rewrite elem_of_list_to_set in Ht. split; [done|]. split.
          -- rewrite Hl. split; [done|]. intros _. right. done.
          -- split; [intros Hx; destruct (Hn t Ht Hx)|discriminate].
        * intros d t Hno' _. rewrite Hl. split; [|tauto]. intros [Hx|[-> Ht]]; [done|].
          exfalso. apply Hno'. split; [done|]. rewrite elem_of_list_to_set. done.
        * intros _ d t [-> Ht]. split; [done|]. rewrite elem_of_list_to_set. done.
    - destruct (decide (Forall (fun t => c ∈ components_by_type r t) ts)) as [Hf|Hf].
      + rewrite Forall_forall in Hf.
        destruct (r_types r !! c) as [X|] eqn:EX.
        * right. destruct (unregister_some_ok c ts r Hv Ha Hf) as (r' & E & Hl & Hr & Hno); [right; rewrite EX; eexists; done|].
          exists r', (NUnregistered c (list_to_set ts)).
          split; [exact E|]. split; [intros d t; rewrite Hl, Hr, (Hv d t); tauto|]. split; [exact Hno|]. simpl.
          split; [|split].
          -- intros d t [<- Ht]. rewrite elem_of_list_to_set in Ht. split; [done|]. split.
             ++ rewrite Hl. split; [intros [_ Hx]; exfalso; apply Hx; done|discriminate].
             ++ split; [done|]. intros _. apply Hf, Ht.
          -- intros d t Hno' _. rewrite Hl. split; [tauto|]. intros Hx. split; [done|]. intros [-> Ht].
             apply Hno'. split; [done|]. rewrite elem_of_list_to_set. done.
          -- intros _ d t [-> Ht]. split; [done|]. rewrite elem_of_list_to_set. done.
        * left. destruct ts as [|t ts].
          -- exists KeyError. apply unregister_unknown_empty, EX.
          -- exfalso. assert (Hx : listed r c t) by (apply Hf; constructor).
             apply Hv in Hx as (X & Hx & _). congruence.
      + left. exists AssertionError. apply not_Forall_Exists in Hf; [|intros ?; apply _].
        apply Exists_exists in Hf as (t & Ht & Hc). apply unregister_lacking. exists t. split; done.
    - destruct (r_types r !! c) as [X|] eqn:EX.
      + right. destruct (unregister_all_ok c r Hv) as (r' & E & Hl & Hr & Hno); [rewrite EX; eexists; done|].
        exists r', (NUnregistered c ∅). split; [exact E|].
        split; [intros d t; rewrite Hl, Hr, (Hv d t); tauto|]. split; [exact Hno|]. simpl.
        split; [intros d t [_ Ht]; set_solver|]. split; [|tauto].
        intros d t _ Hnm. rewrite Hl. split; [tauto|]. intros Hx. split; [done|]. intros ->. apply Hnm. done.
      + left. exists KeyError. apply unregister_unknown, EX.
  Qed.

  Lemma stack_split {A} (L : list (list A)) k fs fs' :
    L !! k = Some fs ->
    exists P Q, concat L = P ++ fs ++ Q /\ concat (<[k := fs']> L) = P ++ fs' ++ Q.
  Proof.
    intros E. exists (concat (take k L)), (concat (drop (S k) L)).
    split.
    - rewrite <- (take_drop_middle L k fs E) at 1. rewrite concat_app. simpl. done.
    - rewrite insert_take_drop by (eapply lookup_lt_Some; done). rewrite concat_app. simpl. done.
  Qed.

  Definition frames (s : netT) : list (frame C T) := concat (n_stacks s).

  (** every step, classified by what it does to the frames *)
  Inductive does (s : netT) : nact C T -> netT -> Prop :=
  | does_nothing a : does s a s
  | does_fail k o e : does s (ADo k o) (Net (n_reg s) (n_ears s) (n_stacks s) (n_heard s) (n_raised s ++ [Raised e]))
  | does_op k o r' n st P Q :
      reg_step (n_reg s) o = (r', None) -> r_notes r' = r_notes (n_reg s) ++ [n] -> views_agree r' ->
      (forall c t, about c t n -> touches c t o /\ (listed r' c t <-> is_reg n = true) /\ (listed (n_reg s) c t <-> is_reg n = false)) ->
      (forall c t, ~ about c t n -> (touches c t o -> named o) -> (listed r' c t <-> listed (n_reg s) c t)) ->
      (named o -> forall c t, touches c t o -> about c t n) ->
      frames s = P ++ Q -> concat st = P ++ calls (n_ears s) n ++ Q -> length st = length (n_stacks s) ->
      does s (ADo k o) (Net r' (n_ears s) st (n_heard s) (n_raised s))
  | does_loop k t st P Q :
      let X := components_by_type (n_reg s) t in
      frames s = P ++ Q -> concat st = P ++ FLoop t (order X) (size X) :: Q -> length st = length (n_stacks s) ->
      does s (AExisting k t) (Net (n_reg s) (n_ears s) st (n_heard s) (n_raised s))
  | does_call k l n st P Q h :
      frames s = P ++ FCall l n :: Q -> concat st = P ++ Q -> length st = length (n_stacks s) ->
      (l ∈ n_ears s /\ h = [(l, n)] \/ l ∉ n_ears s /\ h = []) ->
      does s (AGo k) (Net (n_reg s) (n_ears s) st (n_heard s ++ h) (n_raised s))
  | does_next k t c todo n0 st P Q :
      frames s = P ++ FLoop t (c :: todo) n0 :: Q ->
      concat st = P ++ (calls (n_ears s) (NRegistered c {[t]}) ++ [FLoop t todo n0]) ++ Q -> length st = length (n_stacks s) ->
      does s (AGo k) (Net (Reg (r_types (n_reg s)) (r_by_type (n_reg s)) (r_notes (n_reg s) ++ [NRegistered c {[t]}]))
                        (n_ears s) st (n_heard s) (n_raised s))
  | does_end k t n0 st P Q :
      frames s = P ++ FLoop t [] n0 :: Q -> concat st = P ++ Q -> length st = length (n_stacks s) ->
      does s (AGo k) (Net (n_reg s) (n_ears s) st (n_heard s) (n_raised s))
  | does_break k t todo n0 st P Q :
      frames s = P ++ FLoop t todo n0 :: Q -> concat st = P ++ Q -> length st = length (n_stacks s) ->
      does s (AGo k) (Net (n_reg s) (n_ears s) st (n_heard s) (n_raised s ++ [RuntimeError]))
  | does_listen l : does s (AListen l) (Net (n_reg s) (n_ears s ++ [l]) (n_stacks s) (n_heard s) (n_raised s))
  | does_close l : does s (AClose l) (Net (n_reg s) (filter (fun x => x ≠ l) (n_ears s)) (n_stacks s) (n_heard s) (n_raised s)).

  Lemma step_does (s : netT) a : views_agree (n_reg s) -> proper a -> does s a (nstep order s a).
  Proof.
    intros V Pr. destruct a as [k o|k t|k|l|l]; simpl in Pr |- *.
    - destruct (n_stacks s !! k) as [fs|] eqn:E; [|constructor].
      destruct (op_cases (n_reg s) o V Pr) as [(e & Ee)|(r' & n & Eo & V' & Hn & H1' & H2 & H3)].
      + rewrite Ee. unfold new_notes, with_stack. simpl. rewrite drop_all. simpl.
        rewrite list_insert_id by exact E. apply does_fail.
      + rewrite Eo. unfold new_notes, with_stack. simpl. rewrite Hn, drop_app. simpl. rewrite !app_nil_r.
        destruct (stack_split (n_stacks s) k fs (calls (n_ears s) n ++ fs) E) as (P & Q & E1 & E2).
        eapply does_op with (n := n) (P := P) (Q := fs ++ Q); eauto.
        * rewrite E2, <- app_assoc. done.
        * apply insert_length.
    - destruct (n_stacks s !! k) as [fs|] eqn:E; [|constructor].
      destruct (r_by_type (n_reg s) !! t); [|constructor].
      destruct (stack_split (n_stacks s) k fs (FLoop t (order (components_by_type (n_reg s) t)) (size (components_by_type (n_reg s) t)) :: fs) E) as (P & Q & E1 & E2).
      eapply does_loop with (P := P) (Q := fs ++ Q); [exact E1|rewrite E2; done|apply insert_length].
    - unfold go. destruct (n_stacks s !! k) as [[|[l n|t todo n0] fs]|] eqn:E; try constructor.
      + unfold with_stack. simpl. destruct (stack_split (n_stacks s) k _ fs E) as (P & Q & E1 & E2).
        destruct (decide (l ∈ n_ears s)) as [I|I].
        * eapply does_call with (l := l) (n := n) (P := P) (Q := fs ++ Q); [exact E1|exact E2|apply insert_length|]. left. done.
        * rewrite <- (app_nil_r (n_heard s)).
          eapply does_call with (l := l) (n := n) (P := P) (Q := fs ++ Q); [exact E1|exact E2|apply insert_length|]. right. done.
      + destruct (decide (size (components_by_type (n_reg s) t) = n0)) as [D|D].
        * destruct todo as [|c todo].
          -- destruct (stack_split (n_stacks s) k _ fs E) as (P & Q & E1 & E2).
             eapply does_end with (P := P) (Q := fs ++ Q); [exact E1|exact E2|apply insert_length].
          -- unfold with_stack. simpl.
             destruct (stack_split (n_stacks s) k _ (calls (n_ears s) (NRegistered c {[t]}) ++ FLoop t todo n0 :: fs) E) as (P & Q & E1 & E2).
             eapply does_next with (P := P) (Q := fs ++ Q); [exact E1|rewrite E2, <- !app_assoc; done|apply insert_length].
        * unfold with_stack. simpl. destruct (stack_split (n_stacks s) k _ fs E) as (P & Q & E1 & E2).
          eapply does_break with (P := P) (Q := fs ++ Q); [exact E1|exact E2|apply insert_length].
    - apply does_listen.
    - apply does_close.
  Qed.

  Lemma views_step (s : netT) a : views_agree (n_reg s) -> proper a -> views_agree (n_reg (nstep order s a)).
  Proof.
    intros V Pr. destruct (step_does s a V Pr); simpl; try done.
  Qed.
  Lemma views_run (l : list (nact C T)) : forall s : netT, views_agree (n_reg s) -> Forall proper l -> views_agree (n_reg (nrun order l s)).
  Proof.
    induction l as [|a l IH]; intros s V F; [done|]. apply Forall_cons in F as [F1 F2].
    apply (IH (nstep order s a)); [apply views_step; done|done].
  Qed.
  Lemma views_new n : views_agree (n_reg (net_new n : netT)).
  Proof.
    intros c t. split.
    - unfold listed, components_by_type. simpl. rewrite lookup_empty. simpl. set_solver.
    - intros (X & E & _). simpl in E. rewrite lookup_empty in E. discriminate.
  Qed.
  Lemma views_reached (s : netT) : reached order s -> views_agree (n_reg s).
  Proof. intros (n & l & F & ->). apply views_run; [apply views_new|done]. Qed.
End Proofs.
