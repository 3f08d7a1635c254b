(** Property C100: observers that change the observed object again from within a notification. *)
From Coq Require Import List ZArith Bool Arith Lia Permutation.
From Verif Require Import PyBase ListModel_Model ListModel_Spec Reent_Model Reent_Spec Reent_Proofs Reent_Proofs2.
From Verif Require Filtered_Model PropModel_Model.
Import ListNotations.
Open Scope nat_scope.

Section Any.
  Context {St Op Note : Type} (step : St -> Op -> option (St * Note)) (n : nat).

  (** every listener is told every edit exactly once *)
  Theorem reent_once ts s j : j < n -> let log := snd (r_runs step n ts s) in Permutation (edits log) (told j log).
  Proof. apply runs_once. Qed.

  (** the last call of every listener comes after the last edit: one who looks at the object then is right *)
  Theorem reent_last ts s j : j < n -> let w := r_runs step n ts s in edits (snd w) <> [] ->
    exists a x b, snd w = a ++ ECall j x (fst w) :: b /\ forall y s', ~ In (ECall j y s') b.
  Proof.
    intros J w N. destruct (runs_last step n j ts s J) as [(E & _)|(a & x & b & E & M)]; fold w in E; [rewrite E in N; contradiction|].
    exists a, x, b. split; [exact E|]. intros y s' H. apply M. exists y, s'. assumption.
  Qed.

  (** a listener with only quiet ones before it is told the edits in the order made, each when it is the last edit made *)
  Theorem reent_order ts s j : j < n -> Forall (quiet j) ts -> let log := snd (r_runs step n ts s) in
    told j log = edits log /\ forall a x s1 b, log = a ++ ECall j x s1 :: b -> told j a ++ [x] = edits a.
  Proof.
    intros J Q log. pose proof (runs_phase step n j ts s J Q) as P. fold log in P. split.
    - eapply (phase_tracks step (fun _ _ _ => True)) in P; [apply P|auto].
    - intros a x s1 b E. eapply (phase_split step (fun _ _ _ => True)) in P; [apply P|auto|eauto].
  Qed.
End Any.
Print Assumptions reent_once.
Print Assumptions reent_last.
Print Assumptions reent_order.

(** so, for a list, following the notifications it has the items at each call and at the end *)
Theorem reent_list_follows {A} n (ts : list (tree (led A))) l j : j < n -> Forall (quiet j) ts ->
  let w := r_runs list_step n ts l in
  follows l (told j (snd w)) (fst w) /\ forall a x l1 b, snd w = a ++ ECall j x l1 :: b -> follows l (told j a ++ [x]) l1.
Proof.
  intros J Q w. pose proof (runs_phase list_step n j ts l J Q) as P. fold w in P. split.
  - apply tracks_follows. eapply (phase_tracks list_step list_apply) in P; [apply P|apply list_apply_ok].
  - intros a x l1 b E. apply tracks_follows. eapply (phase_split list_step list_apply) in P; [apply P|apply list_apply_ok|eauto].
Qed.
Print Assumptions reent_list_follows.

(** ... and a filtered list is in the state it has after the same edits made one after the other (C11, C12) *)
Theorem reent_filtered {A C K} A_dec lt n (ts : list (tree (led A))) l j (s : Filtered_Model.fstate A C K) : j < n -> Forall (quiet j) ts ->
  Filtered_Model.fs_cont s = Some l -> Filtered_Model.fs_conn s = true ->
  let w := r_runs list_step n ts l in
  f_feed A_dec lt j (snd w) s = fst (Filtered_Model.f_run A_dec lt s (map as_op (edits (snd w)))) /\
  Filtered_Model.fs_cont (f_feed A_dec lt j (snd w) s) = Some (fst w).
Proof.
  intros J Q Hc Hn w. pose proof (runs_phase list_step n j ts l J Q) as P. fold w in P.
  destruct (phase_filtered A_dec lt j _ _ _ P s Hc Hn) as (E & Hc' & _).
  eapply (phase_tracks list_step (fun _ _ _ => True)) in P; [|auto]. destruct P as (_ & P). rewrite <- P. auto.
Qed.
Print Assumptions reent_filtered.

(** listener 1 removes 7 whenever it is inserted and puts 70 and 71 there instead; listener 0 follows the list *)
Definition rn_trees : list (tree (led nat)) :=
  [Node (EdInsert 0 5) []; Node (EdInsert 0 7) [[]; [Node (EdRemove 0) []; Node (EdInsert 0 70) [[]; [Node (EdInsert 1 71) []]]]]; Node (EdRemove 2) []; Node (EdRemove 9) []].
Lemma rn_quiet : Forall (quiet 1) rn_trees.
Proof.
  assert (L : forall o, quiet 1 (Node (o : led nat) [])) by (intros o; constructor; [intros [|k] r _ H; discriminate|intros r t []]).
  assert (M : forall o r, Forall (quiet 1) r -> quiet 1 (Node (o : led nat) [[]; r])).
  { intros o r F. constructor; [intros [|k] r0 K H; [injection H as <-; reflexivity|lia]|]. rewrite Forall_forall in F. intros r0 t [<-|[<-|[]]] T; [destruct T|auto]. }
  unfold rn_trees. repeat first [apply Forall_nil | apply Forall_cons | apply L | apply M].
Qed.
Example reent_ex : let w := r_runs list_step 3 rn_trees [] in
  fst w = [70; 71] /\ edits (snd w) = [LnIns 0 5; LnIns 0 7; LnRem 0 7; LnIns 0 70; LnIns 1 71; LnRem 2 5] /\
  told 1 (snd w) = edits (snd w) /\ told 2 (snd w) = [LnIns 0 5; LnRem 0 7; LnIns 1 71; LnIns 0 70; LnIns 0 7; LnRem 2 5].
Proof. vm_compute. auto. Qed.

(** listeners behind one that edits follow in vain *)
Theorem reent_list_refuted : exists ts : list (tree (led nat)), let w := r_runs list_step 2 ts [] in
  Forall (quiet 0) ts /\ fst w = [2; 1] /\ follows [] (told 1 (snd w)) [1; 2].
Proof. exists [Node (EdInsert 0 1) [[Node (EdInsert 0 2) []]]]. split; [apply quiet_0_all|]. vm_compute. auto. Qed.
Print Assumptions reent_list_refuted.

(** ... so does a filtered list: everything passes its filter, and it shows the wrong order, or an item removed *)
Definition rn_filtered (ts : list (tree (led nat))) : list nat * list nat :=
  let s0 := fst (fst (Filtered_Model.f_step Nat.eq_dec Nat.ltb (Filtered_Model.f_new (fun x : nat => x)) (Filtered_Model.FSetContainer (Some [])))) in
  let w := r_runs list_step 2 ts [] in (fst w, Filtered_Model.fs_items (f_feed Nat.eq_dec Nat.ltb 1 (snd w) s0)).
Theorem reent_filtered_refuted : rn_filtered [Node (EdInsert 0 1) [[Node (EdInsert 0 2) []]]] = ([2; 1], [1; 2]) /\
  rn_filtered [Node (EdInsert 0 1) [[Node (EdRemove 0) []]]] = ([], [1]).
Proof. vm_compute. auto. Qed.
Print Assumptions reent_filtered_refuted.

(** a PropertyModel: on_value_changed, if no listener sets the value again, is given the value last set at the end *)
Theorem reent_property_callback {V} (cmp : V -> V -> bool) n (ts : list (tree (option V))) v : Forall (quiet n) ts ->
  let w := r_runs (prop_step cmp) (S n) ts v in fst w = last (told n (snd w)) v.
Proof.
  intros Q w. pose proof (runs_phase (prop_step cmp) (S n) n ts v ltac:(lia) Q) as P. fold w in P.
  eapply (phase_tracks (prop_step cmp) (fun _ x s => s = x)) in P.
  - destruct P as (P & _). revert P. generalize (told n (snd w)), (fst w). clear. intros l v'. induction 1 as [|s x s1 l s2 -> _ IH]; [reflexivity|].
    rewrite IH. destruct l as [|a l]; [reflexivity|]. change (last (x :: a :: l) s) with (last (a :: l) s).
    clear. revert a. induction l as [|b l IH]; intros a; [reflexivity|]. exact (IH b).
  - unfold prop_step. intros s o s1 x E. destruct (PropModel_Model.not_equal cmp s o); [injection E as <- <-; reflexivity|discriminate].
Qed.
Print Assumptions reent_property_callback.
(** ... else possibly an older one *)
Theorem reent_property_callback_refuted : exists ts, let w := r_runs (prop_step Nat.eqb) 2 ts (Some 0) in
  fst w = Some 2 /\ told 1 (snd w) = [Some 2; Some 1].
Proof. exists [Node (Some 1) [[Node (Some 2) []]]]. vm_compute. auto. Qed.
Print Assumptions reent_property_callback_refuted.
Example reent_property_ex : let w := r_runs (prop_step Nat.eqb) 3 [Node (Some 1) [[]; [Node (Some 2) []]]; Node (Some 2) []] (Some 0) in
  fst w = Some 2 /\ snd w = [EEdit (Some 1) (Some 1); ECall 0 (Some 1) (Some 1); ECall 1 (Some 1) (Some 1);
    EEdit (Some 2) (Some 2); ECall 0 (Some 2) (Some 2); ECall 1 (Some 2) (Some 2); ECall 2 (Some 2) (Some 2); ECall 2 (Some 1) (Some 2)].
Proof. vm_compute. auto. Qed.
