(** Property C121: filtered lists sorted by keys that raise or cannot be compared. *)
From Coq Require Import List ZArith Bool Arith Permutation Lia.
From Verif Require Import PyBase Filtered_Model Filtered_Spec Filtered_Proofs Filtered_Proofs2.
From Verif Require Import SortFail_Model SortFail_Spec SortFail_Proofs SortFail_Proofs2 SortFail_Proofs3.
Import ListNotations.

Section Props.
  Context {A K : Type} (A_dec : forall a b : A, {a = b} + {a <> b}) (lt : K -> K -> bool) (cls : K -> nat).
  Hypothesis lt_swo : strict_weak_order lt.
  Notation sstate := (sstate A K).
  Notation sop := (sop A K).
  Notation s_step := (s_step A_dec lt cls).
  Notation s_run := (s_run A_dec lt cls).
  Notation s_new := (s_new (A := A) (K := K)).
  Definition after (s : sstate) (o : sop) : sstate := fst (fst (s_step s o)).
  Definition state_of (h : list sop) (f : A -> bool) (b : bool) (key : A -> res K) : sstate := fst (fst (s_run (s_new f b key) h)).
  Definition properly (f : A -> bool) (b : bool) (key : A -> res K) (h : list sop) : Prop := throughout after proper (s_new f b key) h.

  (** whatever the keys do, the notifications rebuild the items *)
  Theorem sortfail_observer f b key h : let '(s, t, _) := s_run (s_new f b key) h in f_follows [] t (s_items s).
  Proof. destruct (s_run (s_new f b key) h) as [[s t] es] eqn:E. apply (run_follows A_dec lt cls) in E. exact E. Qed.

  Lemma state_wf f b key h : properly f b key h -> wf (state_of h f b key).
  Proof.
    intros H. apply (run_inv A_dec lt cls wf proper); [|apply new_wf|exact H]. intros s o W P. unfold next.
    destruct (s_step s o) as [[s' t] e] eqn:E. exact (step_wf A_dec lt cls lt_swo _ _ _ _ _ W P E).
  Qed.
  (** the copy of the container stays right, and the items are items of it, each once *)
  Theorem sortfail_master f b key h : properly f b key h -> let s := state_of h f b key in
    s_master s = s_cont s /\ NoDup (s_items s) /\ (forall x, In x (s_items s) -> In x (s_cont s)).
  Proof. intros H. destruct (state_wf f b key h H) as (M & _ & N & I & _). auto. Qed.

  (** inserting into the container never raises; the item is shown only if it is accepted and its key can be had, and a list
      whose keys agree shows it exactly if its key agrees with theirs; the selections are told unless it is accepted and not shown *)
  Theorem sortfail_insert f b key h i x : properly f b key h -> let s := state_of h f b key in ~ In x (s_cont s) ->
    let '(s', t, e) := s_step s (SInsert i x) in
    e = None /\ s_cont s' = py_insert i x (s_cont s) /\ s_master s' = s_cont s' /\
    (forall y, y <> x -> In y (s_items s') <-> In y (s_items s)) /\
    (In x (s_items s') -> s_filter s x = true /\ exists a, s_key s x = Ok a) /\
    (sortable cls (s_key s) (s_items s) -> in_order lt (s_rev s) (s_key s) (s_items s) ->
       (In x (s_items s') <-> s_filter s x = true /\ (exists a, s_key s x = Ok a) /\ forall y, In y (s_items s) -> agrees cls (s_key s) y x)) /\
    sel_ins t = if s_filter s x && negb (inb A_dec x (s_items s')) then [] else [i].
  Proof.
    intros H s Hx. pose proof (state_wf f b key h H) as W. fold s in W.
    destruct (insert_step A_dec lt cls s i x W Hx) as (s1 & t1 & e1 & E1 & E). rewrite E. pose proof W as (M & N & NI & I & L).
    assert (Hi : ~ In x (s_items s)) by (intros C; apply Hx, I, C).
    pose proof (inserted_in lt cls lt_swo (edited s (py_insert i x (s_cont s)) (x :: s_listen s) (s_items s)) x s1 t1 e1 NI Hi E1) as (I1 & I2 & I3 & I4 & I5 & I6 & I7).
    destruct (put_eta _ _ I1) as (C1 & M1 & _ & F1 & R1 & K1 & _). cbn [edited s_cont s_master s_items s_filter s_key s_rev] in *.
    split; [reflexivity|]. split; [exact C1|]. split; [congruence|]. split; [|split; [|split]].
    - intros y Hy. split; [|apply I3]. intros C. destruct (I4 y C); tauto.
    - intros C. destruct (I5 C) as (? & ? & _). auto.
    - intros S O. apply (proj2 (I7 (conj S O))).
    - assert (T1 : sel_ins t1 = []).
      { unfold inserted_item in E1. destruct (s_filter _ x); [|injection E1 as _ <- _; reflexivity].
        destruct (place_for _ _ _ _ _) as [k|k]; injection E1 as _ <- _; reflexivity. }
      destruct (in_dec A_dec x (s_items s1)) as [C|C].
      + destruct (I5 C) as (F & _ & -> & _). rewrite (proj2 (inb_spec A_dec x _) C). rewrite andb_false_r.
        unfold sel_ins. rewrite flat_map_app. fold (sel_ins t1). rewrite T1. reflexivity.
      + destruct (I6 C) as (_ & -> & Q). rewrite (proj2 (inb_false A_dec x _) C), andb_true_r.
        destruct (s_filter s x) eqn:F; destruct e1; try reflexivity; [discriminate (proj2 Q eq_refl)|discriminate (proj1 Q eq_refl)].
  Qed.

  (** as long as shown items change only to be hidden and the order only when it can be established, the shown keys can be
      compared and the items are in order *)
  Theorem sortfail_steady f b key h : properly f b key h -> throughout after (steady cls) (s_new f b key) h ->
    let s := state_of h f b key in sortable cls (s_key s) (s_items s) /\ in_order lt (s_rev s) (s_key s) (s_items s).
  Proof.
    intros H H2. refine (proj2 (run_inv A_dec lt cls (fun s => wf s /\ tidy lt cls s) (fun s o => proper s o /\ steady cls s o) _ h _ _ _)).
    - intros s o [W T] [P Q]. unfold next. destruct (s_step s o) as [[s' t] e] eqn:E.
      split; [exact (step_wf A_dec lt cls lt_swo _ _ _ _ _ W P E)|exact (step_tidy A_dec lt cls lt_swo _ _ _ _ _ W T P Q E)].
    - split; [apply new_wf|apply new_tidy].
    - unfold properly in H. revert H H2. generalize (s_new f b key). induction h as [|o h IH]; intros s; simpl; [auto|].
      intros [H1 H2] [H3 H4]. split; [auto|]. apply IH; assumption.
  Qed.

  (** setting the filter, the sort key or the direction works exactly if the whole container can be sorted, whatever the filter
      accepts; else it raises, keeps the new setting and the old items, and says no more than that the list was reset *)
  Theorem sortfail_set f b key h f2 b2 key2 o : properly f b key h -> let s := state_of h f b key in
    (o = SFilter f2 /\ b2 = s_rev s /\ key2 = s_key s) \/ (o = SReverse b2 /\ f2 = s_filter s /\ key2 = s_key s) \/
    (o = SKey key2 /\ f2 = s_filter s /\ b2 = s_rev s) ->
    let '(s', t, e) := s_step s o in
    (e = None <-> sortable cls key2 (s_cont s)) /\
    s_filter s' = f2 /\ s_rev s' = b2 /\ s_key s' = key2 /\ s_cont s' = s_cont s /\
    (e = None -> Permutation (s_items s') (filter f2 (s_cont s)) /\ in_order lt b2 key2 (s_items s')) /\
    (e <> None -> s_items s' = s_items s /\ t = [FReset]).
  Proof.
    intros H s Ho. pose proof (state_wf f b key h H) as W. fold s in W.
    assert (E : s_step s o = settle A_dec lt cls s f2 b2 key2).
    { destruct Ho as [(-> & -> & ->)|[(-> & -> & ->)|(-> & -> & ->)]]; reflexivity. }
    rewrite E. destruct (settle_spec A_dec lt cls lt_swo s f2 b2 key2 W) as [S1 S2].
    destruct (sortable_dec lt cls lt_swo key2 (s_cont s)) as [S|S].
    - destruct (S1 S) as (it & t & -> & P & O). cbn. intuition congruence.
    - destruct (S2 S) as (e & ->). cbn. intuition congruence.
  Qed.

  (** mark_changed works exactly if the container can be sorted, and then shows what the filter accepts; the order is right
      only if it was before *)
  Theorem sortfail_mark f b key h ord : properly f b key h -> (forall l, Permutation (ord l) l) -> let s := state_of h f b key in
    let '(s', t, e) := s_step s (SMark ord) in
    (e = None <-> sortable cls (s_key s) (s_cont s)) /\
    (e = None -> Permutation (s_items s') (filter (s_filter s) (s_cont s))) /\
    (e = None -> s_sorted s = false \/ in_order lt (s_rev s) (s_key s) (s_items s) -> in_order lt (s_rev s) (s_key s) (s_items s')) /\
    (e <> None -> s' = s /\ t = []).
  Proof.
    intros H Ho s. pose proof (state_wf f b key h H) as W. fold s in W. cbn [SortFail_Model.s_step].
    destruct (update_spec A_dec lt cls lt_swo ord s W Ho) as [S1 S2].
    destruct (sortable_dec lt cls lt_swo (s_key s) (s_cont s)) as [S|S].
    - destruct (S1 S) as (it & t & -> & P & O). cbn. split; [tauto|]. split; [auto|]. split; [|congruence].
      intros _ [X|X]; apply O; intros Y; [congruence|exact X].
    - destruct (S2 S) as (e & ->). cbn. intuition congruence.
  Qed.

  (** an item that changes never shows or hides others; if its key raises, nothing moves *)
  Theorem sortfail_change f b key h x k m : properly f b key h -> let s := state_of h f b key in
    let '(s', t, e) := s_step s (SChange x k m) in
    e = None /\ (forall y, y <> x -> In y (s_items s') <-> In y (s_items s)) /\
    (m = false -> ~ In x (s_items s')) /\
    (m = true -> (exists er, k = Err er) -> s_items s' = s_items s /\ t = []).
  Proof.
    intros H s. pose proof (state_wf f b key h H) as W. fold s in W. pose proof W as (M & N & NI & I & L).
    destruct (change_step A_dec lt cls s x k m W) as [(Hx & ->)|(Hx & s1 & t1 & e1 & U & ->)].
    - split; [reflexivity|]. split; [reflexivity|]. split; [intros _ C; apply Hx, I, C|]. auto.
    - destruct (updated_in A_dec lt cls lt_swo (with_key A_dec s x k m) x s1 t1 e1 NI U) as (U1 & U2 & U3 & U4 & _).
      cbn [with_key s_items s_filter] in *. destruct (A_dec x x) as [_|C]; [|congruence].
      split; [reflexivity|]. split; [intros y Hy; symmetry; apply U3; exact Hy|]. split; [exact U4|].
      intros -> (er & ->). unfold updated_item in U. cbn [with_key s_filter s_items] in U. destruct (A_dec x x) as [_|C]; [|congruence].
      unfold place_for in U. cbn [with_key s_key] in U. destruct (A_dec x x) as [_|C]; [|congruence]. injection U as <- <- _. auto.
  Qed.

  (** one shown item whose key raises or can be compared with none keeps all others hidden *)
  Theorem sortfail_blocked f b key h z h2 : properly f b key h -> let s := state_of h f b key in
    blocked cls z s -> throughout after (fun s o => proper s o /\ around z s o) s h2 -> s_items (fst (fst (s_run s h2))) = [z].
  Proof.
    intros H s B T. pose proof (state_wf f b key h H) as W. fold s in W.
    refine (proj1 (proj2 (run_inv A_dec lt cls (fun s => wf s /\ blocked cls z s) (fun s o => proper s o /\ around z s o) _ h2 s _ T))).
    - intros s1 o J Q. exact (step_blocked A_dec lt cls lt_swo z s1 o J Q).
    - split; assumption.
  Qed.

  (** if the keys of all items that ever come can be compared, the list shows exactly the accepted items, in order *)
  Theorem sortfail_uniform good f b key h : properly f b key h -> level cls good key ->
    throughout after (even cls good) (s_new f b key) h ->
    let s := state_of h f b key in Permutation (s_items s) (filter (s_filter s) (s_cont s)) /\ in_order lt (s_rev s) (s_key s) (s_items s).
  Proof.
    intros H Lv T. assert (U : uniform lt cls good (state_of h f b key)).
    { apply (run_inv A_dec lt cls (uniform lt cls good) (fun s o => proper s o /\ even cls good s o)).
      - intros s o J Q. exact (step_uniform A_dec lt cls lt_swo good s o J Q).
      - split; [apply new_wf|]. split; [apply new_tidy|]. split; [exact Lv|]. split; [intros x []|]. intros x. simpl. tauto.
      - unfold properly in H. revert H T. generalize (s_new f b key). induction h as [|o h IH]; intros s; simpl; [auto|].
        intros [H1 H2] [H3 H4]. split; [auto|]. apply IH; assumption. }
    destruct U as (W & T1 & _ & _ & F). split; [|apply T1]. destruct W as (_ & N & NI & _).
    apply NoDup_Permutation; [exact NI|apply NoDup_filter; exact N|]. intros x. rewrite F, filter_In. reflexivity.
  Qed.
End Props.

Print Assumptions sortfail_observer.
Print Assumptions sortfail_master.
Print Assumptions sortfail_insert.
Print Assumptions sortfail_steady.
Print Assumptions sortfail_set.
Print Assumptions sortfail_mark.
Print Assumptions sortfail_change.
Print Assumptions sortfail_blocked.
Print Assumptions sortfail_uniform.

(** keys: class and value; 0 is the class of None *)
Definition klt (a b : nat * nat) : bool := snd a <? snd b.
Definition kcls (a : nat * nat) : nat := fst a.
Lemma klt_swo : strict_weak_order klt.
Proof. unfold klt. split; [|split]; intros *; rewrite ?Nat.ltb_lt, ?Nat.ltb_ge; lia. Qed.
Definition all : nat -> bool := fun _ => true.
Definition num (n : nat) : res (nat * nat) := Ok (1, n).
Definition txt (n : nat) : res (nat * nat) := Ok (2, n).
Definition none : res (nat * nat) := Ok (0, 0).
Definition key0 (x : nat) : res (nat * nat) := if x =? 9 then none else if x =? 8 then Err KeyError else if x <? 5 then num x else txt x.
Notation run h := (s_run Nat.eq_dec klt kcls (s_new all false key0) h).
Notation items h := (s_items (fst (fst (run h)))).
Notation told h := (snd (fst (run h))).

(** a number, a word, an item whose key raises, and one without key: the numbers are shown in order *)
Example sortfail_insert_example :
  items [SInsert 0 3; SInsert 0 6; SInsert 0 8; SInsert 0 9; SInsert 0 1] = [1; 3] /\
  told [SInsert 0 3; SInsert 1 6; SInsert 0 1] = [FBegin; FIns 3 0; FEnd; FSelIns 0; FBegin; FIns 1 0; FEnd; FSelIns 0].
Proof. vm_compute. repeat split. Qed.
Example sortfail_observer_example :
  f_follows [] (told [SInsert 0 3; SInsert 0 6; SInsert 0 1; SRemove 2; SReverse true]) [1] /\
  snd (run [SInsert 0 3; SInsert 0 6; SInsert 0 1; SRemove 2; SReverse true]) = [None; None; None; None; Some TypeError].
Proof. vm_compute. repeat split; lia. Qed.
Example sortfail_blocked_example :
  items [SInsert 0 9; SInsert 0 3; SInsert 0 6; SChange 3 none true; SRemove 0; SReverse true; SFilter (fun x => x <? 10)] = [9].
Proof. vm_compute. reflexivity. Qed.
Example sortfail_uniform_example :
  items [SInsert 0 3; SInsert 0 1; SInsert 1 4; SChange 1 (num 7) false; SInsert 0 2; SReverse true; SMark (@rev nat)] = [4; 3; 2].
Proof. vm_compute. reflexivity. Qed.
Example sortfail_master_example :
  let s := fst (fst (run [SInsert 0 3; SInsert 0 6; SInsert 0 8; SRemove 2; SInsert 0 1])) in
  s_master s = [1; 8; 6] /\ s_cont s = [1; 8; 6] /\ s_items s = [1].
Proof. vm_compute. repeat split. Qed.
Example sortfail_steady_example :
  items [SInsert 0 3; SInsert 0 6; SInsert 0 1; SChange 3 (txt 3) false; SChange 3 (num 0) true; SFilter (fun x => x <? 7)] = [3; 1].
Proof. vm_compute. reflexivity. Qed.
Example sortfail_mark_example :
  let h := [SInsert 0 3; SInsert 0 6; SInsert 0 1] in
  run (h ++ [SMark (@rev nat)]) = (fst (fst (run h)), told h, [None; None; None; Some TypeError]) /\
  items (h ++ [SChange 6 (num 2) true; SMark (@rev nat)]) = [1; 6; 3].
Proof. vm_compute. repeat split. Qed.
Example sortfail_change_example :
  let h := [SInsert 0 3; SInsert 0 2; SInsert 0 1] in
  items (h ++ [SChange 1 (num 9) true]) = [2; 3; 1] /\ items (h ++ [SChange 2 (txt 9) true]) = [1; 2; 3] /\
  items (h ++ [SChange 2 (Err KeyError) true]) = [1; 2; 3] /\ items (h ++ [SChange 2 (Err KeyError) false]) = [1; 3].
Proof. vm_compute. repeat split. Qed.
Example sortfail_set_example :
  let h := [SInsert 0 3; SInsert 0 1; SInsert 0 6] in
  items (h ++ [SKey num]) = [1; 3; 6] /\ items (h ++ [SReverse true]) = [1; 3] /\ items (h ++ [SRemove 0; SReverse true]) = [3; 1].
Proof. vm_compute. repeat split. Qed.

(** the filter accepts only items whose keys can be compared, yet it cannot be set, because of an item it rejects; the list goes
    on showing items the new filter rejects *)
Theorem sortfail_filter_refuted : exists (h : list (sop nat (nat * nat))) f,
  let '(s, _, _) := run h in let '(s', _, e) := s_step Nat.eq_dec klt kcls s (SFilter f) in
  properly Nat.eq_dec klt kcls all false key0 h /\ sortable kcls (s_key s) (filter f (s_cont s)) /\ e = Some TypeError /\
  s_items s' = [1; 3] /\ filter f (s_cont s') = [3] .
Proof.
  exists [SInsert 0 3; SInsert 0 6; SInsert 0 1], (fun x => x =? 3). vm_compute. repeat split; try intuition discriminate.
  - intros x [<-|[]]. eauto.
  - left. lia.
Qed.
Print Assumptions sortfail_filter_refuted.

(** which items are shown depends on the order in which they came, not on the container and the settings *)
Theorem sortfail_history_refuted : exists h1 h2 : list (sop nat (nat * nat)),
  properly Nat.eq_dec klt kcls all false key0 h1 /\ properly Nat.eq_dec klt kcls all false key0 h2 /\
  s_cont (fst (fst (run h1))) = s_cont (fst (fst (run h2))) /\ items h1 = [3] /\ items h2 = [6].
Proof.
  exists [SInsert 0 3; SInsert 1 6], [SInsert 0 6; SInsert 0 3].
  vm_compute. repeat split; try intuition discriminate.
Qed.
Print Assumptions sortfail_history_refuted.

(** an item that could not be placed stays hidden when the one in its way goes *)
Theorem sortfail_hidden_refuted : exists h : list (sop nat (nat * nat)),
  properly Nat.eq_dec klt kcls all false key0 h /\ s_cont (fst (fst (run h))) = [3] /\ items h = [].
Proof. exists [SInsert 0 6; SInsert 0 3; SRemove 1]. vm_compute. repeat split; try intuition discriminate. Qed.
Print Assumptions sortfail_hidden_refuted.

(** a failed change of direction leaves the list in the old order *)
Theorem sortfail_reverse_refuted : exists h : list (sop nat (nat * nat)),
  properly Nat.eq_dec klt kcls all false key0 h /\ s_rev (fst (fst (run h))) = true /\ items h = [1; 3] /\
  ~ in_order klt true key0 (items h).
Proof.
  exists [SInsert 0 3; SInsert 0 6; SInsert 0 1; SReverse true]. vm_compute. repeat split; try intuition discriminate.
  intros H. specialize (H [] 1 [] 3 [] (1, 1) (1, 3) eq_refl eq_refl eq_refl). discriminate H.
Qed.
Print Assumptions sortfail_reverse_refuted.

(** keys that change class one after the other: in the end all can be compared, the filter accepts all, and the list is not in
    order; mark_changed does not raise and does not put it right *)
Theorem sortfail_mark_refuted : exists h : list (sop nat (nat * nat)),
  let '(s, _, es) := run (h ++ [SMark (fun l => l)]) in
  properly Nat.eq_dec klt kcls all false key0 (h ++ [SMark (fun l => l)]) /\ sortable kcls (s_key s) (s_cont s) /\
  (forall e, In e es -> e = None) /\ s_items s = [1; 2; 3] /\ s_key s 1 = txt 5 /\ s_key s 2 = txt 0.
Proof.
  exists [SInsert 0 3; SInsert 0 2; SInsert 0 1; SMark (fun l => l); SChange 2 (txt 0) true; SChange 1 (txt 5) true; SChange 3 (txt 1) true].
  vm_compute. repeat split; try (intuition discriminate); try reflexivity; auto.
  - intros x [<-|[<-|[<-|[]]]]; eauto.
  - right. intros x y [<-|[<-|[<-|[]]]] [<-|[<-|[<-|[]]]]; (do 2 eexists; split; [reflexivity|split; [reflexivity|split; [reflexivity|discriminate]]]).
  - intros e. intuition.
Qed.
Print Assumptions sortfail_mark_refuted.

(** a shown item whose key changes within its class is lost, because it is taken out and the second search meets a key the first
    did not *)
Theorem sortfail_lost_refuted : exists h : list (sop nat (nat * nat)),
  let h2 := h ++ [SChange 0 (num 7) true] in
  properly Nat.eq_dec klt kcls all false key0 h2 /\ items h = [0; 1; 2; 3; 4] /\ items h2 = [1; 2; 3; 4] /\
  In 0 (s_cont (fst (fst (run h2)))) /\ s_filter (fst (fst (run h2))) 0 = true /\ (forall e, In e (snd (run h2)) -> e = None).
Proof.
  exists [SInsert 0 4; SInsert 0 3; SInsert 0 2; SInsert 0 1; SInsert 0 0; SChange 3 (txt 0) true].
  vm_compute. repeat split; try (intuition discriminate); try reflexivity; auto.
  intros e. intuition.
Qed.
Print Assumptions sortfail_lost_refuted.

(** the selections hear of the removal of an item of whose insertion they did not hear *)
Theorem sortfail_selection_refuted : exists h : list (sop nat (nat * nat)),
  properly Nat.eq_dec klt kcls all false key0 h /\ sel_ins (told h) = [0%Z] /\ filter (fun e => match e with FSelRem _ => true | _ => false end) (told h) = [FSelRem 1%Z; FSelRem 0%Z].
Proof. exists [SInsert 0 3; SInsert 1 6; SRemove 1; SRemove 0]. vm_compute. repeat split; try intuition discriminate. Qed.
Print Assumptions sortfail_selection_refuted.
