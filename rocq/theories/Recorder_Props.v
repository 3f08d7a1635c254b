(** Recording and replaying: the theorems, each with an example. *)
From Coq Require Import Arith Bool List Lia.
From Verif Require Import PyBase Recorder_Model Recorder_Spec Recorder_Proofs Recorder_Proofs2 Recorder_Proofs3.
Import ListNotations.

Section Props.
  Context {V : Type} (item : nat -> bool) (recordable : nat -> nat -> bool).
  Notation obj := (node (nat * list V)).

  (** C76: replayed on an object equal to the recorded one at the start, the log gives an object that looks like the
      recorded one does now, but for properties that are not recordable; and the recorders are those of a new recorder *)
  Theorem rec_replay (w : world) r (o : obj) l :
    NoDup (all_ids w) -> lookup r w = Some o -> follows item r [] w l ->
    let s := run item recordable (start w o) l in
    exists t o', apply item (st_world s) (st_log s) (erase o) = Ok t /\ lookup r (st_world s) = Some o' /\ shows recordable l t o' /\
      st_rec s = mk [] o'.
  Proof.
    intros Hn Hl Hf s. unfold s. rewrite run_world. cbn [start st_world].
    destruct (replay_all item recordable l r l w [] [] o (erase o) (erase o) Hn Hl Hf) as (t & o' & H1 & H2 & H3 & H4).
    - intros f [].
    - intros a Ha. exact Ha.
    - reflexivity.
    - refine (like_impl_r _ _ _ _ _ (erase_like o)). intros x b _ ->. auto.
    - exists t, o'. split; [exact H1|]. split; [exact H2|]. split; [|exact H4]. refine (like_impl_r _ _ _ _ _ H3).
      intros x b Hx [H5 H6]. split; [exact H5|]. intros p Hp. destruct (H6 p Hp) as [H7|H7]; [exact H7|]. rewrite H7. unfold last_value.
      change (fst (label x)) with (id_of x). rewrite (lookup_in (worlds item w l) x); [reflexivity|apply worlds_nodup, Hn|].
      apply lookup_some in H2. destruct H2 as [H2 _]. apply in_all_nodes in H2. destruct H2 as (z & Hz & H2). apply in_all_nodes.
      exists z. split; [exact Hz|exact (nodes_trans z o' x H2 Hx)].
  Qed.
  (** so it gives the same, if only recordable properties are set *)
  Theorem rec_replay_same (w : world) r (o : obj) l :
    NoDup (all_ids w) -> lookup r w = Some o -> follows item r [] w l -> (forall i p v, In (SetProp i p v) l -> recordable i p = true) ->
    let s := run item recordable (start w o) l in
    exists o', lookup r (st_world s) = Some o' /\ apply item (st_world s) (st_log s) (erase o) = Ok (erase o').
  Proof.
    intros Hn Hl Hf Hr s. destruct (rec_replay w r o l Hn Hl Hf) as (t & o' & H1 & H2 & H3 & _). exists o'. split; [exact H2|].
    unfold s. rewrite H1. f_equal. apply like_eq.
    refine (like_trans _ _ _ _ _ o' (erase o') H3 (like_flip _ _ _ (erase_like o'))). intros a b d [H4 H5] ->. apply list_ext. intros p. apply H5.
    unfold kept. destruct (recordable (fst b) p) eqn:E; [left; reflexivity|right]. intros v Hv. rewrite (Hr _ _ _ Hv) in E. discriminate.
  Qed.
  (** C76: what is not recorded: anything done to other objects, *)
  Theorem rec_outside (w : world) r (o : obj) L a :
    NoDup (all_ids w) -> lookup r w = Some o -> recorded r w (target a) = false ->
    st_log (step item recordable (State w (mk [] o) L) a) = L.
  Proof.
    intros Hn Hl Hr. unfold step. cbn [st_world st_rec st_log]. destruct (change item w a); [|reflexivity]. cbn [st_log].
    rewrite none_heard; [apply app_nil_r|]. rewrite mk_hits. apply hits_absent. intros Hi. unfold recorded in Hr. rewrite Hl in Hr.
    assert (existsb (Nat.eqb (target a)) (ids o) = true) by (apply existsb_exists; exists (target a); split; [exact Hi|apply Nat.eqb_refl]).
    congruence.
  Qed.
  (** and what is [passed_over] *)
  Theorem rec_passed_over (w : world) r (o x : obj) L a :
    NoDup (all_ids w) -> lookup r w = Some o -> lookup (target a) w = Some x -> passed_over recordable a x ->
    st_log (step item recordable (State w (mk [] o) L) a) = L.
  Proof.
    intros Hn Hl Hx Hp. destruct (recorded r w (target a)) eqn:Hr; [|exact (rec_outside w r o L a Hn Hl Hr)].
    unfold recorded in Hr. rewrite Hl in Hr. apply existsb_exists in Hr. destruct Hr as (i & Hi & E). apply Nat.eqb_eq in E. subst i.
    destruct (lookup_some _ _ _ Hl) as [Ho _]. destruct (in_ids_lookup w o (target a) Hn Ho Hi) as (x0 & Hx0 & Hxo).
    assert (x0 = x) as -> by congruence. clear Hx0. destruct (nodes_sub o x Hxo) as (q & Hq). destruct (lookup_some _ _ _ Hx) as [_ Hid].
    unfold step. cbn [st_world st_rec st_log]. destruct (change item w a); [|reflexivity]. cbn [st_log].
    rewrite (one_heard _ q (mk [] o) (mk q x)).
    - cbn [flat_map]. rewrite app_nil_r. rewrite <- (app_nil_r L) at 2. f_equal.
      destruct a as [i p v|i k n c|i k n|i k c]; cbn [logs passed_over] in *.
      + rewrite Hp. reflexivity.
      + rewrite mk_slot_at. assert (shifts_up n (mk_slot q k (slot k x)) = true) as ->; [|reflexivity].
        apply existsb_exists. exists n. split; [|apply Nat.leb_refl]. apply in_seq. unfold mk_slot. rewrite mapi_length. lia.
      + rewrite mk_slot_at. assert (shifts_down n (mk_slot q k (slot k x)) = true) as ->; [|reflexivity].
        apply existsb_exists. exists (S n). split; [|apply Nat.ltb_lt; lia]. apply in_seq. unfold mk_slot. rewrite mapi_length. lia.
      + reflexivity.
    - rewrite mk_hits. apply hits_once. exact (nodup_root o w Hn Ho).
    - rewrite mk_sub, Hq. reflexivity.
    - rewrite mk_eq. unfold is_id. apply Nat.eqb_eq. exact Hid.
  Qed.
End Props.
Print Assumptions rec_replay.
Print Assumptions rec_replay_same.
Print Assumptions rec_outside.
Print Assumptions rec_passed_over.

(** two properties, the second not recordable; slot 0 is a relationship, slot 1 an item *)
Definition ex_item (k : nat) : bool := k =? 1.
Definition ex_rec (i p : nat) : bool := p =? 0.
Definition leaf (i a b : nat) : node (nat * list nat) := Node (i, [a; b]) [[]; []].
Definition ex_root : node (nat * list nat) := Node (1, [10; 20]) [[leaf 2 11 21]; [leaf 3 12 22]].
Definition ex_world : @world nat := [ex_root; Node (4, [13; 23]) [[leaf 5 14 24]; []]; leaf 6 15 25].
Definition ex_history : list (@op nat) :=
  [SetProp 2 0 31; Insert 1 0 1 4; SetProp 5 0 32; SetProp 3 0 33; Insert 2 0 0 6; SetProp 6 0 34; SetProp 2 0 35; Remove 1 0 1;
   SetProp 4 0 36; Remove 2 0 0; Insert 1 0 1 6; SetProp 1 0 37].
Definition ex_log (l : list (@op nat)) : list entry := st_log (run ex_item ex_rec (start ex_world ex_root) l).
Definition ex_replay (l : list (@op nat)) : res tree :=
  let s := run ex_item ex_rec (start ex_world ex_root) l in apply ex_item (st_world s) (st_log s) (erase ex_root).
Definition ex_final (l : list (@op nat)) : option tree :=
  option_map erase (lookup 1 (st_world (run ex_item ex_rec (start ex_world ex_root) l))).
Ltac follow := vm_compute; repeat split; intros; try discriminate; try reflexivity; repeat match goal with H : _ \/ _ |- _ => destruct H end; try discriminate; try contradiction.
(** the hypotheses hold of this history, and this is what is logged and what comes out *)
Example rec_example :
  NoDup (all_ids ex_world) /\ lookup 1 ex_world = Some ex_root /\ follows ex_item 1 [] ex_world ex_history /\
  (forall i p v, In (SetProp i p v) ex_history -> ex_rec i p = true) /\
  ex_log ex_history =
    [ESet [(0, 0)] 2 0; EInsert [] 0 1 4; ESet [(0, 1); (0, 0)] 5 0; ESet [(1, 0)] 3 0; EInsert [(0, 0)] 0 0 6; ESet [(0, 0); (0, 0)] 6 0;
     ESet [(0, 0)] 2 0; ERemove [] 0 1; ERemove [(0, 0)] 0 0; EInsert [] 0 1 6; ESet [] 1 0] /\
  ex_replay ex_history =
    Ok (Node [37; 20] [[Node [35; 21] [[]; []]; Node [34; 25] [[]; []]]; [Node [33; 22] [[]; []]]]) /\
  ex_final ex_history = Some (Node [37; 20] [[Node [35; 21] [[]; []]; Node [34; 25] [[]; []]]; [Node [33; 22] [[]; []]]]).
Proof.
  split; [vm_compute; repeat constructor; simpl; intuition discriminate|]. split; [reflexivity|]. split; [follow|].
  split; [|repeat split; reflexivity]. intros i p v H. cbn in H. repeat destruct H as [H|H]; try discriminate; try contradiction; injection H as <- <- <-; reflexivity.
Qed.
(** a property that is not recordable keeps its value *)
Example rec_example_kept :
  let l := [SetProp 2 1 50; SetProp 2 0 51] in
  follows ex_item 1 [] ex_world l /\ ex_replay l = Ok (Node [10; 20] [[Node [51; 21] [[]; []]]; [Node [12; 22] [[]; []]]]) /\
  ex_final l = Some (Node [10; 20] [[Node [51; 50] [[]; []]]; [Node [12; 22] [[]; []]]]).
Proof. split; [follow|split; reflexivity]. Qed.
(** C76: an item inserted in front of another is not there after replay *)
Theorem rec_insert_front_refuted :
  let l := [Insert 1 0 0 6] in
  ex_log l = [] /\ ex_replay l = Ok (erase ex_root) /\
  ex_final l = Some (Node [10; 20] [[Node [15; 25] [[]; []]; Node [11; 21] [[]; []]]; [Node [12; 22] [[]; []]]]).
Proof. repeat split; reflexivity. Qed.
Print Assumptions rec_insert_front_refuted.
(** and an item appended after that is looked for one place too far: replay raises *)
Theorem rec_insert_front_later_refuted :
  let l := [Insert 1 0 0 4; Insert 1 0 2 6; SetProp 6 0 60] in
  ex_log l = [EInsert [] 0 2 6; ESet [(0, 2)] 6 0] /\ ex_replay l = Err IndexError.
Proof. repeat split; reflexivity. Qed.
Print Assumptions rec_insert_front_later_refuted.
(** C76: an item removed from before another is still there after replay *)
Theorem rec_remove_front_refuted :
  let l := [Insert 1 0 1 6; Remove 1 0 0] in
  ex_log l = [EInsert [] 0 1 6] /\
  ex_replay l = Ok (Node [10; 20] [[Node [11; 21] [[]; []]; Node [15; 25] [[]; []]]; [Node [12; 22] [[]; []]]]) /\
  ex_final l = Some (Node [10; 20] [[Node [15; 25] [[]; []]]; [Node [12; 22] [[]; []]]]).
Proof. repeat split; reflexivity. Qed.
Print Assumptions rec_remove_front_refuted.
(** C76: an item set or cleared is not replayed, nor is anything done to the new one *)
Theorem rec_set_item_refuted :
  let l := [SetItem 1 1 (Some 6); SetProp 6 0 70; SetProp 3 0 71] in
  ex_log l = [] /\ ex_replay l = Ok (erase ex_root) /\
  ex_final l = Some (Node [10; 20] [[Node [11; 21] [[]; []]]; [Node [70; 25] [[]; []]]]).
Proof. repeat split; reflexivity. Qed.
Print Assumptions rec_set_item_refuted.
Theorem rec_clear_item_refuted :
  let l := [SetItem 1 1 None] in
  ex_log l = [] /\ ex_replay l = Ok (erase ex_root) /\ ex_final l = Some (Node [10; 20] [[Node [11; 21] [[]; []]]; []]).
Proof. repeat split; reflexivity. Qed.
Print Assumptions rec_clear_item_refuted.
(** C76: the copy of an item put in is made at replay, so it already has what was put into the item later, which is then
    replayed again; what was taken out of it later is not there to be taken out *)
Theorem rec_nested_refuted :
  let l := [Insert 1 0 1 4; Insert 4 0 1 6] in
  ex_log l = [EInsert [] 0 1 4; EInsert [(0, 1)] 0 1 6] /\
  ex_final l = Some (Node [10; 20] [[Node [11; 21] [[]; []]; Node [13; 23] [[Node [14; 24] [[]; []]; Node [15; 25] [[]; []]]; []]]; [Node [12; 22] [[]; []]]]) /\
  ex_replay l = Ok (Node [10; 20] [[Node [11; 21] [[]; []]; Node [13; 23] [[Node [14; 24] [[]; []]; Node [15; 25] [[]; []]; Node [15; 25] [[]; []]]; []]]; [Node [12; 22] [[]; []]]]).
Proof. repeat split; reflexivity. Qed.
Print Assumptions rec_nested_refuted.
Theorem rec_nested_remove_refuted :
  let l := [Insert 1 0 1 4; Remove 4 0 0] in
  ex_log l = [EInsert [] 0 1 4; ERemove [(0, 1)] 0 0] /\ ex_replay l = Err IndexError.
Proof. repeat split; reflexivity. Qed.
Print Assumptions rec_nested_remove_refuted.
