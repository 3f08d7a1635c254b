(** Closing recorders and replaying in the same world: the theorems, each with an example. *)
From Coq Require Import Arith Bool List Lia.
From Verif Require Import PyBase Recorder_Model Recorder_Spec Recorder_Proofs Recorder_Proofs2 Recorder_Proofs3 Recorder_Props
  RecLife_Model RecLife_Spec RecLife_Proofs RecLife_Proofs2 RecLife_Proofs3.
Import ListNotations.

Section Props.
  Context {V : Type} (item : nat -> bool) (recordable : nat -> nat -> bool).
  Notation obj := (node (nat * list V)).
  Notation lrun := (lrun item recordable).
  Notation live := (live item recordable).

  (** C120: once closed a recorder hears nothing more, whatever is done; closing it again raises AttributeError *)
  Theorem reclife_closed (s : life V) l1 l2 :
    l_log (lrun s (l1 ++ Close :: l2)) = l_log (lrun s l1) /\ l_rec (lrun s (l1 ++ Close :: l2)) = None /\
    close (lrun s (l1 ++ Close :: l2)) = Err AttributeError.
  Proof.
    assert (E : lrun s (l1 ++ Close :: l2) = lrun (lstep item recordable (lrun s l1) Close) l2) by (unfold RecLife_Model.lrun; rewrite fold_left_app; reflexivity).
    rewrite E. assert (Hc : l_rec (lstep item recordable (lrun s l1) Close) = None /\ l_log (lstep item recordable (lrun s l1) Close) = l_log (lrun s l1)).
    { cbn [lstep]. unfold close. destruct (l_rec (lrun s l1)) eqn:Er; auto. }
    destruct Hc as [H1 H2]. destruct (lrun_closed item recordable l2 _ H1) as [H3 H4]. split; [congruence|]. split; [exact H3|].
    unfold close. rewrite H3. reflexivity.
  Qed.
  (** closing changes no object and no entry *)
  Theorem reclife_close (s s' : life V) : close s = Ok s' -> l_world s' = l_world s /\ l_log s' = l_log s.
  Proof. unfold close. destruct (l_rec s); [|discriminate]. intros [= <-]. auto. Qed.
  (** C120: with a closed recorder [apply] is over after as many steps as there are entries, on any object, and the log stays *)
  Theorem reclife_closed_apply (s : life V) r :
    l_rec s = None -> over (live (S (length (l_log s))) r 0 s) /\ l_log (final (live (S (length (l_log s))) r 0 s)) = l_log s.
  Proof.
    intros E. destruct (live_closed item recordable (S (length (l_log s))) r 0 s E) as (_ & H1 & H2). split; [apply H2; lia|exact H1].
  Qed.

  (** C120: while the recorder is open, [apply] on the recorded object itself never ends if properties were recorded: each call
      logs its entry again; the objects stay as they are *)
  Theorem reclife_self (w : world) r (o : obj) l n :
    NoDup (all_ids w) -> lookup r w = Some o -> Forall setting l -> ~ In Close l ->
    let s := lrun (open w o) l in
    l_log s <> [] ->
    exists s', live n r 0 s = Going n s' /\ l_world s' = l_world s /\ length (l_log s') = length (l_log s) + n /\
      firstn (length (l_log s)) (l_log s') = l_log s /\
      forall j, j < n -> nth_error (l_log s') (length (l_log s) + j) = nth_error (l_log s') j.
  Proof.
    intros Hn Hl Hs Hc s Hne. destruct (setting_run item recordable l (open w o) r o Hs (open_follows recordable w r o Hn Hl)) as (o' & Hf & _).
    fold s in Hf. assert (Hr : l_rec s <> None).
    { unfold s. assert (G : forall l (s0 : life V), ~ In Close l -> l_rec s0 <> None -> l_rec (lrun s0 l) <> None).
      { clear. induction l as [|[a|] l IH]; intros s0 Hc H0; [exact H0| |elim Hc; left; reflexivity].
        change (lrun s0 (Do a :: l)) with (lrun (hear item recordable s0 a) l). apply IH; [intros H; apply Hc; right; exact H|].
        unfold hear. destruct (l_rec s0); [discriminate|congruence]. }
      apply G; [exact Hc|discriminate]. }
    assert (Hp : 0 < length (l_log s)) by (destruct (l_log s); [congruence|simpl; lia]).
    destruct (self_open item recordable n r o' 0 s Hf Hr Hp) as (s' & H1 & H2 & _ & H3 & H4 & H5). exists s'. auto.
  Qed.
  (** and when it was closed, [apply] on the recorded object ends and changes nothing *)
  Theorem reclife_self_closed (w : world) r (o : obj) l :
    NoDup (all_ids w) -> lookup r w = Some o -> Forall setting l -> In Close l ->
    let s := lrun (open w o) l in live (S (length (l_log s))) r 0 s = Done s.
  Proof.
    intros Hn Hl Hs Hc s. destruct (setting_run item recordable l (open w o) r o Hs (open_follows recordable w r o Hn Hl)) as (o' & Hf & _).
    fold s in Hf. apply (self_closed item recordable _ r o' 0 s Hf); [|lia|lia].
    apply in_split in Hc. destruct Hc as (l1 & l2 & E). unfold s. rewrite E. apply (reclife_closed (open w o) l1 l2).
  Qed.

  (** C120: replayed on a copy made at the start, each property that was recorded gets the value it has now, also if that was
      given after the recorder was closed; the others keep the values of the start *)
  Theorem reclife_late (w : world) r (o : obj) l :
    NoDup (all_ids w) -> lookup r w = Some o -> Forall setting l ->
    let s := lrun (open w o) l in
    exists t, apply item (l_world s) (l_log s) (erase o) = Ok t /\ late recordable l (l_world s) t o.
  Proof. intros Hn Hl Hs s. exact (late_run item recordable w r o l Hn Hl Hs). Qed.

  (** C120: on an object that has nothing in common with the recorded ones, after any history and whether the recorder is open
      or closed, the calls of the log do what they do on a separate tree, or raise the same exception; the recorder hears
      nothing of it, and objects apart from that one are left as they were *)
  Theorem reclife_other (w : world) r (o : obj) l r2 (o2 : obj) :
    NoDup (all_ids w) -> lookup r w = Some o ->
    let s := lrun (open w o) l in
    lookup r2 (l_world s) = Some o2 -> stranger s o2 ->
    exists s',
      match apply item (l_world s) (l_log s) (erase o2) with
      | Ok t => live (S (length (l_log s))) r2 0 s = Done s' /\ exists o', lookup r2 (l_world s') = Some o' /\ erase o' = t
      | Err x => live (S (length (l_log s))) r2 0 s = Raised x s'
      end /\
      l_log s' = l_log s /\ l_rec s' = l_rec s /\
      forall c x, lookup c (l_world s) = Some x -> apart x o2 -> lookup c (l_world s') = Some x.
  Proof.
    intros Hn Hl s H2 Hst. assert (Hk : known item s) by (apply lrun_known; exact (open_known item w r o Hn Hl)).
    pose proof (live_meets item recordable s r2 o2 Hk Hst (l_log s) [] s (erase o2) eq_refl (meets_start item s r2 o2 Hk H2)) as H.
    cbn [length] in H. destruct (apply item (l_world s) (l_log s) (erase o2)) as [t|x].
    - destruct H as (s' & H & _ & HL & HR & _ & (o' & Ho' & Et & _) & Hc). exists s'. split; [|auto]. split; [exact H|]. eauto.
    - destruct H as (s' & t' & H & _ & HL & HR & _ & _ & Hc). exists s'. auto.
  Qed.
End Props.
Print Assumptions reclife_closed.
Print Assumptions reclife_close.
Print Assumptions reclife_closed_apply.
Print Assumptions reclife_self.
Print Assumptions reclife_self_closed.
Print Assumptions reclife_late.
Print Assumptions reclife_other.

(** The world of Recorder_Props.v: the object 1 with 2 in a relationship and 3 in an item; 4 with 5 in its relationship; 6. *)
Definition ex_live (l : list (@deed nat)) : life nat := lrun ex_item ex_rec (open ex_world ex_root) l.
Definition ex_apply (n r : nat) (l : list (@deed nat)) : outcome nat := live ex_item ex_rec n r 0 (ex_live l).

Example reclife_closed_case :
  let l := [Do (SetProp 1 0 70); Do (SetProp 2 0 71); Close; Do (SetProp 3 0 72); Do (Insert 1 0 1 6)] in
  l_log (ex_live l) = [ESet [] 1 0; ESet [(0, 0)] 2 0] /\ close (ex_live l) = Err AttributeError /\
  close (ex_live (firstn 2 l)) = Ok (ex_live (firstn 3 l)).
Proof. vm_compute. repeat split; reflexivity. Qed.
Print Assumptions reclife_closed_case.

(** each of the two entries is logged again, and again *)
Example reclife_self_case :
  let l := [Do (SetProp 1 0 70); Do (SetProp 2 0 71)] in
  ex_apply 5 1 l = Going 5 (Life (l_world (ex_live l)) (l_rec (ex_live l))
    [ESet [] 1 0; ESet [(0, 0)] 2 0; ESet [] 1 0; ESet [(0, 0)] 2 0; ESet [] 1 0; ESet [(0, 0)] 2 0; ESet [] 1 0]) /\
  ex_apply 3 1 (l ++ [Close]) = Done (ex_live (l ++ [Close])).
Proof. vm_compute. repeat split; reflexivity. Qed.
Print Assumptions reclife_self_case.

(** that [apply] comes to an end *)
Theorem reclife_self_refuted :
  ~ (forall w r (o : node (nat * list nat)) l, NoDup (all_ids w) -> lookup r w = Some o ->
       exists n, over (live ex_item ex_rec n r 0 (lrun ex_item ex_rec (open w o) l))).
Proof.
  intros H. destruct (H ex_world 1 ex_root [Do (SetProp 1 0 70)]) as (n & Hn); [|reflexivity|].
  - vm_compute. repeat (constructor; [cbn; intuition discriminate|]). constructor.
  - destruct (reclife_self ex_item ex_rec ex_world 1 ex_root [Do (SetProp 1 0 70)] n) as (s' & E & _).
    + vm_compute. repeat (constructor; [cbn; intuition discriminate|]). constructor.
    + reflexivity.
    + repeat constructor.
    + intros [E|[]]. discriminate E.
    + vm_compute. discriminate.
    + rewrite E in Hn. exact Hn.
Qed.
Print Assumptions reclife_self_refuted.

(** On the recorded object itself: an item put in at the end goes in again before the first one, which the recorder cannot
    follow, and then [apply] ends; what was removed cannot be removed again, or another item is. *)
Example reclife_self_items_case :
  let obj_of x := option_map erase (lookup 1 (l_world (final x))) in
  let ins := ex_apply 5 1 [Do (Insert 1 0 1 6)] in
  over ins /\ obj_of ins = Some (Node [10; 20] [[Node [11; 21] [[]; []]; Node [15; 25] [[]; []]; Node [15; 25] [[]; []]]; [Node [12; 22] [[]; []]]]) /\
  l_log (final ins) = [EInsert [] 0 1 6] /\
  (exists s, ex_apply 5 1 [Do (Remove 1 0 0)] = Raised IndexError s) /\
  let rem := ex_apply 5 1 [Do (Insert 1 0 1 6); Do (Remove 1 0 1); Close] in
  over rem /\ obj_of rem = Some (Node [10; 20] [[Node [11; 21] [[]; []]]; [Node [12; 22] [[]; []]]]).
Proof. vm_compute. repeat split; try reflexivity. eexists. reflexivity. Qed.
Print Assumptions reclife_self_items_case.

(** that the recorder, when closed, keeps the values it recorded: the value 99 was set after *)
Theorem reclife_late_refuted :
  exists l1 l2 t,
    apply ex_item (l_world (ex_live (l1 ++ Close :: l2))) (l_log (ex_live (l1 ++ Close :: l2))) (erase ex_root) = Ok t /\
    apply ex_item (l_world (ex_live (l1 ++ [Close]))) (l_log (ex_live (l1 ++ [Close]))) (erase ex_root) <> Ok t.
Proof.
  exists [Do (SetProp 2 0 71)], [Do (SetProp 2 0 99)]. eexists. split; [vm_compute; reflexivity|]. vm_compute. discriminate.
Qed.
Print Assumptions reclife_late_refuted.

Example reclife_late_case :
  let l := [Do (SetProp 2 0 71); Do (SetProp 2 1 72); Close; Do (SetProp 2 0 99); Do (SetProp 1 0 98)] in
  apply ex_item (l_world (ex_live l)) (l_log (ex_live l)) (erase ex_root)
  = Ok (Node [10; 20] [[Node [99; 21] [[]; []]]; [Node [12; 22] [[]; []]]]) /\
  was_recorded ex_rec l 2 0 /\ ~ was_recorded ex_rec l 1 0 /\ ~ was_recorded ex_rec l 2 1.
Proof.
  split; [vm_compute; reflexivity|]. split; [split; [reflexivity|exists 71; left; reflexivity]|]. split.
  - intros [_ (v & [E|[E|[]]])]; discriminate E.
  - intros [E _]. discriminate E.
Qed.
Print Assumptions reclife_late_case.

(** the object 4, with the recorder of 1 open: a copy of 6 (with the value it has now) is put into 4 and its property set *)
Example reclife_other_case :
  let l := [Do (SetProp 1 0 70); Do (Insert 1 0 1 6); Do (SetProp 6 0 75)] in
  stranger (ex_live l) (Node (4, [13; 23]) [[leaf 5 14 24]; []]) /\
  let x := ex_apply 4 4 l in
  over x /\ l_log (final x) = [ESet [] 1 0; EInsert [] 0 1 6; ESet [(0, 1)] 6 0] /\
  option_map erase (lookup 4 (l_world (final x))) = Some (Node [70; 23] [[Node [14; 24] [[]; []]; Node [75; 25] [[]; []]]; []]) /\
  lookup 1 (l_world (final x)) = lookup 1 (l_world (ex_live l)) /\
  (exists s, ex_apply 4 4 [Do (SetProp 3 0 70)] = Raised AttributeError s).
Proof.
  cbv zeta. split.
  - split.
    + intros e c x He Hc Hx. vm_compute in He.
      destruct He as [<-|[<-|[<-|[]]]]; destruct Hc as [<-|[]]; vm_compute in Hx; injection Hx as <-;
        intros i H1 H2; cbn in H1, H2; destruct H2 as [<-|[<-|[]]]; intuition discriminate.
    + intros r m Hr Hm. vm_compute in Hr. injection Hr as <-. cbn in Hm. cbn.
      destruct Hm as [<-|[<-|[<-|[<-|[]]]]]; cbn; intuition discriminate.
  - vm_compute. repeat split; try reflexivity. eexists. reflexivity.
Qed.
Print Assumptions reclife_other_case.
