(** Trees: induction, paths, replacing a node. *)
From Coq Require Import Arith Bool List Lia Permutation.
From Verif Require Import PyBase Recorder_Model Recorder_Spec.
Import ListNotations.

Lemma node_deep {A} (P : node A -> Prop) :
  (forall a ss, Forall (Forall P) ss -> P (Node a ss)) -> forall n, P n.
Proof.
  intros H. fix IH 1. intros [a ss]. apply H.
  induction ss as [|l ss IHss]; constructor; [|exact IHss].
  induction l as [|x l IHl]; constructor; [apply IH|exact IHl].
Qed.

Lemma nodes_eq {A} (a : A) ss : nodes (Node a ss) = Node a ss :: flat_map (flat_map nodes) ss.
Proof. reflexivity. Qed.
Lemma nodes_self {A} (n : node A) : In n (nodes n).
Proof. destruct n. left. reflexivity. Qed.
Lemma in_children {A} (m : node A) ss : In m (flat_map (flat_map nodes) ss) <-> exists l x, In l ss /\ In x l /\ In m (nodes x).
Proof.
  rewrite in_flat_map. split.
  - intros (l & Hl & H). apply in_flat_map in H. destruct H as (x & Hx & H). eauto.
  - intros (l & x & Hl & Hx & H). exists l. split; [exact Hl|]. apply in_flat_map. eauto.
Qed.
Lemma nodes_trans {A} (n m p : node A) : In m (nodes n) -> In p (nodes m) -> In p (nodes n).
Proof.
  revert m p. induction n as [a ss IH] using node_deep. intros m p Hm Hp. rewrite nodes_eq in Hm. destruct Hm as [<-|Hm]; [exact Hp|].
  right. apply in_children in Hm. destruct Hm as (l & x & Hl & Hx & Hm). apply in_children. exists l, x. repeat split; auto.
  rewrite Forall_forall in IH. specialize (IH l Hl). rewrite Forall_forall in IH. exact (IH x Hx m p Hm Hp).
Qed.

(** ** lists with one element replaced *)
Lemma set_nth_split {X} k (x y : X) l1 l2 : length l1 = k -> set_nth k y (l1 ++ x :: l2) = l1 ++ y :: l2.
Proof.
  intros <-. unfold set_nth. rewrite nth_error_app2, Nat.sub_diag by lia. cbn [nth_error].
  rewrite firstn_app, firstn_all, Nat.sub_diag, firstn_O, app_nil_r. f_equal. f_equal.
  rewrite skipn_app, skipn_all2 by lia. replace (S (length l1) - length l1) with 1 by lia. reflexivity.
Qed.
Lemma set_nth_length {X} k (x : X) l : length (set_nth k x l) = length l.
Proof.
  unfold set_nth. destruct (nth_error l k) eqn:E; [|reflexivity].
  assert (k < length l) by (apply nth_error_Some; congruence).
  rewrite app_length. cbn [length]. rewrite firstn_length, skipn_length. lia.
Qed.
Lemma nth_error_set_nth {X} k (x : X) l j :
  nth_error (set_nth k x l) j = if j =? k then match nth_error l j with Some _ => Some x | None => None end else nth_error l j.
Proof.
  destruct (nth_error l k) eqn:E.
  - apply nth_error_split in E. destruct E as (l1 & l2 & -> & Hk). rewrite (set_nth_split k x0 x l1 l2 Hk).
    destruct (Nat.eqb_spec j k) as [->|Hne].
    + rewrite !nth_error_app2 by lia. rewrite <- Hk, Nat.sub_diag. reflexivity.
    + destruct (Nat.lt_ge_cases j k); [rewrite !nth_error_app1 by lia; reflexivity|].
      rewrite !nth_error_app2 by lia. replace (j - length l1) with (S (j - length l1 - 1)) by lia. reflexivity.
  - unfold set_nth. rewrite E. destruct (Nat.eqb_spec j k) as [->|]; [rewrite E|]; reflexivity.
Qed.
Lemma set_nth_same {X} k (x : X) l : nth_error l k = Some x -> set_nth k x l = l.
Proof.
  intros E. apply nth_error_split in E. destruct E as (l1 & l2 & -> & Hk). apply (set_nth_split k x x l1 l2 Hk).
Qed.
Lemma set_nth_twice {X} k (x y : X) l : set_nth k x (set_nth k y l) = set_nth k x l.
Proof.
  destruct (nth_error l k) eqn:E.
  - apply nth_error_split in E. destruct E as (l1 & l2 & -> & Hk). rewrite !(set_nth_split k _ _ l1 l2 Hk). reflexivity.
  - unfold set_nth at 2 3. rewrite E. unfold set_nth. rewrite E. reflexivity.
Qed.
Lemma nth_nth_error {X} k (l : list X) d x : nth_error l k = Some x -> nth k l d = x.
Proof. apply nth_error_nth. Qed.

(** ** places *)
Fixpoint sub {A} (q : path) (n : node A) : option (node A) :=
  match q with
  | [] => Some n
  | (k, i) :: q' =>
      match nth_error (slots n) k with
      | Some l => match nth_error l i with Some x => sub q' x | None => None end
      | None => None
      end
  end.
Fixpoint put {A} (q : path) (y : node A) (n : node A) : node A :=
  match q with
  | [] => y
  | (k, i) :: q' =>
      match nth_error (slots n) k with
      | Some l => match nth_error l i with Some x => set_slot k (set_nth i (put q' y x) l) n | None => n end
      | None => n
      end
  end.
Lemma sub_nodes {A} q (n x : node A) : sub q n = Some x -> In x (nodes n).
Proof.
  revert n. induction q as [|[k i] q IH]; intros [a ss] H; cbn [sub slots] in H; [injection H as <-; apply nodes_self|].
  destruct (nth_error ss k) as [l|] eqn:E1; [|discriminate]. destruct (nth_error l i) as [y|] eqn:E2; [|discriminate].
  right. apply in_children. exists l, y. split; [exact (nth_error_In _ _ E1)|]. split; [exact (nth_error_In _ _ E2)|]. auto.
Qed.
Lemma nodes_sub {A} (n x : node A) : In x (nodes n) -> exists q, sub q n = Some x.
Proof.
  induction n as [a ss IH] using node_deep. intros H. rewrite nodes_eq in H. destruct H as [<-|H]; [exists []; reflexivity|].
  apply in_children in H. destruct H as (l & y & Hl & Hy & H). rewrite Forall_forall in IH. specialize (IH l Hl).
  rewrite Forall_forall in IH. destruct (IH y Hy H) as (q & Hq).
  destruct (In_nth_error _ _ Hl) as (k & Hk). destruct (In_nth_error _ _ Hy) as (i & Hi).
  exists ((k, i) :: q). cbn [sub slots]. rewrite Hk, Hi. exact Hq.
Qed.
Lemma put_same {A} q (n x : node A) : sub q n = Some x -> put q x n = n.
Proof.
  revert n. induction q as [|[k i] q IH]; intros [a ss] H; cbn [sub put slots] in *; [injection H as ->; reflexivity|].
  destruct (nth_error ss k) as [l|] eqn:E1; [|discriminate]. destruct (nth_error l i) as [y|] eqn:E2; [|discriminate].
  rewrite (IH y H). rewrite (set_nth_same i y l E2). unfold set_slot. cbn [label slots]. rewrite (set_nth_same k l ss E1). reflexivity.
Qed.

(** what is around a place *)
Lemma flat_map_split {X Y} (f : X -> list Y) l1 x l2 : flat_map f (l1 ++ x :: l2) = flat_map f l1 ++ f x ++ flat_map f l2.
Proof. rewrite flat_map_app. reflexivity. Qed.
Definition labels {A} (n : node A) : list A := map label (nodes n).
Lemma labels_eq {A} (a : A) ss : labels (Node a ss) = a :: flat_map (flat_map labels) ss.
Proof.
  unfold labels. rewrite nodes_eq. cbn [map label]. f_equal. induction ss as [|l ss IH]; [reflexivity|]. cbn [flat_map].
  rewrite map_app, IH. f_equal. induction l as [|x l IHl]; [reflexivity|]. cbn [flat_map]. rewrite map_app, IHl. reflexivity.
Qed.
Lemma around {A} q (n x : node A) :
  sub q n = Some x -> exists rest, forall y, Permutation (labels (put q y n)) (labels y ++ rest).
Proof.
  revert n. induction q as [|[k i] q IH]; intros [a ss] H; cbn [sub slots] in H.
  - injection H as <-. exists []. intros y. cbn [put]. rewrite app_nil_r. reflexivity.
  - destruct (nth_error ss k) as [l|] eqn:E1; [|discriminate]. destruct (nth_error l i) as [z|] eqn:E2; [|discriminate].
    destruct (IH z H) as (rest & Hr). cbn [put slots]. rewrite E1, E2.
    apply nth_error_split in E1, E2. destruct E1 as (s1 & s2 & -> & Hk). destruct E2 as (l1 & l2 & -> & Hi).
    unfold set_slot. cbn [label slots].
    exists (a :: flat_map (flat_map labels) s1 ++ flat_map labels l1 ++ rest ++ flat_map labels l2 ++ flat_map (flat_map labels) s2).
    intros y. rewrite (set_nth_split k _ _ s1 s2 Hk), (set_nth_split i _ _ l1 l2 Hi), labels_eq, flat_map_split, flat_map_split, (Hr y).
    etransitivity; [|apply Permutation_middle]. constructor. rewrite <- !app_assoc, app_assoc.
    rewrite Permutation_app_swap_app, <- !app_assoc. reflexivity.
Qed.

(** ** doing something to the one node with the label *)
Lemma upd_none {A} is f (n : node A) : (forall m, In m (nodes n) -> is (label m) = false) -> upd is f n = n.
Proof.
  induction n as [a ss IH] using node_deep. intros H. cbn [upd]. rewrite (H (Node a ss) (nodes_self _) : is a = false). f_equal.
  rewrite <- (map_id ss) at 2. apply map_ext_in. intros l Hl. rewrite <- (map_id l) at 2. apply map_ext_in. intros x Hx.
  rewrite Forall_forall in IH. specialize (IH l Hl). rewrite Forall_forall in IH. apply (IH x Hx). intros m Hm.
  apply H. right. apply in_children. eauto.
Qed.
Definition hits {A} (is : A -> bool) (n : node A) : nat := length (filter is (labels n)).
Lemma hits_eq {A} is (a : A) ss :
  hits is (Node a ss) = (if is a then 1 else 0) + list_sum (map (fun l => list_sum (map (hits is) l)) ss).
Proof.
  unfold hits. rewrite labels_eq. cbn [filter].
  assert (length (filter is (flat_map (flat_map labels) ss)) = list_sum (map (fun l => list_sum (map (hits is) l)) ss)) as H.
  { induction ss as [|l ss IH]; [reflexivity|]. cbn [flat_map map list_sum fold_right]. rewrite filter_app, app_length, IH. f_equal.
    clear. induction l as [|x l IH]; [reflexivity|]. cbn [flat_map map list_sum fold_right]. rewrite filter_app, app_length, IH. reflexivity. }
  destruct (is a); cbn [length]; rewrite H; reflexivity.
Qed.
Lemma hits_none {A} is (n : node A) : hits is n = 0 -> forall m, In m (nodes n) -> is (label m) = false.
Proof.
  unfold hits, labels. intros H m Hm. destruct (is (label m)) eqn:E; [|reflexivity]. exfalso.
  assert (In (label m) (filter is (map label (nodes n)))) as Hi by (apply filter_In; split; [apply in_map; exact Hm|exact E]).
  destruct (filter is (map label (nodes n))); [destruct Hi|discriminate].
Qed.
Lemma hits_some {A} is (n m : node A) : In m (nodes n) -> is (label m) = true -> 1 <= hits is n.
Proof.
  unfold hits, labels. intros Hm E.
  assert (In (label m) (filter is (map label (nodes n)))) as Hi by (apply filter_In; split; [apply in_map; exact Hm|exact E]).
  destruct (filter is (map label (nodes n))); [destruct Hi|simpl; lia].
Qed.
Lemma list_sum_in x l : In x l -> x <= list_sum l.
Proof. induction l as [|y l IH]; [intros []|]. intros [->|H]; cbn; [lia|]. specialize (IH H). unfold list_sum in IH. lia. Qed.
Lemma hits_child {A} is (a : A) ss l c : In l ss -> In c l -> hits is c + (if is a then 1 else 0) <= hits is (Node a ss).
Proof.
  intros Hl Hc. rewrite hits_eq.
  assert (hits is c <= list_sum (map (hits is) l)) by (apply list_sum_in, in_map, Hc).
  assert (list_sum (map (hits is) l) <= list_sum (map (fun l => list_sum (map (hits is) l)) ss))
    by (apply list_sum_in; exact (in_map (fun l => list_sum (map (hits is) l)) ss l Hl)).
  lia.
Qed.
Lemma list_sum_app' l1 l2 : list_sum (l1 ++ l2) = list_sum l1 + list_sum l2.
Proof. apply list_sum_app. Qed.
Lemma upd_map_none {A} is f (l : list (node A)) : list_sum (map (hits is) l) = 0 -> map (upd is f) l = l.
Proof.
  intros H. rewrite <- (map_id l) at 2. apply map_ext_in. intros x Hx. apply upd_none. apply hits_none.
  assert (hits is x <= list_sum (map (hits is) l)) by (apply list_sum_in, in_map, Hx). lia.
Qed.
Lemma upd_map2_none {A} is f (ss : list (list (node A))) :
  list_sum (map (fun l => list_sum (map (hits is) l)) ss) = 0 -> map (map (upd is f)) ss = ss.
Proof.
  intros H. rewrite <- (map_id ss) at 2. apply map_ext_in. intros l Hl. apply upd_map_none.
  assert (list_sum (map (hits is) l) <= list_sum (map (fun l => list_sum (map (hits is) l)) ss))
    by (apply list_sum_in; exact (in_map (fun l => list_sum (map (hits is) l)) ss l Hl)).
  lia.
Qed.
Lemma upd_put {A} is f q (n x : node A) :
  hits is n <= 1 -> sub q n = Some x -> is (label x) = true -> upd is f n = put q (f x) n.
Proof.
  revert n. induction q as [|[k i] q IH]; intros [a ss] Hn Hs Hx; cbn [sub slots] in Hs.
  - injection Hs as <-. cbn [upd put]. cbn [label] in Hx. rewrite Hx. reflexivity.
  - cbn [put slots]. destruct (nth_error ss k) as [l|] eqn:E1; [|discriminate]. destruct (nth_error l i) as [z|] eqn:E2; [|discriminate].
    assert (1 <= hits is z) as Hz by exact (hits_some is z x (sub_nodes q z x Hs) Hx).
    pose proof (hits_child is a ss l z (nth_error_In _ _ E1) (nth_error_In _ _ E2)) as Hc.
    cbn [upd]. destruct (is a) eqn:Ea; [lia|]. unfold set_slot. cbn [label slots]. f_equal.
    apply nth_error_split in E1, E2. destruct E1 as (s1 & s2 & -> & Hk). destruct E2 as (l1 & l2 & -> & Hi).
    rewrite (set_nth_split k _ _ s1 s2 Hk), (set_nth_split i _ _ l1 l2 Hi).
    rewrite hits_eq, Ea, map_app, list_sum_app' in Hn. cbn [map] in Hn. rewrite map_app in Hn. cbn [map list_sum fold_right] in Hn.
    fold (list_sum (map (fun l => list_sum (map (hits is) l)) s2)) in Hn.
    change (fold_right Nat.add 0 (map (hits is) l1 ++ hits is z :: map (hits is) l2)) with (list_sum (map (hits is) l1 ++ hits is z :: map (hits is) l2)) in Hn.
    rewrite list_sum_app' in Hn. cbn [list_sum fold_right] in Hn. fold (list_sum (map (hits is) l2)) in Hn.
    rewrite map_app. cbn [map]. rewrite map_app. cbn [map].
    rewrite (upd_map2_none is f s1), (upd_map2_none is f s2), (upd_map_none is f l1), (upd_map_none is f l2) by (unfold list_sum in *; lia).
    rewrite (IH z); [reflexivity| |exact Hs|exact Hx]. unfold list_sum in *. lia.
Qed.
(** nothing but the children taken out goes away *)
Lemma nodes_upd {A} is f (D : node A -> Prop) (n m : node A) :
  hits is n <= 1 ->
  (forall x, In x (nodes n) -> is (label x) = true -> forall l c, In l (slots x) -> In c l -> In c (concat (slots (f x))) \/ D c) ->
  In m (nodes n) -> In (upd is f m) (nodes (upd is f n)) \/ exists c, D c /\ In m (nodes c).
Proof.
  revert m. induction n as [a ss IH] using node_deep. intros m Hn Hf Hm.
  rewrite nodes_eq in Hm. destruct Hm as [<-|Hm]; [left; apply nodes_self|].
  apply in_children in Hm. destruct Hm as (l & c & Hl & Hc & Hm). pose proof (hits_child is a ss l c Hl Hc) as Hh.
  destruct (is a) eqn:Ea.
  - assert (hits is c = 0) as H0 by lia.
    assert (upd is f m = m) as -> by (apply upd_none; intros p Hp; exact (hits_none is c H0 p (nodes_trans c m p Hm Hp))).
    destruct (Hf (Node a ss) (nodes_self _) Ea l c Hl Hc) as [Hk|Hd]; [|right; eauto].
    left. cbn [upd]. rewrite Ea. destruct (f (Node a ss)) as [b ts]. cbn [slots] in Hk. right. apply in_children.
    apply in_concat in Hk. destruct Hk as (l' & H1 & H2). eauto.
  - rewrite Forall_forall in IH. specialize (IH l Hl). rewrite Forall_forall in IH. specialize (IH c Hc m).
    destruct IH as [H|H]; [lia| |exact Hm| |right; exact H].
    + intros x Hx. apply Hf. right. apply in_children. eauto.
    + left. cbn [upd]. rewrite Ea. right. apply in_children. exists (map (upd is f) l), (upd is f c).
      split; [apply in_map; exact Hl|]. split; [apply in_map; exact Hc|exact H].
Qed.
