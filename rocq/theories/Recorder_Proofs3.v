(** The recorders follow the objects, and replay follows the log. *)
From Coq Require Import Arith Bool List Lia Permutation.
From Verif Require Import PyBase Recorder_Model Recorder_Spec Recorder_Proofs Recorder_Proofs2.
Import ListNotations.

(** ** trees of the same form *)
Lemma Forall2_nth {X Y} (P : X -> Y -> Prop) l m k :
  Forall2 P l m ->
  match nth_error l k, nth_error m k with Some x, Some y => P x y | None, None => True | _, _ => False end.
Proof.
  intros H. revert k. induction H as [|x y l m Hx H IH]; intros [|k]; cbn [nth_error]; auto. apply IH.
Qed.
Lemma Forall2_length {X Y} (P : X -> Y -> Prop) l m : Forall2 P l m -> length l = length m.
Proof. intros H. induction H; cbn [length]; congruence. Qed.
Lemma Forall2_split {X Y} (P : X -> Y -> Prop) l m k :
  Forall2 P l m -> Forall2 P (firstn k l) (firstn k m) /\ Forall2 P (skipn k l) (skipn k m).
Proof.
  intros H. revert k. induction H as [|x y l m Hx H IH]; intros [|k]; cbn [firstn skipn]; auto.
  destruct (IH k). auto.
Qed.
Lemma Forall2_set_nth {X Y} (P : X -> Y -> Prop) l m k x y : Forall2 P l m -> P x y -> Forall2 P (set_nth k x l) (set_nth k y m).
Proof.
  intros H Hx. pose proof (Forall2_nth P l m k H) as Hk. unfold set_nth.
  destruct (nth_error l k), (nth_error m k); try contradiction; [|exact H].
  apply Forall2_app; [apply (Forall2_split P l m k H)|]. constructor; [exact Hx|apply (Forall2_split P l m (S k) H)].
Qed.
Lemma Forall2_insert {X Y} (P : X -> Y -> Prop) l m k x y : Forall2 P l m -> P x y -> Forall2 P (insert_at k x l) (insert_at k y m).
Proof.
  intros H Hx. unfold insert_at. apply Forall2_app; [apply (Forall2_split P l m k H)|]. constructor; [exact Hx|apply (Forall2_split P l m k H)].
Qed.
Lemma Forall2_delete {X Y} (P : X -> Y -> Prop) l m k : Forall2 P l m -> Forall2 P (delete_at k l) (delete_at k m).
Proof. intros H. unfold delete_at. apply Forall2_app; apply (Forall2_split P l m _ H). Qed.
Lemma like_label {A B} (R : A -> B -> Prop) n m : like R n m -> R (label n) (label m).
Proof. intros H. destruct H; assumption. Qed.
Lemma like_slots {A B} (R : A -> B -> Prop) n m : like R n m -> Forall2 (Forall2 (like R)) (slots n) (slots m).
Proof. intros H. destruct H; assumption. Qed.
Lemma like_slot {A B} (R : A -> B -> Prop) n m k : like R n m -> Forall2 (like R) (slot k n) (slot k m).
Proof.
  intros H. apply like_slots in H. pose proof (Forall2_nth _ _ _ k H) as Hk. unfold slot.
  destruct (nth_error (slots n) k) as [l|] eqn:E1, (nth_error (slots m) k) as [l'|] eqn:E2; try contradiction.
  - rewrite (nth_nth_error k _ [] l E1), (nth_nth_error k _ [] l' E2). exact Hk.
  - apply nth_error_None in E1, E2. rewrite !nth_overflow by assumption. constructor.
Qed.
Lemma like_set_slot {A B} (R : A -> B -> Prop) n m k l l' : like R n m -> Forall2 (like R) l l' -> like R (set_slot k l n) (set_slot k l' m).
Proof.
  intros H Hl. unfold set_slot. constructor; [exact (like_label R n m H)|]. apply Forall2_set_nth; [exact (like_slots R n m H)|exact Hl].
Qed.
Lemma like_sub {A B} (R : A -> B -> Prop) q : forall n m y, like R n m -> sub q m = Some y -> exists x, sub q n = Some x /\ like R x y.
Proof.
  induction q as [|[k i] q IH]; intros n m y H Hs; cbn [sub] in *; [injection Hs as <-; eauto|].
  pose proof (Forall2_nth _ _ _ k (like_slots R n m H)) as Hk.
  destruct (nth_error (slots m) k) as [l'|]; [|discriminate]. destruct (nth_error (slots n) k) as [l|]; [|contradiction].
  pose proof (Forall2_nth _ _ _ i Hk) as Hi. destruct (nth_error l' i) as [b|]; [|discriminate]. destruct (nth_error l i) as [a|]; [|contradiction].
  exact (IH a b y Hi Hs).
Qed.
Lemma like_put {A B} (R : A -> B -> Prop) q : forall n m x y, like R n m -> like R x y -> like R (put q x n) (put q y m).
Proof.
  induction q as [|[k i] q IH]; intros n m x y H Hx; cbn [put] in *; [exact Hx|].
  pose proof (Forall2_nth _ _ _ k (like_slots R n m H)) as Hk.
  destruct (nth_error (slots m) k) as [l'|], (nth_error (slots n) k) as [l|]; try contradiction; [|exact H].
  pose proof (Forall2_nth _ _ _ i Hk) as Hi. destruct (nth_error l' i) as [b|], (nth_error l i) as [a|]; try contradiction; [|exact H].
  apply like_set_slot; [exact H|]. apply Forall2_set_nth; [exact Hk|]. auto.
Qed.
Lemma like_impl {A B} (R S : A -> B -> Prop) n : forall m,
  (forall x b, In x (nodes n) -> R (label x) b -> S (label x) b) -> like R n m -> like S n m.
Proof.
  induction n as [a ss IH] using node_deep. intros m HRS H. inversion H as [? b ? ts Hab Hss]; subst. constructor.
  - exact (HRS (Node a ss) b (nodes_self _) Hab).
  - assert (forall l x, In l ss -> In x l -> forall z b, In z (nodes x) -> R (label z) b -> S (label z) b) as HRS'.
    { intros l x Hl Hx z b' Hz. apply HRS. right. apply in_children. eauto. }
    clear HRS H Hab. induction Hss as [|l l' ss ts Hl Hss IHss]; constructor.
    + inversion IH as [|? ? IHl _]; subst. assert (forall x, In x l -> forall z b, In z (nodes x) -> R (label z) b -> S (label z) b) as HRl by (intros x Hx; exact (HRS' l x (or_introl eq_refl) Hx)).
      clear IH IHss HRS'. induction Hl as [|x y l l' Hx Hl IHl']; constructor.
      * inversion IHl as [|? ? Hi _]; subst. apply Hi; [|exact Hx]. exact (HRl x (or_introl eq_refl)).
      * inversion IHl; subst. apply IHl'; [assumption|]. intros z Hz. apply HRl. right. exact Hz.
    + inversion IH; subst. apply IHss; [assumption|]. intros l0 x H0. apply HRS'. right. exact H0.
Qed.
Lemma like_refl {A} (R : A -> A -> Prop) (n : node A) : (forall a, R a a) -> like R n n.
Proof.
  intros HR. induction n as [a ss IH] using node_deep. constructor; [apply HR|].
  induction IH as [|l ss Hl IH IHss]; constructor; [|exact IHss]. clear IHss IH. induction Hl; constructor; auto.
Qed.
Lemma like_trans {A B C} (R : A -> B -> Prop) (S : B -> C -> Prop) (T : A -> C -> Prop) n :
  (forall a b c, R a b -> S b c -> T a c) -> forall m p, like R n m -> like S m p -> like T n p.
Proof.
  intros HT. induction n as [a ss IH] using node_deep. intros m p H1 H2. inversion H1 as [? b ? ts Hab Hss]; subst.
  inversion H2 as [? c ? us Hbc Hts]; subst. constructor; [exact (HT a b c Hab Hbc)|]. clear H1 H2 Hab Hbc.
  revert us Hts. induction Hss as [|l l' ss ts Hl Hss IHss]; intros us Hts; inversion Hts as [|? l'' ? us' Hl' Hts']; subst; constructor.
  - inversion IH as [|? ? IHl _]; subst. clear -IHl Hl Hl'. revert l'' Hl'. induction Hl as [|x y l l' Hx Hl IH]; intros l'' Hl'; inversion Hl'; subst; constructor.
    + inversion IHl; subst. eauto.
    + inversion IHl; subst. eauto.
  - inversion IH; subst. auto.
Qed.
Lemma like_flip {A B} (R : A -> B -> Prop) n : forall m, like R n m -> like (fun b a => R a b) m n.
Proof.
  induction n as [a ss IH] using node_deep. intros m H. inversion H as [? b ? ts Hab Hss]; subst. constructor; [exact Hab|].
  clear H. induction Hss as [|l l' ss ts Hl Hss IHss]; constructor.
  - inversion IH as [|? ? IHl _]; subst. clear -IHl Hl. induction Hl; constructor; inversion IHl; subst; auto.
  - inversion IH; subst. auto.
Qed.
Lemma like_eq {A} (n m : node A) : like eq n m -> n = m.
Proof.
  revert m. induction n as [a ss IH] using node_deep. intros m H. inversion H as [? b ? ts Hab Hss]; subst. f_equal.
  clear H. induction Hss as [|l l' ss ts Hl Hss IHss]; [reflexivity|]. inversion IH as [|? ? IHl IHs]; subst. f_equal; [|auto].
  clear -IHl Hl. induction Hl as [|x y l l' Hx Hl IH]; [reflexivity|]. inversion IHl; subst. f_equal; auto.
Qed.

Lemma nth_error_mapi {X Y} (f : nat -> X -> Y) l j k : nth_error (mapi_from f j l) k = option_map (f (j + k)) (nth_error l k).
Proof.
  revert j k. induction l as [|x l IH]; intros j [|k]; cbn [mapi_from nth_error]; try reflexivity.
  - cbn [option_map]. rewrite Nat.add_0_r. reflexivity.
  - rewrite IH. replace (S j + k) with (j + S k) by lia. reflexivity.
Qed.
Lemma mapi_length {X Y} (f : nat -> X -> Y) l j : length (mapi_from f j l) = length l.
Proof. revert j. induction l as [|x l IH]; intros j; cbn [mapi_from length]; [reflexivity|]. rewrite IH. reflexivity. Qed.
Lemma list_ext {X} (l m : list X) : (forall k, nth_error l k = nth_error m k) -> l = m.
Proof.
  revert m. induction l as [|x l IH]; intros [|y m] H; [reflexivity|specialize (H 0); discriminate|specialize (H 0); discriminate|].
  f_equal; [specialize (H 0); cbn in H; congruence|]. apply IH. intros k. exact (H (S k)).
Qed.
Lemma mapi_set_nth {X Y} (f : nat -> X -> Y) l k x : mapi_from f 0 (set_nth k x l) = set_nth k (f k x) (mapi_from f 0 l).
Proof.
  apply list_ext. intros j. rewrite nth_error_mapi, !nth_error_set_nth, nth_error_mapi. cbn [Nat.add].
  destruct (Nat.eqb_spec j k) as [->|]; [|reflexivity]. destruct (nth_error l k); reflexivity.
Qed.

Section Follow.
  Context {V : Type} (item : nat -> bool) (recordable : nat -> nat -> bool).
  Notation obj := (node (nat * list V)).
  Notation world := (@world V).
  Implicit Types (o : obj) (w : world).

  Lemma mk_eq q o : mk q o = Node (id_of o, q) (mapi_from (fun k (l : list obj) => mapi_from (fun n (x : obj) => mk (q ++ [(k, n)]) x) 0 l) 0 (slots o)).
  Proof. destruct o as [[i ps] ss]. reflexivity. Qed.
  Definition mk_slot (q : path) (k : nat) (l : list obj) : list rcd := mapi_from (fun n (x : obj) => mk (q ++ [(k, n)]) x) 0 l.
  Lemma mk_slot_at q o k : slot k (mk q o) = mk_slot q k (slot k o).
  Proof.
    rewrite mk_eq. unfold slot. cbn [slots]. destruct (nth_error (slots o) k) as [l|] eqn:E.
    - rewrite (nth_nth_error k (slots o) [] l E). apply nth_nth_error. rewrite nth_error_mapi, E. reflexivity.
    - apply nth_error_None in E. rewrite !nth_overflow; [reflexivity|exact E|rewrite mapi_length; exact E].
  Qed.
  Lemma mk_set_slot q k l o : mk q (set_slot k l o) = set_slot k (mk_slot q k l) (mk q o).
  Proof. rewrite !mk_eq. unfold set_slot. cbn [label slots]. rewrite mapi_set_nth. reflexivity. Qed.
  Lemma mk_sub p : forall q o, sub p (mk q o) = option_map (mk (q ++ p)) (sub p o).
  Proof.
    induction p as [|[k i] p IH]; intros q o; cbn [sub]; [cbn [option_map]; rewrite app_nil_r; reflexivity|].
    rewrite mk_eq. cbn [slots]. rewrite nth_error_mapi. destruct (nth_error (slots o) k) as [l|]; [|reflexivity]. cbn [option_map].
    rewrite nth_error_mapi. destruct (nth_error l i) as [x|]; [|reflexivity]. cbn [option_map Nat.add]. rewrite IH, <- app_assoc. reflexivity.
  Qed.
  Lemma mk_put p : forall q o y, put p (mk (q ++ p) y) (mk q o) = mk q (put p y o).
  Proof.
    induction p as [|[k i] p IH]; intros q o y; cbn [put]; [rewrite app_nil_r; reflexivity|].
    replace (nth_error (slots (mk q o)) k) with (option_map (mk_slot q k) (nth_error (slots o) k)) by (rewrite mk_eq; cbn [slots]; rewrite nth_error_mapi; reflexivity).
    destruct (nth_error (slots o) k) as [l|] eqn:E1; [|reflexivity]. cbn [option_map]. unfold mk_slot at 1. rewrite nth_error_mapi.
    destruct (nth_error l i) as [x|] eqn:E2; [|reflexivity]. cbn [option_map Nat.add]. rewrite mk_set_slot. f_equal.
    unfold mk_slot. rewrite mapi_set_nth. f_equal. replace (q ++ (k, i) :: p) with ((q ++ [(k, i)]) ++ p) by (rewrite <- app_assoc; reflexivity).
    apply IH.
  Qed.
  Lemma mk_ids o : forall q, map fst (labels (mk q o)) = ids o.
  Proof.
    induction o as [[i ps] ss IH] using node_deep. intros q. rewrite ids_labels, mk_eq, !labels_eq. cbn [map fst id_of label slots]. f_equal.
    generalize 0 at 2 as k. induction ss as [|l ss IHss]; intros k; [reflexivity|]. cbn [mapi_from flat_map]. rewrite !map_app.
    inversion IH as [|? ? IHl IHs]; subst. rewrite (IHss IHs). f_equal. clear -IHl. generalize 0 as n.
    induction l as [|x l IH]; intros n; [reflexivity|]. cbn [mapi_from flat_map]. rewrite !map_app. inversion IHl as [|? ? Hx Hl]; subst.
    rewrite (IH Hl), Hx, ids_labels. reflexivity.
  Qed.
  Lemma mk_hits i o q : hits (is_id i) (mk q o) = hits (is_id i) o.
  Proof.
    unfold hits. assert (forall B (l : list (nat * B)), length (filter (is_id i) l) = length (filter (Nat.eqb i) (map fst l))) as H.
    { intros B l. induction l as [|[j b] l IH]; [reflexivity|]. cbn [filter map fst]. unfold is_id at 1. cbn [fst]. rewrite (Nat.eqb_sym j i).
      destruct (i =? j); cbn [length]; rewrite IH; reflexivity. }
    rewrite !H, mk_ids, ids_labels. reflexivity.
  Qed.
  Lemma one_heard {A} (is : A -> bool) q (n x : node A) :
    hits is n <= 1 -> sub q n = Some x -> is (label x) = true -> filter (fun m => is (label m)) (nodes n) = [x].
  Proof.
    intros H Hq Hx. unfold hits, labels in H.
    assert (length (filter is (map label (nodes n))) = length (filter (fun m => is (label m)) (nodes n))) as E.
    { clear. induction (nodes n) as [|m l IH]; [reflexivity|]. cbn [map filter]. destruct (is (label m)); cbn [length]; rewrite IH; reflexivity. }
    rewrite E in H. assert (In x (filter (fun m => is (label m)) (nodes n))) as Hin by (apply filter_In; split; [exact (sub_nodes q n x Hq)|exact Hx]).
    destruct (filter (fun m => is (label m)) (nodes n)) as [|y [|z l]]; [destruct Hin| |simpl in H; lia]. destruct Hin as [->|[]]. reflexivity.
  Qed.
  Lemma none_heard {A} (is : A -> bool) (n : node A) : hits is n = 0 -> filter (fun m => is (label m)) (nodes n) = [].
  Proof.
    intros H. pose proof (hits_none is n H) as Hn. induction (nodes n) as [|m l IH]; [reflexivity|]. cbn [filter].
    rewrite (Hn m (or_introl eq_refl)). apply IH. intros y Hy. apply Hn. right. exact Hy.
  Qed.

  Lemma at_path_put f q : forall (t x y : @tree V), sub q t = Some x -> f x = Ok y -> at_path item q f t = Ok (put q y t).
  Proof.
    induction q as [|[k i] q IH]; intros t x y Hs Hf; cbn [sub put at_path] in *; [injection Hs as ->; exact Hf|].
    destruct (nth_error (slots t) k) as [l|]; [|discriminate]. destruct (nth_error l i) as [z|]; [|discriminate].
    rewrite (IH z x y Hs Hf). reflexivity.
  Qed.
  Lemma apply_app w l1 : forall l2 (t : @tree V),
    apply item w (l1 ++ l2) t = match apply item w l1 t with Ok t' => apply item w l2 t' | Err e => Err e end.
  Proof. induction l1 as [|e l1 IH]; intros l2 t; cbn [app apply]; [reflexivity|]. destruct (call item w e t); auto. Qed.

  (** ** the objects that came in keep their form *)
  Definition form : obj -> obj -> Prop := like (fun a b : nat * list V => fst a = fst b /\ length (snd a) = length (snd b)).
  Lemma form_refl o : form o o.
  Proof. apply like_refl. auto. Qed.
  Lemma form_trans o x c : form o x -> form x c -> form o c.
  Proof. apply like_trans. intros a b d [H1 H2] [H3 H4]. split; congruence. Qed.
  Lemma form_ids o x : form o x -> ids o = ids x.
  Proof.
    rewrite !ids_labels. revert x. induction o as [a ss IH] using node_deep. intros x H. inversion H as [? b ? ts [Hab _] Hss]; subst.
    rewrite !labels_eq. cbn [map]. f_equal; [exact Hab|]. clear H Hab. induction Hss as [|l l' ss ts Hl Hss IHss]; [reflexivity|].
    inversion IH as [|? ? IHl IHs]; subst. cbn [flat_map]. rewrite !map_app, (IHss IHs). f_equal. clear -IHl Hl.
    induction Hl as [|x y l l' Hx Hl IH]; [reflexivity|]. inversion IHl; subst. cbn [flat_map]. rewrite !map_app, IH by assumption. f_equal. auto.
  Qed.
  Lemma form_set i p v o : form (upd (is_id i) (set_prop p v) o) o.
  Proof.
    induction o as [[j ps] ss IH] using node_deep. cbn [upd]. destruct (is_id i (j, ps)).
    - unfold set_prop. cbn [slots id_of props_of label fst snd]. constructor; [cbn [fst snd]; split; [reflexivity|apply set_nth_length]|].
      pose proof (form_refl (Node (j, ps) ss)) as H. inversion H; subst. assumption.
    - constructor; [auto|]. induction IH as [|l ss Hl IH IHss]; cbn [map]; constructor; [|exact IHss]. clear IHss IH.
      induction Hl; cbn [map]; constructor; auto.
  Qed.

  Definition closed (fro : list nat) (w : world) : Prop :=
    forall f, In f fro -> exists o, lookup f w = Some o /\ incl (ids o) fro.
  Lemma in_ids_lookup w o f : NoDup (all_ids w) -> In o (all_nodes w) -> In f (ids o) -> exists x, lookup f w = Some x /\ In x (nodes o).
  Proof.
    intros Hn Ho Hf. unfold ids in Hf. apply in_map_iff in Hf. destruct Hf as (x & <- & Hx). exists x. split; [|exact Hx].
    apply lookup_in; [exact Hn|]. apply in_all_nodes in Ho. destruct Ho as (r & Hr & Ho). apply in_all_nodes. exists r. split; [exact Hr|].
    exact (nodes_trans r o x Ho Hx).
  Qed.
  Lemma taken_in a w o : taken a w = Some o -> In o w.
  Proof. destruct a as [i p v|i k n c|i k n|i k [c|]]; cbn [taken]; intros H; try discriminate; apply find_some in H; apply H. Qed.
  Lemma taken_out a w w' c : NoDup (all_ids w) -> change item w a = Some w' -> taken a w = Some c -> ~ In (target a) (ids c).
  Proof.
    intros Hn H Ht Hc. destruct (change_cases item w a w' Hn H) as (o & Ho & Hi & Hl & Hp & -> & Hr).
    pose proof (taken_perm a w Hn (possible_taken item a w o Hp)) as P. rewrite Ht in P.
    rewrite (all_ids_perm _ _ P) in Hn. cbn [app] in Hn. rewrite all_ids_cons in Hn. apply in_split in Hc. destruct Hc as (c1 & c2 & Ec).
    rewrite Ec, <- app_assoc in Hn. apply NoDup_app_remove_l in Hn. cbn [app] in Hn. inversion Hn as [|? ? Hx _]; subst. apply Hx.
    apply in_or_app. right. rewrite <- Hi. apply ids_in_all, Ho.
  Qed.
  Lemma frozen_step r fro w a w' : NoDup (all_ids w) -> closed fro w -> followed r fro w a -> change item w a = Some w' ->
    forall f o, In f fro -> lookup f w = Some o -> incl (ids o) fro -> exists o', lookup f w' = Some o' /\ form o' o.
  Proof.
    intros Hn Hc Hf H f o Hin Hl Hi. rewrite (change_lookup item w a w' f o Hn H Hl). eexists. split; [reflexivity|].
    destruct a as [i p v|i k n c|i k n|i k c]; cbn [followed target act] in *; [apply form_set| | |];
      (rewrite upd_absent; [apply form_refl|]); intros E; apply (proj1 Hf), Hi, E.
  Qed.
  Lemma taken_lookup w i k n c x : NoDup (all_ids w) -> taken (Insert (V:=V) i k n c) w = Some x -> lookup c w = Some x.
  Proof.
    cbn [taken]. intros Hn H. apply find_some in H. destruct H as [H1 H2]. unfold is_root in H2. apply Nat.eqb_eq in H2. rewrite <- H2.
    apply lookup_in; [exact Hn|]. apply in_all_nodes. exists x. split; [exact H1|apply nodes_self].
  Qed.
  Lemma freeze_in r fro w a f : In f (freeze r fro w a) ->
    In f fro \/ exists i k n c o, a = Insert i k n c /\ recorded r w i = true /\ lookup c w = Some o /\ In f (ids o) /\ freeze r fro w a = ids o ++ fro.
  Proof.
    destruct a as [i p v|i k n c|i k n|i k c]; cbn [freeze]; auto. destruct (recorded r w i) eqn:E; [|auto].
    destruct (lookup c w) as [o|] eqn:El; [|auto]. intros H. apply in_app_or in H. destruct H as [H|H]; [|auto]. right.
    exists i, k, n, c, o. auto.
  Qed.
  Lemma closed_step r fro w a w' : NoDup (all_ids w) -> closed fro w -> followed r fro w a -> change item w a = Some w' ->
    closed (freeze r fro w a) w'.
  Proof.
    intros Hn Hc Hf H f Hin. destruct (freeze_in r fro w a f Hin) as [Ho|(i & k & n & c & o & -> & Hr & Hl & Hfo & E)].
    - destruct (Hc f Ho) as (o & Hl & Hi). destruct (frozen_step r fro w a w' Hn Hc Hf H f o Ho Hl Hi) as (o' & H1 & H2).
      exists o'. split; [exact H1|]. rewrite (form_ids o' o H2). intros j Hj. specialize (Hi j Hj).
      destruct a as [i p v|i k n c|i k n|i k c]; cbn [freeze]; auto. destruct (recorded r w i); [|exact Hi].
      destruct (lookup c w); [|exact Hi]. apply in_or_app. auto.
    - rewrite E. destruct (lookup_some _ _ _ Hl) as [Ho Hid]. destruct (in_ids_lookup w o f Hn Ho Hfo) as (x & Hx & Hxo).
      exists x. split; [|intros j Hj; apply in_or_app; left; exact (ids_sub o x j Hxo Hj)].
      rewrite (change_lookup item w _ w' f x Hn H Hx), upd_absent; [reflexivity|]. intros Ht.
      destruct (change_cases item w _ w' Hn H) as (y & _ & _ & _ & Hp & _ & _). pose proof (possible_taken item _ w y Hp) as Hk. cbv beta iota in Hk.
      destruct (taken (Insert i k n c) w) as [z|] eqn:Et; [|congruence]. pose proof (taken_lookup w i k n c z Hn Et) as Hz.
      assert (z = o) as -> by congruence. exact (taken_out _ w w' o Hn H Et (ids_sub o x _ Hxo Ht)).
  Qed.
  Definition worlds (w : world) (l : list op) : world := fold_left (fun w a => match change item w a with Some w' => w' | None => w end) l w.
  Lemma worlds_nodup l : forall w, NoDup (all_ids w) -> NoDup (all_ids (worlds w l)).
  Proof.
    induction l as [|a l IH]; intros w Hn; [exact Hn|]. unfold worlds. cbn [fold_left]. apply IH.
    destruct (change item w a) as [w'|] eqn:E; [exact (change_nodup item w a w' Hn E)|exact Hn].
  Qed.
  Lemma frozen_stays r l : forall fro w, NoDup (all_ids w) -> closed fro w -> follows item r fro w l ->
    forall f o, In f fro -> lookup f w = Some o -> exists o', lookup f (worlds w l) = Some o' /\ form o' o.
  Proof.
    induction l as [|a l IH]; intros fro w Hn Hc Hf f o Hin Hl; [exists o; split; [exact Hl|apply form_refl]|].
    cbn [follows] in Hf. destruct Hf as [Hf Hs]. unfold worlds. cbn [fold_left]. destruct (change item w a) as [w'|] eqn:E; [|destruct Hs].
    destruct (Hc f Hin) as (o0 & Hl0 & Hi). assert (o0 = o) as -> by congruence.
    destruct (frozen_step r fro w a w' Hn Hc Hf E f o Hin Hl Hi) as (o1 & H1 & H2).
    destruct (IH (freeze r fro w a) w' (change_nodup item w a w' Hn E) (closed_step r fro w a w' Hn Hc Hf E) Hs f o1) as (o2 & H3 & H4).
    - destruct a as [i p v|i k n c|i k n|i k c]; cbn [freeze]; auto. destruct (recorded r w i); [|exact Hin].
      destruct (lookup c w); [|exact Hin]. apply in_or_app. auto.
    - exact H1.
    - exists o2. split; [exact H3|exact (form_trans o2 o1 o H4 H2)].
  Qed.

  (** ** replay *)
  Variable all : list (@op V).
  Variable W : world.
  Definition last_value (i p : nat) : option V := match lookup i W with Some o => nth_error (props_of o) p | None => None end.
  (** each property of the object replayed on is as now, or already as it will be at the end *)
  Definition near : tree -> obj -> Prop :=
    like (fun (a : list V) (b : nat * list V) =>
            length a = length (snd b) /\
            forall p, kept recordable all (fst b) p -> nth_error a p = nth_error (snd b) p \/ nth_error a p = last_value (fst b) p).
  Lemma erase_like o : like (fun (a : list V) (b : nat * list V) => a = snd b) (erase o) o.
  Proof.
    induction o as [a ss IH] using node_deep. cbn [erase]. constructor; [reflexivity|].
    induction IH as [|l ss Hl IH IHss]; cbn [map]; constructor; [|exact IHss]. clear IHss IH. induction Hl; cbn [map]; constructor; auto.
  Qed.
  Lemma like_impl_r {A B} (R S : A -> B -> Prop) n m :
    (forall x b, In x (nodes m) -> R b (label x) -> S b (label x)) -> like R n m -> like S n m.
  Proof.
    intros H Hl.
    apply (like_flip (fun b a => S a b)). refine (like_impl (fun b a => R a b) _ m n _ (like_flip R n m Hl)). intros x b Hx. exact (H x b Hx).
  Qed.
  (** a copy of an object made at the end, when its form is still the same *)
  Lemma near_copy o x : NoDup (all_ids W) -> In o (all_nodes W) -> form o x -> near (erase o) x.
  Proof.
    intros Hn Ho Hf. assert (like (fun (a : list V) (b : nat * list V) => length a = length (snd b) /\ forall p, nth_error a p = last_value (fst b) p) (erase o) o) as H.
    { refine (like_impl_r _ _ _ _ _ (erase_like o)). intros z b Hz ->. split; [reflexivity|]. intros p. unfold last_value.
      change (fst (label z)) with (id_of z). rewrite (lookup_in W z Hn); [reflexivity|].
      apply in_all_nodes in Ho. destruct Ho as (r & Hr & Ho). apply in_all_nodes. exists r. split; [exact Hr|exact (nodes_trans r o z Ho Hz)]. }
    refine (like_trans _ _ _ _ _ o x H Hf). intros a b d [H1 H2] [H3 H4]. split; [congruence|]. intros p _. right. rewrite <- H3. apply H2.
  Qed.

  Lemma mapi_app {X Y} (f : nat -> X -> Y) l1 : forall j l2, mapi_from f j (l1 ++ l2) = mapi_from f j l1 ++ mapi_from f (j + length l1) l2.
  Proof.
    induction l1 as [|x l1 IH]; intros j l2; cbn [mapi_from app length]; [rewrite Nat.add_0_r; reflexivity|].
    rewrite IH. replace (S j + length l1) with (j + S (length l1)) by lia. reflexivity.
  Qed.
  Lemma insert_end {X} (x : X) l n : n = length l -> insert_at n x l = l ++ [x].
  Proof. intros ->. unfold insert_at. rewrite firstn_all, skipn_all. reflexivity. Qed.
  Lemma mk_slot_insert q k n (c : obj) l : n = length l -> mk_slot q k (insert_at n c l) = insert_at n (mk (q ++ [(k, n)]) c) (mk_slot q k l).
  Proof.
    intros Hn. rewrite insert_end by exact Hn. rewrite insert_end by (unfold mk_slot; rewrite mapi_length; exact Hn).
    unfold mk_slot. rewrite mapi_app. cbn [mapi_from Nat.add]. rewrite <- Hn. reflexivity.
  Qed.
  Lemma delete_end {X} (l : list X) n : S n = length l -> exists x, l = firstn n l ++ [x] /\ delete_at n l = firstn n l.
  Proof.
    intros Hn. destruct (nth_error l n) as [x|] eqn:E; [|apply nth_error_None in E; lia].
    exists x. apply nth_error_split in E. destruct E as (l1 & l2 & -> & Hl). destruct l2 as [|y l2]; [|rewrite app_length in Hn; simpl in Hn; lia].
    rewrite <- Hl, delete_at_app, firstn_app, firstn_all, Nat.sub_diag, firstn_O, !app_nil_r. auto.
  Qed.
  Lemma mk_slot_delete q k n (l : list obj) : S n = length l -> mk_slot q k (delete_at n l) = delete_at n (mk_slot q k l).
  Proof.
    intros Hn. destruct (delete_end l n Hn) as (x & E & ->). assert (length (firstn n l) = n) as Hl by (rewrite firstn_length; lia).
    rewrite E at 2. unfold mk_slot. rewrite mapi_app. cbn [mapi_from Nat.add].
    assert (forall (m : list rcd) z, length m = n -> m = delete_at n (m ++ [z])) as Hd by (intros m z <-; rewrite delete_at_app, app_nil_r; reflexivity).
    apply Hd. rewrite mapi_length. exact Hl.
  Qed.
  Lemma shifts_up_end n (l : list rcd) : n = length l -> shifts_up n l = false.
  Proof.
    intros ->. unfold shifts_up. apply not_true_iff_false. intros H. apply existsb_exists in H. destruct H as (j & Hj & H).
    apply in_seq in Hj. apply Nat.leb_le in H. lia.
  Qed.
  Lemma shifts_down_end n (l : list rcd) : S n = length l -> shifts_down n l = false.
  Proof.
    intros E. unfold shifts_down. apply not_true_iff_false. intros H. apply existsb_exists in H. destruct H as (j & Hj & H).
    apply in_seq in Hj. apply Nat.ltb_lt in H. lia.
  Qed.
  Lemma like_length {A B} (R : A -> B -> Prop) n m : like R n m -> length (slots n) = length (slots m).
  Proof. intros H. apply like_slots in H. exact (Forall2_length _ _ _ H). Qed.
  Lemma upd_length i a c o : length (props_of (upd (is_id i) (act a c) o)) = length (props_of o).
  Proof.
    destruct o as [[j ps] ss]. cbn [upd]. destruct (is_id i (j, ps)); [|reflexivity]. destruct a as [i' p v|i' k n c'|i' k n|i' k c']; cbn [act]; try reflexivity.
    - unfold set_prop, props_of. cbn [label snd]. apply set_nth_length.
    - destruct c; reflexivity.
  Qed.
  Lemma near_step r fro w a w' o t :
    NoDup (all_ids w) -> NoDup (all_ids W) -> In a all -> followed r fro w a -> change item w a = Some w' ->
    lookup r w = Some o ->
    (forall f x, In f (freeze r fro w a) -> lookup f w' = Some x -> exists x', lookup f W = Some x' /\ form x' x) ->
    (forall i x, lookup i w' = Some x -> exists x', lookup i W = Some x' /\ length (props_of x') = length (props_of x)) ->
    near t o ->
    exists o' t', lookup r w' = Some o' /\
      upd (is_id (target a)) (react a (taken a w)) (mk [] o) = mk [] o' /\
      apply item W (flat_map (logs recordable a) (filter (fun x => is_id (target a) (label x)) (nodes (mk [] o)))) t = Ok t' /\ near t' o'.
  Proof.
    intros Hn HW Ha Hf H Hl Hfut Hlen Ht. destruct (lookup_some _ _ _ Hl) as [Ho _].
    rewrite (change_lookup item w a w' r o Hn H Hl). destruct (in_dec Nat.eq_dec (target a) (ids o)) as [Hin|Hout].
    2:{ exists o, t. rewrite (upd_absent (target a) _ o Hout). pose proof (hits_absent (target a) o Hout) as H0. split; [reflexivity|]. split.
        - apply upd_none, hits_none. rewrite mk_hits. exact H0.
        - rewrite none_heard by (rewrite mk_hits; exact H0). auto. }
    destruct (in_ids_lookup w o (target a) Hn Ho Hin) as (x & Hx & Hxo). destruct (nodes_sub o x Hxo) as (q & Hq).
    destruct (lookup_some _ _ _ Hx) as [_ Hid]. destruct (change_cases item w a w' Hn H) as (x0 & _ & _ & Hx0 & Hp & _ & _).
    assert (x0 = x) as -> by congruence. clear Hx0.
    assert (hits (is_id (target a)) o <= 1) as Hh by (apply hits_once; exact (nodup_root o w Hn Ho)).
    assert (is_id (target a) (label x) = true) as His by (unfold is_id; apply Nat.eqb_eq; exact Hid).
    assert (sub q (mk [] o) = Some (mk q x)) as Hqm by (rewrite mk_sub, Hq; reflexivity).
    assert (is_id (target a) (label (mk q x)) = true) as Hism by (rewrite mk_eq; exact His).
    rewrite (upd_put _ (act a (taken a w)) q o x Hh Hq His).
    rewrite (upd_put _ (react a (taken a w)) q (mk [] o) (mk q x)); [|rewrite mk_hits; exact Hh|exact Hqm|exact Hism].
    rewrite (one_heard _ q (mk [] o) (mk q x)); [|rewrite mk_hits; exact Hh|exact Hqm|exact Hism]. cbn [flat_map]. rewrite app_nil_r.
    destruct (like_sub _ q t o x Ht Hq) as (y & Hy & Hyx).
    assert (recorded r w (target a) = true) as Hrec.
    { unfold recorded. rewrite Hl. apply existsb_exists. exists (target a). split; [exact Hin|apply Nat.eqb_refl]. }
    assert (snd (label (mk q x)) = q) as Hlab by (rewrite mk_eq; reflexivity).
    exists (put q (act a (taken a w) x) o).
    cut (exists y', react a (taken a w) (mk q x) = mk q (act a (taken a w) x) /\
                    apply item W (logs recordable a (mk q x)) t = Ok (put q y' t) /\ near y' (act a (taken a w) x)).
    { intros (y' & H1 & H2 & H3). exists (put q y' t). split; [reflexivity|]. rewrite H1. split; [exact (mk_put q [] o _)|]. split; [exact H2|].
      apply like_put; assumption. }
    destruct a as [i p v|i k n c|i k n|i k c]; cbn [target] in *.
    - (* a property *)
      cbn [logs react act possible taken] in *. rewrite Hlab. apply Nat.ltb_lt in Hp.
      assert (mk q x = mk q (set_prop p v x)) as Hmk by (rewrite !mk_eq; reflexivity).
      destruct x as [[j ps] ss]. cbn [id_of label fst] in Hid. subst j. destruct y as [ys ts]. inversion Hyx as [? ? ? ? [Hll Hkk] Hss]; subst.
      unfold set_prop. unfold set_prop in Hmk. cbn [slots id_of props_of label fst snd] in *. destruct (recordable i p) eqn:Er.
      + destruct (Hlen i (upd (is_id i) (set_prop p v) (Node (i, ps) ss))) as (x' & Hx' & Hlx').
        { exact (change_lookup item w (SetProp i p v) w' i _ Hn H Hx). }
        rewrite (upd_length i (SetProp i p v) None) in Hlx'. cbn [props_of label snd] in Hlx'.
        destruct (nth_error (props_of x') p) as [u|] eqn:Eu; [|apply nth_error_None in Eu; lia].
        exists (Node (set_nth p u ys) ts). split; [exact Hmk|]. split.
        * cbn [apply call]. rewrite (at_path_put _ q t (Node ys ts) (Node (set_nth p u ys) ts) Hy); [reflexivity|]. rewrite Hx', Eu. reflexivity.
        * constructor; [|exact Hss]. cbn [fst snd]. split; [rewrite !set_nth_length; exact Hll|]. intros p' Hk'. rewrite !nth_error_set_nth.
          destruct (Nat.eqb_spec p' p) as [->|Hne]; [|exact (Hkk p' Hk')]. right. destruct (nth_error ys p) eqn:Ey; [|apply nth_error_None in Ey; lia].
          unfold last_value. rewrite Hx', Eu. reflexivity.
      + exists (Node ys ts). split; [exact Hmk|]. split; [cbn [apply]; rewrite (put_same q t _ Hy); reflexivity|].
        constructor; [|exact Hss]. cbn [fst snd]. split; [rewrite set_nth_length; exact Hll|]. intros p' Hk'. rewrite nth_error_set_nth.
        destruct (Nat.eqb_spec p' p) as [->|Hne]; [|exact (Hkk p' Hk')]. exfalso. destruct Hk' as [Hk'|Hk']; [congruence|exact (Hk' v Ha)].
    - (* an item put in *)
      cbn [followed] in Hf. destruct Hf as [_ Hf]. specialize (Hf Hrec). unfold slot_length in Hf. rewrite Hx in Hf.
      cbn [logs react act possible] in *. apply andb_prop in Hp. destruct Hp as [Hp Htk]. apply andb_prop in Hp. destruct Hp as [Hp _]. apply Nat.ltb_lt in Hp.
      destruct (taken (Insert i k n c) w) as [z|] eqn:Et; [|discriminate].
      rewrite Hlab, mk_slot_at. rewrite (shifts_up_end n (mk_slot q k (slot k x))) by (unfold mk_slot; rewrite mapi_length; exact Hf).
      pose proof (taken_lookup w i k n c z Hn Et) as Hz.
      assert (lookup c w' = Some z) as Hz'.
      { rewrite (change_lookup item w _ w' c z Hn H Hz), upd_absent; [reflexivity|]. exact (taken_out _ w w' z Hn H Et). }
      destruct (Hfut c z) as (z' & H1 & H2); [|exact Hz'|].
      { cbn [freeze]. rewrite Hrec, Hz. apply in_or_app. left. destruct (lookup_some _ _ _ Hz) as [_ <-]. apply in_map, nodes_self. }
      exists (set_slot k (insert_at n (erase z') (slot k y)) y). split; [rewrite mk_set_slot, mk_slot_insert by exact Hf; reflexivity|]. split.
      + cbn [apply call]. rewrite (at_path_put _ q t y (set_slot k (insert_at n (erase z') (slot k y)) y) Hy); [reflexivity|].
        rewrite H1. rewrite <- (like_length _ _ _ Hyx) in Hp. apply Nat.ltb_lt in Hp. rewrite Hp. reflexivity.
      + apply like_set_slot; [exact Hyx|]. apply Forall2_insert; [exact (like_slot _ _ _ k Hyx)|].
        destruct (lookup_some _ _ _ H1) as [Hz1 _]. exact (near_copy z' z HW Hz1 H2).
    - (* an item taken out *)
      cbn [followed] in Hf. destruct Hf as [_ Hf]. specialize (Hf Hrec). unfold slot_length in Hf. rewrite Hx in Hf.
      cbn [logs react act possible taken] in *. apply andb_prop in Hp. destruct Hp as [Hp _]. apply andb_prop in Hp. destruct Hp as [Hp _]. apply Nat.ltb_lt in Hp.
      rewrite Hlab, mk_slot_at. rewrite (shifts_down_end n (mk_slot q k (slot k x))) by (unfold mk_slot; rewrite mapi_length; exact Hf).
      exists (set_slot k (delete_at n (slot k y)) y). split; [rewrite mk_set_slot, mk_slot_delete by exact Hf; reflexivity|]. split.
      + unfold mk_slot. rewrite nth_error_mapi. destruct (nth_error (slot k x) n) as [z|] eqn:En; [|apply nth_error_None in En; lia]. cbn [option_map apply call].
        rewrite (at_path_put _ q t y (set_slot k (delete_at n (slot k y)) y) Hy); [reflexivity|].
        pose proof (like_length _ _ _ Hyx) as Hly. destruct (nth_error (slots y) k) as [l|] eqn:El; [|apply nth_error_None in El; lia].
        pose proof (like_slot _ _ _ k Hyx) as Hs. unfold slot at 1 in Hs. unfold slot. rewrite (nth_nth_error k _ [] l El) in *.
        apply Forall2_length in Hs. destruct (nth_error l n) eqn:Eln; [reflexivity|]. apply nth_error_None in Eln. lia.
      + apply like_set_slot; [exact Hyx|]. apply Forall2_delete. exact (like_slot _ _ _ k Hyx).
    - cbn [followed] in Hf. destruct Hf as [_ Hf]. congruence.
  Qed.
End Follow.

Section Replay.
  Context {V : Type} (item : nat -> bool) (recordable : nat -> nat -> bool).
  Notation obj := (node (nat * list V)).
  Notation world := (@world V).

  Lemma worlds_length l : forall (w : world) i (x : obj), NoDup (all_ids w) -> lookup i w = Some x ->
    exists x', lookup i (worlds item w l) = Some x' /\ length (props_of x') = length (props_of x).
  Proof.
    induction l as [|a l IH]; intros w i x Hn Hl; [exists x; auto|]. unfold worlds. cbn [fold_left].
    destruct (change item w a) as [w'|] eqn:E; [|exact (IH w i x Hn Hl)].
    destruct (IH w' i _ (change_nodup item w a w' Hn E) (change_lookup item w a w' i x Hn E Hl)) as (x' & H1 & H2).
    exists x'. split; [exact H1|]. rewrite H2. apply upd_length.
  Qed.
  Lemma run_world (l : list (@op V)) : forall s : @state V, st_world (run item recordable s l) = worlds item (st_world s) l.
  Proof.
    induction l as [|a l IH]; intros s; [reflexivity|]. change (run item recordable s (a :: l)) with (run item recordable (step item recordable s a) l).
    rewrite IH. unfold worlds. cbn [fold_left]. unfold step. destruct (change item (st_world s) a); reflexivity.
  Qed.
  Lemma replay_all all r l : forall (w : world) L fro (o : obj) t0 t,
    NoDup (all_ids w) -> lookup r w = Some o -> follows item r fro w l -> closed fro w -> incl l all ->
    apply item (worlds item w l) L t0 = Ok t -> near recordable all (worlds item w l) t o ->
    exists t' o', apply item (worlds item w l) (st_log (run item recordable (State w (mk [] o) L) l)) t0 = Ok t' /\
      lookup r (worlds item w l) = Some o' /\ near recordable all (worlds item w l) t' o' /\
      st_rec (run item recordable (State w (mk [] o) L) l) = mk [] o'.
  Proof.
    induction l as [|a l IH]; intros w L fro o t0 t Hn Hl Hf Hc Hin Hap Ht; [exists t, o; auto|].
    cbn [follows] in Hf. destruct Hf as [Hf Hs]. destruct (change item w a) as [w'|] eqn:E; [|destruct Hs].
    assert (worlds item w (a :: l) = worlds item w' l) as EW by (unfold worlds; cbn [fold_left]; rewrite E; reflexivity).
    rewrite EW in *. pose proof (change_nodup item w a w' Hn E) as Hn'.
    destruct (near_step item recordable all (worlds item w' l) r fro w a w' o t) as (o' & t' & H1 & H2 & H3 & H4); auto.
    - apply worlds_nodup, Hn'.
    - apply Hin. left. reflexivity.
    - intros f x Hff Hx. exact (frozen_stays item r l (freeze r fro w a) w' Hn' (closed_step item r fro w a w' Hn Hc Hf E) Hs f x Hff Hx).
    - intros i x. apply worlds_length, Hn'.
    - change (run item recordable (State w (mk [] o) L) (a :: l)) with (run item recordable (step item recordable (State w (mk [] o) L) a) l).
      unfold step. cbn [st_world st_rec st_log]. rewrite E, H2.
      apply (IH w' _ (freeze r fro w a) o' t0 t'); auto.
      + exact (closed_step item r fro w a w' Hn Hc Hf E).
      + intros b Hb. apply Hin. right. exact Hb.
      + rewrite apply_app, Hap. exact H3.
  Qed.
End Replay.
