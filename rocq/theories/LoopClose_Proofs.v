From Coq Require Import Arith Bool List Lia.
From Verif Require Import PyBase LoopClose_Model LoopClose_Spec.
Import ListNotations.

(** ** lists *)
Lemma upd_nth {A} (l : list A) t u x : nth_error (upd t x l) u =
  if Nat.eqb u t then match nth_error l t with Some _ => Some x | None => None end else nth_error l u.
Proof.
  revert t u. induction l as [|y l IH]; intros t u; simpl.
  - destruct (Nat.eqb u t); destruct t, u; reflexivity.
  - destruct t, u; simpl; try reflexivity. apply IH.
Qed.
Lemma upd_len {A} (l : list A) t x : length (upd t x l) = length l.
Proof. revert t. induction l as [|y l IH]; intros [|t]; simpl; auto. Qed.
Definition cnt {A} (f : A -> bool) (l : list A) : nat := length (filter f l).
Lemma cnt_app {A} (f : A -> bool) l k : cnt f (l ++ k) = cnt f l + cnt f k.
Proof. unfold cnt. rewrite filter_app, app_length. reflexivity. Qed.
Lemma cnt_cons {A} (f : A -> bool) x l : cnt f (x :: l) = (if f x then 1 else 0) + cnt f l.
Proof. unfold cnt. simpl. destruct (f x); reflexivity. Qed.
Lemma cnt_nil {A} (f : A -> bool) : cnt f [] = 0.
Proof. reflexivity. Qed.
Lemma cnt_upd {A} (f : A -> bool) l t k x : nth_error l t = Some k ->
  cnt f (upd t x l) + (if f k then 1 else 0) = cnt f l + (if f x then 1 else 0).
Proof.
  revert t. induction l as [|y l IH]; intros [|t] E; try discriminate; simpl in E.
  - injection E as ->. simpl. rewrite !cnt_cons. lia.
  - simpl. rewrite !cnt_cons. specialize (IH t E). lia.
Qed.
Lemma cnt_none {A} (f : A -> bool) l : (forall x, In x l -> f x = false) -> cnt f l = 0.
Proof.
  induction l as [|y l IH]; intros H; [reflexivity|]. rewrite cnt_cons, (H y (or_introl eq_refl)), IH; [reflexivity|].
  intros x Hx. apply H. right. exact Hx.
Qed.
Lemma cnt_zero {A} (f : A -> bool) l : cnt f l = 0 -> forall x, In x l -> f x = false.
Proof.
  induction l as [|y l IH]; intros H x []; rewrite cnt_cons in H.
  - subst y. destruct (f x); [discriminate|reflexivity].
  - apply IH; [destruct (f y); [discriminate|exact H]|assumption].
Qed.
Lemma cnt_pos {A} (f : A -> bool) l : 0 < cnt f l -> exists x, In x l /\ f x = true.
Proof.
  induction l as [|y l IH]; rewrite ?cnt_cons; intros H; [inversion H|]. destruct (f y) eqn:E; [exists y; split; [left|]; auto|].
  destruct (IH H) as (x & Hx & Ef). exists x. split; [right|]; auto.
Qed.

Definition is_gather (h : handle) : bool := match h with HGather => true | _ => false end.
Definition is_stop (h : handle) : bool := match h with HStop => true | _ => false end.
Definition open_ (k : task) : bool := unfinished k && watched k.
Definition awake (o : option task) : nat := match o with Some (Task (Some _) false _) => 1 | _ => 0 end.
Lemma steps_step t n m : cnt (is_step t) (map HStep (seq n m)) = if (n <=? t) && (t <? n + m) then 1 else 0.
Proof.
  revert n. induction m as [|m IH]; intros n.
  - simpl. destruct (Nat.leb_spec n t); destruct (Nat.ltb_spec t (n + 0)); simpl; try reflexivity. lia.
  - cbn [seq map]. rewrite cnt_cons, IH. change (is_step t (HStep n)) with (Nat.eqb n t).
    destruct (Nat.eqb_spec n t); destruct (Nat.leb_spec (S n) t);
      destruct (Nat.ltb_spec t (S n + m)); destruct (Nat.leb_spec n t); destruct (Nat.ltb_spec t (n + S m)); cbn [andb]; lia.
Qed.
Lemma steps_gather n m : cnt is_gather (map HStep (seq n m)) = 0.
Proof. apply cnt_none. intros x Hx. apply in_map_iff in Hx. destruct Hx as (u & <- & _). reflexivity. Qed.
Lemma steps_stop n m : cnt is_stop (map HStep (seq n m)) = 0.
Proof. apply cnt_none. intros x Hx. apply in_map_iff in Hx. destruct Hx as (u & <- & _). reflexivity. Qed.

(** ** what holds between any two handles; [hs] are those still to be run in this round *)
Record inv (hs : list handle) (s : loop) : Prop := Inv {
  i_step : forall t, cnt (is_step t) (hs ++ ready s) = awake (nth_error (tasks s) t);
  i_miss : missing s = cnt is_gather (hs ++ ready s) + cnt open_ (tasks s);
  i_stop : cnt is_stop (hs ++ ready s) + (if stopping s then 1 else 0) = (if missing s =? 0 then 1 else 0);
  i_sleep : forall k, In k (tasks s) -> rest k = None -> asleep k = false }.

Lemma In_upd {A} (l : list A) t x y : In y (upd t x l) -> y = x \/ In y l.
Proof.
  revert t. induction l as [|z l IH]; intros [|t]; simpl; [tauto|tauto|intros [<-|H]; tauto|intros [<-|H]; [tauto|]].
  destruct (IH t H); tauto.
Qed.

(** the tasks after a step *)
Lemma step_tasks (l : list task) t k x new u : nth_error l t = Some k ->
  nth_error (upd t x l ++ new) u = if Nat.eqb u t then Some x else if u <? length l then nth_error l u else nth_error new (u - length l).
Proof.
  intros E. assert (Ht : t < length l) by (apply nth_error_Some; rewrite E; discriminate).
  destruct (Nat.ltb_spec u (length l)) as [H|H].
  - rewrite nth_error_app1 by (rewrite upd_len; exact H). rewrite upd_nth, E. reflexivity.
  - rewrite nth_error_app2 by (rewrite upd_len; exact H). rewrite upd_len. destruct (Nat.eqb_spec u t); [lia|reflexivity].
Qed.
Lemma awake_new creates i : awake (nth_error (map (fun p => Task (Some p) false false) creates) i) = if i <? length creates then 1 else 0.
Proof.
  destruct (Nat.ltb_spec i (length creates)) as [H|H].
  - apply nth_error_Some in H. rewrite nth_error_map. destruct (nth_error creates i); [reflexivity|contradiction].
  - apply nth_error_None in H. rewrite nth_error_map, H. reflexivity.
Qed.
Lemma open_new creates : cnt open_ (map (fun p => Task (Some p) false false) creates) = 0.
Proof. apply cnt_none. intros k Hk. apply in_map_iff in Hk. destruct Hk as (p & <- & _). reflexivity. Qed.

Lemma step_inv hs s t creates sl w x more :
  inv (HStep t :: hs) s -> nth_error (tasks s) t = Some (Task (Some creates) sl w) ->
  forall news, (rest x = None -> asleep x = false) -> watched x = w ->
  (forall u, cnt (is_step u) more = if Nat.eqb u t then awake (Some x) else 0) ->
  cnt is_gather more = (if w && negb (unfinished x) then 1 else 0) -> cnt is_stop more = 0 ->
  inv hs (Loop (upd t x (tasks s) ++ map (fun p => Task (Some p) false false) news)
    ((ready s ++ map HStep (seq (length (tasks s)) (length news))) ++ more) (missing s) (stopping s)).
Proof.
  intros [IS IM IP IL] E news Hx Hw M1 M2 M3.
  assert (Ht : t < length (tasks s)) by (apply nth_error_Some; rewrite E; discriminate).
  split; simpl.
  - intros u. specialize (IS u). simpl in IS. rewrite cnt_cons in IS. rewrite !cnt_app in *. rewrite M1, steps_step, (step_tasks _ _ _ _ _ _ E).
    simpl in IS. destruct (Nat.eqb_spec u t) as [->|N].
    + rewrite Nat.eqb_refl, E in IS. simpl in IS. assert (cnt (is_step t) hs + cnt (is_step t) (ready s) = 0) by (destruct sl; lia).
      destruct (Nat.leb_spec (length (tasks s)) t); [lia|]. simpl. lia.
    + destruct (Nat.eqb_spec t u); [subst; contradiction|]. destruct (Nat.ltb_spec u (length (tasks s))) as [L|L].
      * destruct (Nat.leb_spec (length (tasks s)) u); [lia|]. simpl. simpl in IS. lia.
      * rewrite awake_new. assert (Z : nth_error (tasks s) u = None) by (apply nth_error_None; exact L). rewrite Z in IS. simpl in IS.
        destruct (Nat.leb_spec (length (tasks s)) u); [|lia]. simpl.
        destruct (Nat.ltb_spec u (length (tasks s) + length news)); destruct (Nat.ltb_spec (u - length (tasks s)) (length news)); lia.
  - simpl in IM. rewrite cnt_cons in IM. rewrite !cnt_app in *. rewrite steps_gather, M2, open_new. simpl in IM.
    assert (C := cnt_upd open_ (tasks s) t _ x E). unfold open_ at 2 in C. simpl in C. unfold open_ at 3 in C. rewrite Hw in C. unfold unfinished in *.
    destruct w, (rest x); simpl in *; lia.
  - simpl in IP. rewrite cnt_cons in IP. rewrite !cnt_app in *. rewrite steps_stop, M3. simpl in IP. lia.
  - intros k Hk. apply in_app_or in Hk. destruct Hk as [Hk|Hk].
    + apply In_upd in Hk. destruct Hk as [->|Hk]; [exact Hx|exact (IL k Hk)].
    + apply in_map_iff in Hk. destruct Hk as (p & <- & _). discriminate.
Qed.

Lemma exec_inv h hs s : inv (h :: hs) s -> inv hs (exec s h).
Proof.
  intros I. destruct h as [t| |].
  - simpl. assert (I' := I). destruct I' as [IS IM IP IL].
    assert (A : awake (nth_error (tasks s) t) <> 0).
    { rewrite <- IS. cbn [app]. rewrite cnt_cons. cbn [is_step]. rewrite Nat.eqb_refl. discriminate. }
    destruct (nth_error (tasks s) t) as [[[[creates after]|] sl w]|] eqn:E; simpl in A; try contradiction.
    destruct after as [|p|p].
    + assert (G := step_inv hs s t _ sl w (Task None false w) (if w then [HGather] else []) I E creates).
      destruct w; simpl in G.
      * apply G; auto; intros u; unfold cnt; simpl; destruct (Nat.eqb u t); reflexivity.
      * rewrite app_nil_r in G. apply G; auto; intros u; unfold cnt; simpl; destruct (Nat.eqb u t); reflexivity.
    + apply (step_inv hs s t _ sl w (Task (Some p) false w) [HStep t] I E creates); auto.
      * intros u. unfold cnt. simpl. rewrite (Nat.eqb_sym t u). destruct (Nat.eqb u t); reflexivity.
      * unfold cnt. simpl. rewrite andb_false_r. reflexivity.
    + assert (G := step_inv hs s t _ sl w (Task (Some p) true w) [] I E creates). rewrite app_nil_r in G. apply G; auto.
      * discriminate.
      * intros u. unfold cnt. simpl. destruct (Nat.eqb u t); reflexivity.
      * unfold cnt. simpl. rewrite andb_false_r. reflexivity.
  - destruct I as [IS IM IP IL]. cbn [app] in IM. rewrite cnt_cons in IM. cbn [is_gather] in IM.
    simpl. destruct (Nat.eqb_spec (missing s) 1) as [M|M].
    + split; simpl; [| | |exact IL].
      * intros t. rewrite <- IS. cbn [app]. rewrite cnt_cons. cbn [is_step]. rewrite app_assoc, cnt_app. unfold cnt at 2. simpl. lia.
      * rewrite app_assoc, cnt_app. unfold cnt at 2. simpl. lia.
      * cbn [app] in IP. rewrite cnt_cons, M in IP. simpl in IP. rewrite M. simpl. rewrite app_assoc, cnt_app. unfold cnt at 2. simpl. lia.
    + split; simpl; [| | |exact IL].
      * intros t. rewrite <- IS. cbn [app]. rewrite cnt_cons. reflexivity.
      * lia.
      * cbn [app] in IP. rewrite cnt_cons in IP. cbn [is_stop] in IP. destruct (missing s) as [|[|m]]; [lia|lia|]. simpl in *. exact IP.
  - destruct I as [IS IM IP IL]. simpl. split; simpl; [| | |exact IL].
    + intros t. rewrite <- IS. cbn [app]. rewrite cnt_cons. reflexivity.
    + cbn [app] in IM. rewrite cnt_cons in IM. exact IM.
    + cbn [app] in IP. rewrite cnt_cons in IP. cbn [is_stop] in IP. destruct (missing s =? 0); destruct (stopping s); lia.
Qed.
Lemma wake_inv s t : inv [] s -> inv [] (wake s t).
Proof.
  intros I. unfold wake. destruct (nth_error (tasks s) t) as [[[p|] [|] w]|] eqn:E; try exact I.
  destruct I as [IS IM IP IL]. split; simpl in *.
  - intros u. rewrite cnt_app, IS, upd_nth, E. unfold cnt. simpl. rewrite (Nat.eqb_sym t u).
    destruct (Nat.eqb_spec u t) as [->|N]; simpl; [rewrite E; reflexivity|lia].
  - rewrite cnt_app. unfold cnt at 2. simpl. assert (C := cnt_upd open_ (tasks s) t _ (Task (Some p) false w) E).
    unfold open_ at 2 4 in C. simpl in C. destruct w; simpl in C; lia.
  - rewrite cnt_app. unfold cnt at 2. simpl. lia.
  - intros k Hk. apply In_upd in Hk. destruct Hk as [->|Hk]; [discriminate|exact (IL k Hk)].
Qed.
Lemma wakes_inv come s : inv [] s -> inv [] (fold_left wake come s).
Proof. revert s. induction come as [|t l IH]; intros s I; [exact I|]. simpl. apply IH. apply wake_inv. exact I. Qed.
Definition emptied (s : loop) : loop := Loop (tasks s) [] (missing s) (stopping s).
Lemma emptied_inv s : inv [] s -> inv (ready s) (emptied s).
Proof. intros [IS IM IP IL]. split; simpl in *; rewrite ?app_nil_r; auto. Qed.
Lemma execs_inv hs s : inv hs s -> inv [] (fold_left exec hs s).
Proof. revert s. induction hs as [|h hs IH]; intros s I; [exact I|]. simpl. apply IH. apply exec_inv. exact I. Qed.
Lemma round_inv come s : inv [] s -> inv [] (round come s).
Proof. intros I. unfold round. apply execs_inv. apply emptied_inv. apply wakes_inv. exact I. Qed.
Lemma rounds_inv env n s : inv [] s -> inv [] (rounds env n s).
Proof. intros I. induction n as [|n IH]; [exact I|]. simpl. apply round_inv. exact IH. Qed.

Lemma filter_map_length {A B} (f : A -> B) (g : B -> bool) (l : list A) : length (filter g (map f l)) = length (filter (fun x => g (f x)) l).
Proof. induction l as [|x l IH]; [reflexivity|]. simpl. destruct (g (f x)); simpl; rewrite IH; reflexivity. Qed.
Lemma gather_inv s : loop_ok s -> inv [] (gather s).
Proof.
  intros (Hs & Hh & Hc & Hl).
  assert (N1 : cnt is_gather (ready s) = 0).
  { apply cnt_none. intros h H. destruct (Hh h H) as [t ->]. reflexivity. }
  assert (N2 : cnt is_stop (ready s) = 0).
  { apply cnt_none. intros h H. destruct (Hh h H) as [t ->]. reflexivity. }
  unfold gather. set (n := length (filter unfinished (tasks s))).
  split; simpl.
  - intros t. transitivity (cnt (is_step t) (ready s)).
    + destruct (n =? 0); [|reflexivity]. rewrite cnt_app. unfold cnt at 2. simpl. lia.
    + unfold cnt. rewrite Hc, nth_error_map. destruct (nth_error (tasks s) t) as [[[p|] [|] w]|]; reflexivity.
  - transitivity (cnt is_gather (ready s) + n).
    + rewrite N1. reflexivity.
    + f_equal.
      * destruct (n =? 0); [|reflexivity]. rewrite cnt_app. unfold cnt at 3. simpl. lia.
      * unfold cnt, n. rewrite filter_map_length. f_equal. apply filter_ext. intros [[p|] a w]; reflexivity.
  - destruct (Nat.eqb_spec n 0) as [Z|Z]; rewrite ?cnt_app, ?N2; reflexivity.
  - intros k Hk. apply in_map_iff in Hk. destruct Hk as (k' & <- & Hk). simpl. apply Hl. exact Hk.
Qed.
