(** Properties of filtered lists of items that may be equal. *)
From Coq Require Import List Bool Arith Lia.
From Verif Require Import PyBase EqItems_Model EqItems_Spec EqItems_Proofs.
Import ListNotations.

Section Props.
  Context {X K : Type} (X_dec : forall x y : X, {x = y} + {x <> y}) (K_dec : forall x y : K, {x = y} + {x <> y}).
  Variable cls : X -> K.
  Variable accept : K -> bool.
  Notation op := (@op X).
  Notation run := (run X_dec K_dec cls accept).
  Notation step := (step X_dec K_dec cls accept).
  Notation shown := (filter (fun x => accept (cls x))).

  (** As long as nothing is inserted that is equal to an item there, the list shows the accepted items in order and nothing
      raises. *)
  Theorem eqitems_right (h : list op) :
    (forall h1 k x h2, h = h1 ++ Ins k x :: h2 -> ~ In (cls x) (map cls (cont (run h1)))) ->
    master (run h) = cont (run h) /\ items (run h) = shown (cont (run h)) /\ raised (run h) = [].
  Proof.
    intros H. enough (R : right cls accept (run h)) by (destruct R as (A & B & _ & _ & C); auto).
    induction h as [|o h IH] using rev_ind; [repeat split; try reflexivity; try (intros Q; exact Q); constructor|]. rewrite run_snoc.
    assert (R : right cls accept (run h)) by (apply IH; intros h1 k x h2 E; apply (H h1 k x (h2 ++ [o])); rewrite E, <- app_assoc; reflexivity).
    destruct o as [k x|k]; [|apply right_del, R]. destruct (le_dec k (length (cont (run h)))) as [L|L].
    - apply right_ins; [exact R|exact L|]. apply (H h k x []). reflexivity.
    - cbn [EqItems_Model.step]. destruct (k <=? length (cont (run h))) eqn:E; [apply Nat.leb_le in E; contradiction|exact R].
  Qed.

  (** In all histories: the list's own copy of the container never holds two items that are equal; so it lacks items as long
      as the container holds such. *)
  Theorem eqitems_copy (h : list op) : distinct cls (master (run h)) /\ (~ distinct cls (cont (run h)) -> master (run h) <> cont (run h)).
  Proof. split; [apply master_distinct|]. intros N E. apply N. rewrite <- E. apply master_distinct. Qed.

  (** If items are only inserted, exactly one of the items that are equal is shown, if they are accepted. *)
  Theorem eqitems_inserted (h : list op) : (forall o, In o h -> inserts o) ->
    distinct cls (items (run h)) /\ forall c, In c (map cls (items (run h))) <-> In c (map cls (cont (run h))) /\ accept c = true.
  Proof.
    intros H. pose proof (weak_run X_dec K_dec cls accept h H) as W.
    destruct W as (I & D & C). rewrite I. split.
    - clear -D. unfold distinct in *. induction (master (run h)) as [|y l IH]; [constructor|]. cbn [map filter] in *. inversion D as [|? ? N D']; subst.
      destruct (accept (cls y)); [|apply IH, D']. cbn [map]. constructor; [|apply IH, D']. intros M. apply N. apply in_map_iff in M as (z & E & M). apply filter_In in M as [M _].
      rewrite <- E. apply in_map, M.
    - intros c. rewrite <- C, !in_map_iff. split.
      + intros (y & <- & M). apply filter_In in M as [M A]. split; [exists y; auto|exact A].
      + intros ((y & <- & M) & A). exists y. split; [reflexivity|]. apply filter_In. auto.
  Qed.
  (** The handler raises AssertionError, and nothing else, once for each item that the copy lacks. *)
  Theorem eqitems_raised (h : list op) : (forall o, In o h -> inserts o) ->
    length (cont (run h)) = length (master (run h)) + length (raised (run h)) /\ forall e, In e (raised (run h)) -> e = AssertionError.
  Proof.
    intros H. induction h as [|o h IH] using rev_ind; [split; [reflexivity|intros e []]|]. rewrite run_snoc.
    destruct IH as [L E]; [intros o' M; apply H; apply in_or_app; auto|].
    destruct o as [k x|k]; [|exfalso; apply (H (Del k)); apply in_or_app; right; left; reflexivity].
    set (s := run h) in *. clearbody s. cbn [EqItems_Model.step]. destruct (k <=? length (cont s)); [|auto].
    assert (I : forall l : list X, length (insert k x l) = S (length l)).
    { intros l. unfold insert. rewrite app_length. cbn [length]. rewrite <- (firstn_skipn k l) at 3. rewrite app_length. lia. }
    unfold item_inserted. cbn [cont master watched items raised]. destruct (existsb (same K_dec cls x) (master s)); cbn [cont master raised length]; rewrite !I; (split; [lia|]).
    - intros e [<-|M]; [reflexivity|apply E, M].
    - exact E.
  Qed.
  (** If they are appended, it is the first of them, and the order is that of the container. *)
  Theorem eqitems_appended (xs : list X) :
    cont (run (append xs)) = xs /\ master (run (append xs)) = firsts K_dec cls [] xs /\ items (run (append xs)) = shown (firsts K_dec cls [] xs).
  Proof.
    pose proof (weak_run X_dec K_dec cls accept) as W.
    assert (G : cont (run (append xs)) = xs /\ master (run (append xs)) = firsts K_dec cls [] xs /\ length (master (run (append xs))) <= length xs).
    { induction xs as [|x xs IH] using rev_ind; [repeat split; apply le_n|]. rewrite append_snoc, run_snoc, firsts_snoc. destruct IH as (A & B & L).
      assert (Wk : weak cls accept (run (append xs))). { apply W. intros o M. apply in_map_iff in M as (p & <- & _). exact I. }
      destruct Wk as (_ & _ & C). set (s := run (append xs)) in *. cbn [EqItems_Model.step app]. rewrite A, Nat.leb_refl. unfold item_inserted. cbn [cont master watched items raised].
      assert (E : insert (length xs) x (cont s) = xs ++ [x]) by (rewrite A; apply insert_end; lia).
      destruct (existsb (same K_dec cls x) (master s)) eqn:F; cbn [cont master].
      - rewrite A in E. rewrite E, app_length. apply exists_same in F. apply C in F. rewrite A in F. destruct (in_dec K_dec (cls x) (map cls xs)); [|contradiction]. rewrite app_nil_r. repeat split; [exact B|cbn; lia].
      - rewrite A in E. rewrite E, app_length. rewrite (insert_end (master s) (length xs) x L), app_length. assert (NF : ~ In (cls x) (map cls xs)) by (intros M; rewrite <- A in M; apply C in M; apply (exists_same K_dec) in M; congruence).
        destruct (in_dec K_dec (cls x) (map cls xs)); [contradiction|]. rewrite B. repeat split. rewrite <- B. cbn. lia. }
    destruct G as (A & B & _). repeat split; [exact A|exact B|]. rewrite <- B. apply W. intros o M. apply in_map_iff in M as (p & <- & _). exact I.
  Qed.
End Props.

(** * Items with a number and a text: equal if their texts are *)
Definition item := (nat * nat)%type.
Definition item_dec (x y : item) : {x = y} + {x <> y}.
Proof. decide equality; apply Nat.eq_dec. Defined.
Notation runs := (run item_dec Nat.eq_dec (fun x : item => snd x) (fun _ => true)).
Definition a1 : item := (1, 10). Definition a2 : item := (2, 10). Definition b : item := (3, 20). Definition c : item := (4, 30).
(** Findings *)
(** with insertions only, items are shown in another order than the container has *)
Theorem eqitems_order_refuted : ~ forall h, (forall o, In o h -> inserts o) -> exists f, items (runs h) = filter f (cont (runs h)).
Proof.
  intros H. destruct (H [Ins 0 a1; Ins 1 a2; Ins 2 b; Ins 2 c]) as (f & E); [intros o [<-|[<-|[<-|[<-|[]]]]]; exact I|].
  vm_compute in E. destruct (f (1, 10)), (f (2, 10)), (f (4, 30)), (f (3, 20)); discriminate.
Qed.
(** after the one shown was removed, the one that is still there is not shown *)
Theorem eqitems_missing_refuted : ~ forall h x, In x (cont (runs h)) -> In (snd x) (map snd (items (runs h))).
Proof. intros H. specialize (H [Ins 0 a1; Ins 1 a2; Del 0] a2). vm_compute in H. apply H. left. reflexivity. Qed.
(** an item is shown though the container is empty *)
Theorem eqitems_gone_refuted : ~ forall h, cont (runs h) = [] -> items (runs h) = [].
Proof. intros H. specialize (H [Ins 0 a1; Ins 0 a2; Del 0; Del 0] eq_refl). discriminate. Qed.
(** an item that no other was ever equal to is shown though it was removed *)
Theorem eqitems_other_refuted : ~ forall h x, (forall o k y, In o h -> o = Ins k y -> snd y = snd x -> y = x) -> In x (items (runs h)) -> In x (cont (runs h)).
Proof.
  intros H. specialize (H [Ins 0 a1; Ins 1 a2; Ins 2 b; Ins 3 c; Del 2; Del 2] c). assert (G : In c [a1; a2]).
  { apply H; [|vm_compute; auto]. intros o k y M -> E. cbn in M. repeat (destruct M as [M|M]; [try discriminate M; injection M as <- <-; try reflexivity; discriminate E|]). contradiction. }
  vm_compute in G. intuition discriminate.
Qed.
(** two items that are equal are shown, though the container never held two at that time *)
Theorem eqitems_double_refuted : ~ forall h, NoDup (map snd (items (runs h))).
Proof.
  intros H. specialize (H [Ins 0 a1; Ins 0 a2; Del 0; Del 0; Ins 0 a2]). vm_compute in H. inversion H as [|? ? N _]; subst. apply N. left. reflexivity.
Qed.

(** * Examples *)
Example gone_run : let s := runs [Ins 0 a1; Ins 0 a2; Del 0; Del 0; Ins 0 a2] in
  (cont s, master s, items s, raised s) = ([a2], [a2], [a2; a1], [IndexError; KeyError; AssertionError]).
Proof. vm_compute. reflexivity. Qed.
(** the same object twice *)
Example twice_run : let s := runs [Ins 0 a1; Ins 1 b; Ins 2 a1; Del 2; Del 0] in
  (cont s, master s, items s, raised s) = ([b], [b], [b], [IndexError; AssertionError]).
Proof. vm_compute. reflexivity. Qed.
Example twice_first_run : let s := runs [Ins 0 a1; Ins 1 b; Ins 2 a1; Del 0; Del 0] in
  (cont s, master s, items s, raised s) = ([a1], [], [], [AssertionError]).
Proof. vm_compute. reflexivity. Qed.
Example appended_run : items (run item_dec Nat.eq_dec (fun x : item => snd x) (fun k => k <? 30) (append [a1; c; a2; b; b; (7, 20)])) = [a1; b].
Proof. vm_compute. reflexivity. Qed.
Example raised_run : let s := runs [Ins 0 a1; Ins 1 b; Ins 1 a2; Ins 7 c; Ins 0 b] in (cont s, master s, raised s) = ([b; a1; a2; b], [a1; b], [AssertionError; AssertionError]).
Proof. vm_compute. reflexivity. Qed.
Example right_run : let s := runs [Ins 0 a1; Ins 0 b; Del 1; Ins 0 a2; Ins 1 c; Del 0] in
  (cont s, items s, raised s) = ([c; b], [c; b], []).
Proof. vm_compute. reflexivity. Qed.

Print Assumptions eqitems_right.
Print Assumptions eqitems_copy.
Print Assumptions eqitems_inserted.
Print Assumptions eqitems_raised.
Print Assumptions eqitems_appended.
Print Assumptions eqitems_order_refuted.
Print Assumptions eqitems_missing_refuted.
Print Assumptions eqitems_gone_refuted.
Print Assumptions eqitems_other_refuted.
Print Assumptions eqitems_double_refuted.
