(** C117: setting the container of a mapped list while the container is edited. *)
From Coq Require Import ZArith Bool List Lia Permutation.
From Verif Require Import PyBase MapAttach_Model MapAttach_Spec MapAttach_Proofs MapAttach_Proofs2 MapAttach_Proofs3.
Import ListNotations.
Open Scope nat_scope.

Section Props.
  Variable A : Type.

  (** Under gentle edits no assignment raises, an attached list shows the images of the container's
      items in order, and a detached one nothing. *)
  Theorem mapattach_mirrors (c : list A) l :
    always gentle (start c) l ->
    let s := run l (start c) in
    raised s = [] /\ at_ s <> Stuck /\
    (told s = None -> (at_ s = On -> shown s = cont s) /\ (at_ s = Off -> items s = [])).
  Proof.
    intros G s. destruct (inv_run A l (start c) (inv_start A c) G) as (R & D).
    fold s in R, D. split; [exact R|]. split.
    - intros P. unfold due in D. rewrite P in D.
      destruct (told s) as [[x i|x i]|]; [destruct D as (? & _ & _ & [] & _)|destruct D as (? & _ & _ & [] & _)|destruct D].
    - intros T. unfold due in D. rewrite T in D. split; intros P; rewrite P in D; simpl in D; [exact D|].
      unfold shown in D. apply map_eq_nil in D. exact D.
  Qed.

  (** An insertion told in the loop gives one item too many at the end, without an exception: the
      item at the place of the iterator if it was made at or before that place, else the new item. *)
  Theorem mapattach_inserted (c : list A) l i x n k :
    always gentle (start c) l ->
    let s := run l (start c) in
    told s = None -> at_ s = Loop k -> i <= length (cont s) -> 2 * length (cont s) + 4 <= n ->
    let s' := run (EIns i x :: Tell :: repeat Go n) s in
    at_ s' = On /\ raised s' = [] /\ cont s' = insert_at i x (cont s) /\
    exists z, shown s' = cont s' ++ [z] /\ (i <= k -> nth_error (cont s') k = Some z) /\ (k < i -> z = x).
  Proof. intros G s. apply inserted_loop. exact (inv_run A l _ (inv_start A c) G). Qed.

  (** The same when another thread inserts between the reading of an item [y] and its insertion: at or
      before that place the item there gives way to [y], which is shown twice, and goes to the end. *)
  Theorem mapattach_inserted_between (c : list A) l i x y n k :
    always gentle (start c) l ->
    let s := run l (start c) in
    told s = None -> at_ s = Put k y -> i <= length (cont s) -> 2 * length (cont s) + 4 <= n ->
    let s' := run (EIns i x :: Tell :: repeat Go n) s in
    at_ s' = On /\ raised s' = [] /\ cont s' = insert_at i x (cont s) /\
    (k < i -> shown s' = cont s' ++ [x]) /\
    (i <= k -> exists z, nth_error (cont s') k = Some z /\ nth_error (cont s') (S k) = Some y /\
       shown s' = firstn k (cont s') ++ y :: skipn (S k) (cont s') ++ [z]).
  Proof. intros G s. apply inserted_put. exact (inv_run A l _ (inv_start A c) G). Qed.

  (** A removal told in the loop of an item already read makes it leave out exactly the next item. *)
  Theorem mapattach_removed_behind (c : list A) l k i n :
    always gentle (start c) l ->
    let s := run l (start c) in
    told s = None -> at_ s = Loop k -> i < k -> 2 * length (cont s) + 4 <= n ->
    let s' := run (ERem i :: Tell :: repeat Go n) s in
    at_ s' = On /\ raised s' = [] /\ cont s' = delete_at i (cont s) /\ shown s' = delete_at (k - 1) (cont s').
  Proof. intros G s. apply removed_loop. exact (inv_run A l _ (inv_start A c) G). Qed.

  (** However many insertions are made while it walks, told then or later: no item is missed, and each
      of them gives one item too many. *)
  Theorem mapattach_growing (c : list A) l :
    Forall growing l ->
    let s0 := step (start c) Attach in
    let s := run l s0 in
    raised s = [] /\
    (at_ s = On -> told s = None -> incl (cont s) (shown s) /\ length (items s) = length (cont s) + lates s0 l).
  Proof.
    intros F s0 s.
    assert (K0 : kinv A 0 s0) by (split; [reflexivity|split; [discriminate|reflexivity]]).
    destruct (kinv_run A l 0 s0 K0 F) as (R & _ & D). fold s in R, D. split; [exact R|].
    intros P T. rewrite P in D. unfold pend in D. rewrite T in D. cbn [length] in D. rewrite app_nil_r in D.
    destruct D as [L I]. split; [exact I|]. lia.
  Qed.

  (** An edit made before and told after the attachment is done twice. *)
  Theorem mapattach_pending (c : list A) i n :
    2 * length c + 4 <= n ->
    (forall x, i <= length c ->
       let s := run (EIns i x :: Attach :: repeat Go n ++ [Tell]) (start c) in
       at_ s = On /\ raised s = [] /\ told s = None /\ cont s = insert_at i x c /\ shown s = insert_at i x (cont s)) /\
    (i < length c ->
       let s := run (ERem i :: Attach :: repeat Go n ++ [Tell]) (start c) in
       at_ s = On /\ raised s = [] /\ told s = None /\ cont s = delete_at i c /\ shown s = delete_at i (cont s)).
  Proof.
    intros L. split.
    - intros x Li s.
      set (s1 := step (start c) (EIns i x)).
      set (s2 := run (Attach :: repeat Go n) s1).
      assert (E : s = tell s2).
      { unfold s, s2, s1. change (EIns i x :: Attach :: repeat Go n ++ [Tell]) with ([EIns i x] ++ (Attach :: repeat Go n) ++ [Tell]).
        rewrite !run_app. reflexivity. }
      destruct (attach_walk A s1 n) as (P & R & C & T & I); [reflexivity|cbn [s1 step start told edit cont]; rewrite insert_at_length; lia|].
      fold s2 in P, R, C, T, I. cbn [s1 step start told edit cont raised] in R, C, T.
      change (cont s1) with (insert_at i x c) in I. change (shown s1) with (@nil A) in I. rewrite app_nil_r in I.
      rewrite E. rewrite (tell_ins A s2 x i T) by (rewrite P; reflexivity).
      split; [exact P|]. split; [exact R|]. split; [reflexivity|]. split; [exact C|].
      rewrite shown_inserted. change (shown (set_told None s2)) with (shown s2).
      change (cont (item_inserted (set_told None s2) x i)) with (cont s2). rewrite I, C. reflexivity.
    - intros Li s.
      destruct (nth_error c i) as [x|] eqn:Ex; [|apply nth_error_None in Ex; lia].
      set (s1 := step (start c) (ERem i)).
      set (s2 := run (Attach :: repeat Go n) s1).
      assert (E : s = tell s2).
      { unfold s, s2, s1. change (ERem i :: Attach :: repeat Go n ++ [Tell]) with ([@ERem A i] ++ (Attach :: repeat Go n) ++ [Tell]).
        rewrite !run_app. reflexivity. }
      assert (E1 : s1 = edit (delete_at i c) (NRem x i) (start c)) by (unfold s1; cbn [step start told cont]; rewrite Ex; reflexivity).
      assert (LC : length (delete_at i c) = length c - 1) by (apply delete_at_length; exact Li).
      destruct (attach_walk A s1 n) as (P & R & C & T & I); [rewrite E1; reflexivity|rewrite E1; cbn [edit cont]; lia|].
      fold s2 in P, R, C, T, I. rewrite E1 in R, C, T, I. cbn [edit cont raised start told] in R, C, T, I.
      change (shown (edit (delete_at i c) (NRem x i) (start c))) with (@nil A) in I. rewrite app_nil_r in I.
      rewrite E. unfold tell. rewrite T, P. cbn [hears_rem].
      destruct (Nat.lt_ge_cases i (length (items s2))) as [Q|Q].
      + destruct (removed_in A (set_told None s2) i Q) as (b & _ & E2). rewrite E2. cbn [fst].
        split; [exact P|]. split; [exact R|]. split; [reflexivity|]. split; [exact C|].
        unfold shown in *. cbn [items set_told cont]. rewrite map_delete_at, I, C. reflexivity.
      + rewrite removed_out by exact Q. cbn [fst].
        split; [exact P|]. split; [exact R|]. split; [reflexivity|]. split; [exact C|].
        change (shown (set_told None s2)) with (shown s2). change (cont (set_told None s2)) with (cont s2).
        rewrite I, C. symmetry. apply delete_beyond. rewrite <- I, shown_length. exact Q.
  Qed.

  (** Detaching takes away as many items from the end as the container has; the others stay.  If there
      are fewer it takes all of them and raises IndexError. *)
  Theorem mapattach_detach (s : st A) n :
    at_ s = On -> length (cont s) + 3 <= n ->
    let s' := run (Detach :: repeat Go n) s in
    items s' = firstn (length (items s) - length (cont s)) (items s) /\
    (length (cont s) <= length (items s) -> at_ s' = Off /\ raised s' = raised s) /\
    (length (items s) < length (cont s) -> at_ s' = Stuck /\ raised s' = IndexError :: raised s).
  Proof.
    intros P L s'. destruct (detach_all A s n P L) as (I & _ & _ & Q). split; [exact I|].
    destruct (Nat.leb_spec (length (cont s)) (length (items s))); split; intros; try lia; exact Q.
  Qed.

  (** Items that stayed behind are never lost: as long as the container is left alone while the setter
      works, the list keeps as many beside (behind) the items of the container. *)
  Theorem mapattach_behind (s : st A) l :
    at_ s = Off -> told s = None -> raised s = [] -> always still s l ->
    let s' := run l s in
    raised s' = [] /\ at_ s' <> Stuck /\
    (told s' = None ->
       (at_ s' = On -> exists b, length b = length (items s) /\ shown s' = cont s' ++ b) /\
       (at_ s' = Off -> length (items s') = length (items s))).
  Proof.
    intros P T R G s'.
    assert (I0 : ginv A (length (items s)) s).
    { split; [exact R|]. unfold gdue. rewrite T, P. apply shown_length. }
    destruct (ginv_run A _ l s I0 G) as (R' & D). fold s' in R', D. split; [exact R'|]. split.
    - intros Q. unfold gdue in D. rewrite Q in D.
      destruct (told s') as [[x i|x i]|].
      + destruct D as (? & _ & _ & [D|D] & _); discriminate.
      + destruct D as (? & _ & _ & [D|D] & _); discriminate.
      + destruct D.
    - intros T'. unfold gdue in D. rewrite T' in D. split; intros Q; rewrite Q in D; simpl in D; [exact D|].
      rewrite shown_length in D. exact D.
  Qed.

  (** Whatever the interleaving: each image made by map_fn is either shown or was given to unmap_fn, once;
      and a listener that does what it is told has the same items. *)
  Theorem mapattach_account (c : list A) l :
    let s := run l (start c) in
    Permutation (items s ++ gone s) (numbered 0 (made s)) /\ replay (said s) = items s.
  Proof. intros s. apply account_run. split; [apply perm_nil|reflexivity]. Qed.

  (** A model whose detachment has raised stays as it is, and every later assignment raises. *)
  Theorem mapattach_stuck (s : st A) l :
    at_ s = Stuck ->
    let s' := run l s in
    at_ s' = Stuck /\ items s' = items s /\
    length (raised s') = length (raised s) +
      length (filter (fun a => match a with Attach | Detach => true | _ => false end) l).
  Proof.
    revert s. induction l as [|a l IH]; intros s P; [simpl; rewrite Nat.add_0_r; auto|].
    intros s'. unfold s'. change (run (a :: l) s) with (run l (step s a)).
    assert (Q : at_ (step s a) = Stuck /\ items (step s a) = items s /\
      length (raised (step s a)) = length (raised s) +
        (if match a with Attach | Detach => true | _ => false end then 1 else 0)).
    { destruct a as [i x|i| | | |]; cbn [step].
      - destruct (told s); cbn [edit at_ items raised]; rewrite Nat.add_0_r; auto.
      - destruct (told s); [rewrite Nat.add_0_r; auto|].
        destruct (nth_error (cont s) i); cbn [edit at_ items raised]; rewrite Nat.add_0_r; auto.
      - unfold tell. rewrite P. destruct (told s) as [[x i|x i]|]; cbn [hears_ins hears_rem set_told at_ items raised];
          rewrite Nat.add_0_r; auto.
      - rewrite P. cbn [raise at_ items raised length]. rewrite Nat.add_1_r. auto.
      - rewrite P. cbn [raise at_ items raised length]. rewrite Nat.add_1_r. auto.
      - unfold go. rewrite P. rewrite Nat.add_0_r. auto. }
    destruct Q as (Q1 & Q2 & Q3). destruct (IH _ Q1) as (W1 & W2 & W3).
    split; [exact W1|]. split; [rewrite W2; exact Q2|]. rewrite W3, Q3. cbn [filter].
    destruct a; cbn [length]; lia.
  Qed.
End Props.

(** FINDING.  An attached mapped list shows images of the container's items if nothing raised. *)
Theorem mapattach_mirrors_refuted :
  ~ (forall (c : list nat) l, let s := run l (start c) in
       at_ s = On -> told s = None -> raised s = [] -> shown s = cont s).
Proof.
  intros H. specialize (H [1; 2; 3] ([Attach; Go; Go; Go] ++ [EIns 0 9; Tell] ++ repeat Go 12) eq_refl eq_refl eq_refl).
  vm_compute in H. discriminate H.
Qed.

(** FINDING.  A detached mapped list is empty; and detaching never raises. *)
Theorem mapattach_detach_refuted :
  (~ forall (c : list nat) l, let s := run l (start c) in at_ s = Off -> raised s = [] -> items s = []) /\
  (~ forall (c : list nat) l, let s := run l (start c) in at_ s <> Stuck).
Proof.
  split; intros H.
  - specialize (H [1; 2] ([Attach; Go; Go; Go] ++ [EIns 0 9; Tell] ++ repeat Go 12 ++ [Detach] ++ repeat Go 12) eq_refl eq_refl).
    vm_compute in H. discriminate H.
  - apply (H [1; 2; 3] ([Attach; Go; Go; Go] ++ [ERem 0; Tell] ++ repeat Go 12 ++ [Detach] ++ repeat Go 12)).
    vm_compute. reflexivity.
Qed.

(** Examples. *)
Example mapattach_ex_gentle :
  let l := [Attach; Go; Go; Go; ERem 2; Tell; Go; Go; Go; Go; Go; EIns 0 9; Tell] in
  always gentle (start [1; 2; 3; 4]) l /\
  items (run l (start [1; 2; 3; 4])) = [(3, 9); (0, 1); (1, 2); (2, 4)] /\
  gone (run (l ++ [Detach] ++ repeat Go 9) (start [1; 2; 3; 4])) = [(3, 9); (0, 1); (1, 2); (2, 4)].
Proof. split; [simpl; repeat split; lia|]. vm_compute. split; reflexivity. Qed.

Example mapattach_ex_inserted :
  let s := run ([Attach; Go; Go; Go; Go; Go] ++ [EIns 0 9; Tell] ++ repeat Go 12) (start [1; 2; 3]) in
  cont s = [9; 1; 2; 3] /\ shown s = [9; 1; 2; 3; 2] /\ raised s = [].
Proof. vm_compute. repeat split. Qed.

Example mapattach_ex_inserted_ahead :
  let s := run ([Attach; Go; Go; Go] ++ [EIns 3 9; Tell] ++ repeat Go 12) (start [1; 2; 3]) in
  cont s = [1; 2; 3; 9] /\ shown s = [1; 2; 3; 9; 9].
Proof. vm_compute. repeat split. Qed.

Example mapattach_ex_inserted_between :
  let s := run ([Attach; Go; Go; Go; Go] ++ [EIns 0 9; Tell] ++ repeat Go 12) (start [1; 2; 3]) in
  cont s = [9; 1; 2; 3] /\ shown s = [9; 2; 2; 3; 1].
Proof. vm_compute. repeat split. Qed.

Example mapattach_ex_behind :
  let s := run ([Attach; Go; Go; Go; Go; Go] ++ [ERem 0; Tell] ++ repeat Go 12) (start [1; 2; 3; 4]) in
  cont s = [2; 3; 4] /\ shown s = [2; 4].
Proof. vm_compute. repeat split. Qed.

Example mapattach_ex_growing :
  let l := [Go; Go; EIns 1 8; Go; Tell; EIns 3 9; Tell; Go; Go; Go; Go; Go; Go; Go; Go; EIns 0 7; Tell; Go; Go; Go] in
  let s := run l (step (start [1; 2]) Attach) in
  at_ s = On /\ cont s = [7; 1; 8; 2; 9] /\ shown s = [7; 1; 8; 2; 9; 8; 9] /\ lates (step (start [1; 2]) Attach) l = 2.
Proof. vm_compute. repeat split. Qed.

Example mapattach_ex_pending :
  shown (run (EIns 1 9 :: Attach :: repeat Go 10 ++ [Tell]) (start [1; 2])) = [1; 9; 9; 2] /\
  shown (run (ERem 0 :: Attach :: repeat Go 10 ++ [Tell]) (start [1; 2; 3])) = [3].
Proof. vm_compute. split; reflexivity. Qed.

Example mapattach_ex_stays :
  let s := run ([Attach; Go; Go; Go] ++ [EIns 0 9; Tell] ++ repeat Go 12 ++ [Detach] ++ repeat Go 12 ++ [Attach] ++ repeat Go 12)
             (start [1; 2]) in
  cont s = [9; 1; 2] /\ shown s = [9; 1; 2; 9].
Proof. vm_compute. split; reflexivity. Qed.

Example mapattach_ex_stuck :
  let s := run ([Attach; Go; Go; Go] ++ [ERem 0; Tell] ++ repeat Go 12 ++ [Detach] ++ repeat Go 12 ++ [Attach; Detach]) (start [1; 2; 3]) in
  raised s = [AttributeError; AttributeError; IndexError] /\ at_ s = Stuck /\ length (gone s) = 2.
Proof. vm_compute. repeat split. Qed.

Print Assumptions mapattach_mirrors.
Print Assumptions mapattach_inserted.
Print Assumptions mapattach_inserted_between.
Print Assumptions mapattach_removed_behind.
Print Assumptions mapattach_growing.
Print Assumptions mapattach_pending.
Print Assumptions mapattach_detach.
Print Assumptions mapattach_behind.
Print Assumptions mapattach_account.
Print Assumptions mapattach_stuck.
Print Assumptions mapattach_mirrors_refuted.
Print Assumptions mapattach_detach_refuted.
