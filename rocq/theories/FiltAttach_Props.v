(** Attaching and detaching a container that is edited meanwhile: the theorems. *)
From Coq Require Import ZArith Bool List Lia.
From Verif Require Import PyBase FiltAttach_Model FiltAttach_Spec FiltAttach_Proofs FiltAttach_Proofs2.
Import ListNotations.
Open Scope nat_scope.

Section Props.
  Variable A : Type.
  Variable A_dec : forall x y : A, {x = y} + {x <> y}.
  Notation step := (step A_dec).
  Notation run := (run A_dec).

  (** Under gentle edits the filtered list mirrors its container after every attachment, is empty
      after every detachment, and no assignment raises. *)
  Theorem filtattach_mirrors c l :
    NoDup c -> gentle_all step (start c) l ->
    let s := run l (start c) in
    raised s = [] /\ at_ s <> Stuck /\ (told s = None -> mirrors s).
  Proof.
    intros N G s. destruct (inv_run A A_dec l (start c) (inv_start A c N) G) as (N' & R & K & D).
    fold s in N', R, K, D. split; [exact R|]. split.
    - intros P. unfold due in D. rewrite P in D.
      destruct (told s) as [[x i|x i]|]; [destruct D as (? & _ & _ & _ & [] & _)|destruct D as (? & _ & _ & _ & [] & _)|destruct D].
    - intros T. unfold due in D. rewrite T in D. split; [|split].
      + intros P. rewrite P in D. exact D.
      + intros P. rewrite P in D. exact D.
      + exact (proj2 K).
  Qed.

  (** An insertion into the container while the setter walks it makes the assignment raise, wherever
      the insertion is: before, at or beyond the place reached. *)
  Theorem filtattach_insert_raises c l i x n :
    NoDup c -> gentle_all step (start c) l ->
    let s := run l (start c) in
    told s = None -> (exists k, at_ s = Loop k \/ exists y, at_ s = Put k y) ->
    i <= length (cont s) -> ~ In x (cont s) -> 2 * length (cont s) + 4 <= n ->
    let s' := run (EIns i x :: Tell :: repeat Go n) s in
    at_ s' = On /\ raised s' = [AssertionError].
  Proof.
    intros N G s T (k & [P|(y & P)]) Li Nx Ln s'.
    - exact (insert_in_loop A A_dec s k i x n (inv_run A A_dec l _ (inv_start A c N) G) T P Li Nx Ln).
    - exact (insert_in_put A A_dec s k y i x n (inv_run A A_dec l _ (inv_start A c N) G) T P Li Nx Ln).
  Qed.

  (** Removing an item already read makes the setter skip one item, without any exception: the
      master items end without the item at the place reached. *)
  Theorem filtattach_removed_behind c l k i n :
    NoDup c -> gentle_all step (start c) l ->
    let s := run l (start c) in
    told s = None -> at_ s = Loop k -> i < k -> 2 * length (cont s) + 4 <= n ->
    let s' := run (ERem i :: Tell :: repeat Go n) s in
    at_ s' = On /\ raised s' = [] /\ cont s' = delete_at i (cont s) /\
    master s' = delete_at (k - 1) (cont s').
  Proof.
    intros N G s T P Li Ln s'.
    destruct (remove_behind A A_dec s k i n (inv_run A A_dec l _ (inv_start A c N) G) T P Li Ln) as (P' & R & C & M).
    split; [exact P'|]. split; [exact R|]. split; [exact C|].
    unfold s'. rewrite M. f_equal. symmetry. exact C.
  Qed.

  (** An insertion whose notification is still to come when the container is attached does no harm:
      the notification is refused by the assertion, which the event swallows. *)
  Theorem filtattach_half_insertion c i x n :
    NoDup c -> i <= length c -> ~ In x c -> 2 * length c + 4 <= n ->
    let s := run (EIns i x :: Attach :: repeat Go n ++ [Tell]) (start c) in
    at_ s = On /\ raised s = [] /\ told s = None /\ cont s = insert_at i x c /\ master s = cont s.
  Proof.
    intros N Li Nx Ln.
    set (l := repeat Go n).
    change (EIns i x :: Attach :: l ++ [Tell]) with ([EIns i x] ++ (Attach :: l) ++ [Tell]).
    rewrite !run_app. unfold l.
    assert (E0 : run [EIns i x] (start c) = mkSt (insert_at i x c) (Some (NIns x i)) [] [] Off []) by reflexivity.
    rewrite E0.
    destruct (attach_quiet A A_dec (insert_at i x c) (Some (NIns x i)) n) as (ks & E).
    - apply NoDup_insert_at; assumption.
    - rewrite insert_at_length. lia.
    - rewrite E. cbn [FiltAttach_Model.run fold_left FiltAttach_Model.step]. unfold tell.
      cbn [told at_ hears_ins master keys cont raised]. unfold item_inserted.
      assert (I : inb A A_dec x (insert_at i x c) = true).
      { apply inb_in. apply in_insert_at. left. reflexivity. }
      rewrite I. cbn [told at_ hears_ins master keys cont raised]. repeat split.
  Qed.

  (** After a detachment has raised the model cannot be given a container any more: every assignment
      raises, whatever happens in between. *)
  Theorem filtattach_stuck s l :
    at_ s = Stuck ->
    let s' := run l s in
    at_ s' = Stuck /\ master s' = master s /\
    length (raised s') = length (raised s) +
      length (filter (fun a => match a with Attach | Detach => true | _ => false end) l).
  Proof.
    revert s. induction l as [|a l IH]; intros s P; [simpl; rewrite Nat.add_0_r; auto|].
    intros s'. unfold s'. change (run (a :: l) s) with (run l (step s a)).
    assert (Q : at_ (step s a) = Stuck /\ master (step s a) = master s /\
      length (raised (step s a)) = length (raised s) +
        match a with Attach | Detach => 1 | _ => 0 end).
    { destruct a as [i x|i| | | |]; simpl.
      - destruct (told s); simpl; rewrite Nat.add_0_r; auto.
      - destruct (told s); simpl; [rewrite Nat.add_0_r; auto|].
        destruct (nth_error (cont s) i); simpl; rewrite Nat.add_0_r; auto.
      - unfold tell. rewrite P. simpl. destruct (told s) as [[x i|x i]|]; simpl; rewrite Nat.add_0_r; auto.
      - rewrite P. simpl. split; [reflexivity|]. split; [reflexivity|]. lia.
      - rewrite P. simpl. split; [reflexivity|]. split; [reflexivity|]. lia.
      - unfold go. rewrite P. rewrite Nat.add_0_r. auto. }
    destruct Q as (Q1 & Q2 & Q3). destruct (IH (step s a) Q1) as (H1 & H2 & H3).
    split; [exact H1|]. split; [rewrite H2; exact Q2|]. rewrite H3, Q3.
    destruct a; simpl; lia.
  Qed.
End Props.

Notation runz := (run Z.eq_dec).
Notation stepz := (step Z.eq_dec).

(** FINDING.  A removal of an item already read, while the container is being attached, leaves an
    item out for good, and a later removal of the item left out takes another one away: at the end
    the container has an item that the attached filtered list does not have.  Nothing raised. *)
Theorem filtattach_mirrors_refuted :
  ~ (forall c l, NoDup c -> let s := runz l (start c) in
       at_ s = On -> told s = None -> raised s = [] -> master s = cont s).
Proof.
  intros H.
  specialize (H [1; 2; 3; 4]%Z
    ([Attach] ++ repeat Go 5 ++ [ERem 0; Tell] ++ repeat Go 9 ++ [ERem 1; Tell])).
  assert (N : NoDup [1; 2; 3; 4]%Z).
  { repeat constructor; simpl; intuition discriminate. }
  specialize (H N eq_refl eq_refl eq_refl). vm_compute in H. discriminate H.
Qed.

(** FINDING.  A removal whose notification is still to come when the container is attached takes
    the wrong item out of the master items; the KeyError that follows is swallowed by the event. *)
Theorem filtattach_half_removal_refuted :
  ~ (forall c i n, NoDup c -> 2 * length c + 4 <= n ->
       let s := runz (ERem i :: Attach :: repeat Go n ++ [Tell]) (start c) in master s = cont s).
Proof.
  intros H. specialize (H [1; 2; 3]%Z 0 10).
  assert (N : NoDup [1; 2; 3]%Z).
  { repeat constructor; simpl; intuition discriminate. }
  specialize (H N ltac:(simpl; lia)). vm_compute in H. discriminate H.
Qed.

(** FINDING.  A detached model is not always empty: a removal between the listeners being closed and
    the items being copied leaves an item behind; an insertion there makes the assignment raise. *)
Theorem filtattach_detach_refuted :
  (~ forall c l, NoDup c -> let s := runz l (start c) in at_ s = Off -> raised s = [] -> master s = []) /\
  (~ forall c l, NoDup c -> let s := runz l (start c) in at_ s <> Stuck).
Proof.
  assert (N : NoDup [1; 2]%Z).
  { repeat constructor; simpl; intuition discriminate. }
  split; intros H.
  - specialize (H [1; 2]%Z ([Attach] ++ repeat Go 8 ++ [Detach; Go; ERem 0; Tell; Go; Go; Go]) N eq_refl eq_refl).
    vm_compute in H. discriminate H.
  - specialize (H [1; 2]%Z ([Attach] ++ repeat Go 8 ++ [Detach; Go; EIns 0 9%Z; Tell; Go; Go; Go; Go]) N).
    apply H. vm_compute. reflexivity.
Qed.

(** Examples. *)
Example filtattach_ex_gentle :
  let s := runz ([Attach; Go; Go; Go; ERem 2; Tell] ++ repeat Go 6 ++ [EIns 0 9%Z; Tell]) (start [1; 2; 3; 4]%Z) in
  master s = [9; 1; 2; 4]%Z /\ cont s = [9; 1; 2; 4]%Z /\ at_ s = On.
Proof. vm_compute. repeat split. Qed.

Example filtattach_ex_gentle_all :
  gentle_all stepz (start [1; 2; 3]%Z) ([Attach; Go; Go; Go; ERem 2; Tell; Go; Go; Go; EIns 0 9%Z; Tell; Detach]).
Proof. simpl. repeat split; try lia; intuition discriminate. Qed.

Example filtattach_ex_insert :
  let s := runz ([Attach; Go; Go; Go] ++ [EIns 3 9%Z; Tell] ++ repeat Go 12) (start [1; 2; 3]%Z) in
  raised s = [AssertionError] /\ master s = [1; 2; 3; 9]%Z.
Proof. vm_compute. split; reflexivity. Qed.

Example filtattach_ex_behind :
  let s := runz ([Attach; Go; Go; Go; Go; Go] ++ [ERem 0; Tell] ++ repeat Go 12) (start [1; 2; 3; 4]%Z) in
  cont s = [2; 3; 4]%Z /\ master s = [2; 4]%Z /\ raised s = [].
Proof. vm_compute. repeat split. Qed.

Example filtattach_ex_ghost :
  let s := runz ([Attach; Go; Go] ++ [ERem 0; Tell] ++ repeat Go 12) (start [1; 2; 3]%Z) in
  cont s = [2; 3]%Z /\ master s = [1; 3]%Z /\ raised s = [].
Proof. vm_compute. repeat split. Qed.

Example filtattach_ex_half_insertion :
  master (runz (EIns 1 9%Z :: Attach :: repeat Go 10 ++ [Tell]) (start [1; 2]%Z)) = [1; 9; 2]%Z.
Proof. vm_compute. reflexivity. Qed.

Example filtattach_ex_half_removal :
  let s := runz (ERem 0 :: Attach :: repeat Go 10 ++ [Tell]) (start [1; 2; 3]%Z) in
  cont s = [2; 3]%Z /\ master s = [3]%Z.
Proof. vm_compute. split; reflexivity. Qed.

Example filtattach_ex_stuck :
  let s := runz ([Attach] ++ repeat Go 8 ++ [Detach; Go; EIns 0 9%Z; Tell; Go; Go; Go; Go; Attach; Detach]) (start [1; 2]%Z) in
  raised s = [AttributeError; AttributeError; IndexError] /\ at_ s = Stuck.
Proof. vm_compute. split; reflexivity. Qed.

Print Assumptions filtattach_mirrors.
Print Assumptions filtattach_insert_raises.
Print Assumptions filtattach_removed_behind.
Print Assumptions filtattach_half_insertion.
Print Assumptions filtattach_stuck.
Print Assumptions filtattach_mirrors_refuted.
Print Assumptions filtattach_half_removal_refuted.
Print Assumptions filtattach_detach_refuted.
