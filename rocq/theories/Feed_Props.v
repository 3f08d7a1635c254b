(** Property C93: mapped and flattened lists that have a filtered list as container. *)
From Coq Require Import List ZArith Bool Arith Permutation Lia.
From Verif Require Import PyBase Filtered_Model Filtered_Spec Filtered_Proofs Filtered_Proofs2 Filtered_Proofs3 Mapped_Model Mapped_Spec Flattened_Model Flattened_Spec Feed_Model Feed_Spec Feed_Proofs Feed_Proofs2 Feed_Proofs3.
Import ListNotations.

Section Props.
  Context {A B C K X : Type} (A_dec : forall a b : A, {a = b} + {a <> b}) (lt : K -> K -> bool).
  Notation feed := (feed A B C K X).
  Notation fdop := (fdop A B C K X).

  (** every mapped and flattened list shows the right items, any number of them, as long as no filter, sort key or
      reverse is set while a flattened list is attached (nor a change block ended in which that was done) *)
  Theorem feed_right (w : A -> C) kids (h : list fdop) :
    fd_along A_dec lt fd_ok (fd_new w kids) h -> fd_along A_dec lt calm (fd_new w kids) h ->
    let d := fd_run A_dec lt (fd_new w kids) h in Forall (right d) (fd_sinks d).
  Proof. intros Ho Hc. apply (fresh_run A_dec lt h []); [apply (new_inv A_dec lt)|apply Forall_nil|apply Forall2_nil|exact Ho|exact Hc]. Qed.

  (** with rebuilds and at most one flattened list attached at a time: the flattened list shows the children of the
      items, a mapped list the images of the items, followed by those left behind by each rebuild if it was attached
      after the flattened list *)
  Theorem feed_shown (w : A -> C) kids (h : list fdop) :
    fd_along A_dec lt fd_ok (fd_new w kids) h -> fd_along A_dec lt one_flat (fd_new w kids) h ->
    let d := fd_run A_dec lt (fd_new w kids) h in
    Forall2 (shows d) (x_run A_dec lt (fd_new w kids) [] h) (fd_sinks d).
  Proof.
    intros Ho H1 d. pose proof (fed_run A_dec lt h _ _ (fed_new A_dec lt w kids) Ho H1) as [_ _ H]. fold d in H. revert H.
    generalize (x_run A_dec lt (fd_new w kids) [] h). generalize (fd_sinks d). intros ks xs H.
    induction H as [|x k xs ks H Hs IH]; constructor; [|exact IH].
    destruct x as [f st|b0| |]; destruct k as [f' [|] m t|[|] s t]; try contradiction; cbn [fits shows] in *; try exact H.
    - eapply flat_at_shows; exact H.
    - exact (flat_at_shows _ _ _ _ H).
  Qed.

  (** in particular a mapped list with no flattened list made before it is always right *)
  Theorem feed_mapped_first (w : A -> C) kids (h : list fdop) f m t ks1 ks2 :
    fd_along A_dec lt fd_ok (fd_new w kids) h -> fd_along A_dec lt one_flat (fd_new w kids) h ->
    let d := fd_run A_dec lt (fd_new w kids) h in
    fd_sinks d = ks1 ++ SMap f true m t :: ks2 -> Forall (fun k => ~ flattened k) ks1 ->
    ms_items m = map f (fs_items (fd_up d)).
  Proof.
    intros Ho H1 d Hd Hn. pose proof (fed_run A_dec lt h _ _ (fed_new A_dec lt w kids) Ho H1) as [_ _ H]. fold d in H. rewrite Hd in H.
    exact (clean_right _ _ _ _ _ _ _ (clean_run A_dec lt h [] (fd_new w kids) I) eq_refl H Hn).
  Qed.

  (** the notifications of each list rebuild what it shows, and begin and end of changes alternate and are closed,
      whether or not what is shown is right *)
  Theorem feed_observers (w : A -> C) kids (h : list fdop) :
    fd_along A_dec lt fd_ok (fd_new w kids) h -> fd_along A_dec lt one_flat (fd_new w kids) h ->
    Forall told (fd_sinks (fd_run A_dec lt (fd_new w kids) h)).
  Proof.
    intros Ho H1. pose proof (fed_run A_dec lt h _ _ (fed_new A_dec lt w kids) Ho H1) as [_ _ H].
    pose proof (feed_told A_dec lt h (fd_new w kids) (Forall_nil _)) as T. induction H as [|x k xs ks H Hs IH]; [constructor|].
    inversion T as [|k' ks' Tk Tks]; subst. constructor; [|apply IH, Tks]. destruct k as [f on m t|on s t]; [exact Tk|].
    destruct x as [f st|b0| |]; destruct on; try contradiction; exact (fa_obs _ _ _ _ H).
  Qed.
  Theorem feed_mapped_observers (w : A -> C) kids (h : list fdop) f on m t :
    In (SMap f on m t) (fd_sinks (fd_run A_dec lt (fd_new w kids) h)) -> m_observes [] t (ms_items m).
  Proof.
    intros Hi. pose proof (feed_told A_dec lt h (fd_new w kids) (Forall_nil _)) as T. rewrite Forall_forall in T. exact (T _ Hi).
  Qed.
  Theorem feed_blocks (w : A -> C) kids (h : list fdop) :
    fd_along A_dec lt fd_ok (fd_new w kids) h -> Forall settled (fd_sinks (fd_run A_dec lt (fd_new w kids) h)).
  Proof.
    intros Ho. pose proof (feed_levelled A_dec lt h (fd_new w kids) Ho (Forall_nil _)) as H. revert H. apply Forall_impl.
    intros [f [|] m t|on s t] Hk; [apply Hk|exact Hk|exact I].
  Qed.

  (** an item notification of the filtered list always has an index inside the list it is about *)
  Theorem feed_indices (w : A -> C) kids (h : list fdop) (o : fop A C K) :
    fd_along A_dec lt fd_ok (fd_new w kids) (h ++ [DUp o]) ->
    let d := fd_run A_dec lt (fd_new w kids) h in
    in_bounds (fs_items (fd_up d)) (snd (fst (f_step A_dec lt (fd_up d) o))).
  Proof.
    intros Ho d. destruct (along_split _ _ _ _ _ _ Ho) as [Ho1 [Ho2 _]].
    pose proof (up_inv A_dec lt h (fd_new w kids) (proj1 (new_inv A_dec lt w)) Ho1) as Hu. fold d in Hu, Ho2.
    destruct (f_step A_dec lt (fd_up d) o) as [[u tr] e] eqn:E. destruct Ho2 as (Hd & _). eapply step_in_bounds; eassumption.
  Qed.
End Props.
Print Assumptions feed_right.
Print Assumptions feed_shown.
Print Assumptions feed_mapped_first.
Print Assumptions feed_observers.
Print Assumptions feed_mapped_observers.
Print Assumptions feed_blocks.
Print Assumptions feed_indices.

(** ** examples: items are numbers and have two children each; content is the number itself *)
Definition feed_kids (m : nat) : list nat := [10 * m; 10 * m + 1].
Definition feed_items (k : sink nat nat nat) : list nat := match k with SMap _ _ m _ => ms_items m | SFlat _ s _ => fl_items s end.
Definition feed_d (h : list (fdop nat nat nat nat nat)) : feed nat nat nat nat nat := fd_run Nat.eq_dec Nat.ltb (fd_new (fun x => x) feed_kids) h.
Definition feed_all (h : list (fdop nat nat nat nat nat)) : list nat * list (list nat) :=
  (fs_items (fd_up (feed_d h)), map feed_items (fd_sinks (feed_d h))).

Definition feed_h1 : list (fdop nat nat nat nat nat) :=
  [DUp (FSetContainer (Some [1; 2; 3; 4])); DMap (fun x => S x); DUp (FSetFilter (fun x => Nat.leb x 4)); DFlat; DMap (fun x => 5 * x); DFlat; DUp (FRemove 1);
   DUp (FInsert 0 5); DUp (FContent 5 2); DKidInsert 3 1 39; DUp FBeginChange; DUp (FRemove 2); DUp (FInsert 0 0); DUp (FEndChange (fun l => l));
   DKidRemove 4 0; DDetach 3].
Example feed_right_ex :
  feed_all feed_h1 = ([0; 5; 1; 4], [[1; 6; 2; 5]; [0; 1; 50; 51; 10; 11; 41]; [0; 25; 5; 20]; []]) /\
  fd_along Nat.eq_dec Nat.ltb fd_ok (fd_new (fun x => x) feed_kids) feed_h1 /\
  fd_along Nat.eq_dec Nat.ltb calm (fd_new (fun x => x) feed_kids) feed_h1.
Proof.
  split; [vm_compute; reflexivity|]. split; [|vm_compute; repeat split; first [discriminate|intros _; repeat constructor; intros []]].
  vm_compute. repeat split; try discriminate; try (intuition discriminate).
  all: try solve [repeat constructor; cbn; intuition discriminate]. intros l. apply Permutation_refl.
Qed.

Definition feed_h2 : list (fdop nat nat nat nat nat) :=
  [DUp (FSetContainer (Some [1; 2; 3; 4; 5])); DMap (fun x => S x); DUp (FSetFilter (fun _ => true)); DFlat; DMap (fun x => 5 * x);
   DUp (FSetFilter Nat.odd); DUp (FInsert 0 7); DUp (FSetKey (Some (fun x => x)))].
Lemma feed_h2_ok : fd_along Nat.eq_dec Nat.ltb fd_ok (fd_new (fun x => x) feed_kids) feed_h2 /\
  fd_along Nat.eq_dec Nat.ltb one_flat (fd_new (fun x => x) feed_kids) feed_h2.
Proof.
  split.
  - vm_compute. repeat split; try (intuition discriminate). repeat constructor; cbn; intuition discriminate.
  - vm_compute. repeat split. repeat constructor; auto.
Qed.
Example feed_shown_ex :
  feed_all feed_h2 = ([1; 3; 5; 7], [[2; 4; 6; 8]; [10; 11; 30; 31; 50; 51; 70; 71]; [5; 15; 25; 35; 15; 25; 20; 25]]) /\
  match nth 2 (x_run Nat.eq_dec Nat.ltb (fd_new (fun x => x) feed_kids) [] feed_h2) XFlat with XMap _ st => st = [3; 5; 4; 5] | _ => False end.
Proof. vm_compute. auto. Qed.
Definition feed_notes (k : sink nat nat nat) : list (mev nat nat) := match k with SMap _ _ _ t => t | SFlat _ _ _ => [] end.
Example feed_observers_ex :
  let t := feed_notes (nth 2 (fd_sinks (feed_d feed_h2)) (SFlat true (fl_new feed_kids) [])) in
  length t = 60 /\ alternating false t = Some false /\ firstn 4 (skipn 15 t) = [MBegin; MUnmap 15; MRem 15 2; MSelRem 2].
Proof. vm_compute. auto. Qed.

(** a mapped list attached after a flattened one is wrong for good once a filter is set *)
Theorem feed_stale_refuted :
  exists h : list (fdop nat nat nat nat nat),
    fd_along Nat.eq_dec Nat.ltb fd_ok (fd_new (fun x => x) feed_kids) h /\ fd_along Nat.eq_dec Nat.ltb one_flat (fd_new (fun x => x) feed_kids) h /\
    feed_all h = ([2; 4], [[20; 21; 40; 41]; [10; 20; 15; 20]]).
Proof.
  exists [DUp (FSetContainer (Some [1; 2; 3; 4])); DFlat; DMap (fun x => 5 * x); DUp (FSetFilter Nat.even)]. split; [|split].
  - vm_compute. repeat split. repeat constructor; cbn; intuition discriminate.
  - vm_compute. repeat split. constructor.
  - vm_compute. reflexivity.
Qed.
(** of two flattened lists the second is wrong *)
Theorem feed_two_flattened_refuted :
  exists h : list (fdop nat nat nat nat nat),
    fd_along Nat.eq_dec Nat.ltb fd_ok (fd_new (fun x => x) feed_kids) h /\
    feed_all h = ([], [[]; [10; 11; 40; 41]]).
Proof.
  exists [DUp (FSetContainer (Some [1; 2; 3; 4])); DFlat; DFlat; DUp (FSetFilter (fun _ => false))]. split.
  - vm_compute. repeat split. repeat constructor; cbn; intuition discriminate.
  - vm_compute. reflexivity.
Qed.
Print Assumptions feed_stale_refuted.
Print Assumptions feed_two_flattened_refuted.
