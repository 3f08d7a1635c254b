(** Mutexes of lists derived from each other: property C108. *)
From Coq Require Import Arith Bool List Lia.
From Verif Require Import PyBase LockOrder_Model LockOrder_Spec LockOrder_Proofs.
Import ListNotations.

Section Props.
  Variable list_kind : nat -> kind.
  Variable listeners : nat -> list listener.
  Variable masters : nat -> list nat.
  Notation clients := (clients list_kind listeners masters).

  Lemma clients_inv rank ps l : ordered listeners masters rank -> clients ps -> steps (started ps) l -> inv rank l.
  Proof.
    intros Ho Hc S. apply (steps_inv rank (started ps)); [|exact S]. apply started_inv. intros p Hp. destruct (Hc p Hp) as [cs D].
    exact (does_fits rank list_kind listeners masters Ho _ _ D [] eq_refl).
  Qed.
  (** if the lists can be ordered so that derived lists come after their container, master items after the flattened list, what
      listens to a flattened list after its master items, and listeners read only their own list or later ones, then no calls
      of any number of threads, however they meet, come to a deadlock *)
  Theorem lockorder_no_deadlock rank ps l :
    ordered listeners masters rank -> clients ps -> steps (started ps) l -> ~ deadlock l.
  Proof.
    intros Ho Hc S [He Hn]. destruct (goes_on rank l (clients_inv rank ps l Ho Hc S)) as [E|[l' S']]; [exact (He E)|exact (Hn l' S')].
  Qed.
  (** and all come to their end, whichever thread goes on when *)
  Theorem lockorder_ends rank ps l :
    ordered listeners masters rank -> clients ps -> steps (started ps) l -> exists n l', takes n l l' /\ ended l' /\ forall m l'', takes m l l'' -> m <= n.
  Proof.
    intros Ho Hc S. assert (HI := clients_inv rank ps l Ho Hc S).
    assert (E : forall w k, work k = w -> inv rank k -> exists l', takes w k l' /\ ended l').
    { induction w as [|w IH]; intros k Hw Hk; destruct (goes_on rank k Hk) as [En|[k' Sk]].
      - exists k. split; [constructor|exact En].
      - apply step_work in Sk. lia.
      - exfalso. assert (Z : work k = 0); [|lia]. unfold work. clear -En. induction k as [|t k IHk]; [reflexivity|]. simpl.
        destruct (En t (or_introl eq_refl)) as [Et _]. rewrite Et. simpl. apply IHk. intros u Hu. apply En. right. exact Hu.
      - assert (Hw' := step_work _ _ Sk). destruct (IH k') as (l' & T & En); [lia|exact (step_inv rank _ _ Hk Sk)|]. exists l'. split; [|exact En].
        clear -Sk T. revert l' T. induction w as [|w IH]; intros l' T; inversion T; subst.
        + exact (takes_S 0 k k l' (takes_0 k) Sk).
        + exact (takes_S (S w) k l'0 l' (IH _ H0) H1). }
    destruct (E (work l) l eq_refl HI) as (l' & T & En). exists (work l), l'. split; [exact T|]. split; [exact En|].
    intros m l'' T'. apply takes_work in T'. lia.
  Qed.
  (** in particular, filtered and mapped lists of each other, if no list is made from itself: a list made later has a greater number *)
  Theorem lockorder_derived ps l :
    (forall n x, In x (listeners n) -> (exists d, x = Derived d /\ n < d) \/ x = Reads n) -> (forall f, masters f = []) ->
    clients ps -> steps (started ps) l -> ~ deadlock l.
  Proof.
    intros Hl Hm. apply (lockorder_no_deadlock (fun n => n)). split; [|split; [|split]].
    - intros n d H. destruct (Hl n _ H) as [(d' & [= <-] & H')|]; [exact H'|discriminate].
    - intros f m H. rewrite Hm in H. destruct H.
    - intros n f m H. destruct (Hl n _ H) as [(d' & C & _)|]; discriminate.
    - intros n m H. destruct (Hl n _ H) as [(d' & C & _)|[= ->]]; [discriminate|right; reflexivity].
  Qed.
End Props.
Print Assumptions lockorder_no_deadlock.
Print Assumptions lockorder_ends.
Print Assumptions lockorder_derived.

(** ** Examples.  Lists 0 and 2 are plain; 1 is a flattened list of 0, one of whose items is 3, a filtered list of 2; 4 is a
    filtered list of 1. *)
Definition lo_kind (n : nat) : kind := match n with 1 => Flat | 3 | 4 => Filt | _ => Base end.
Definition lo_listeners (others : list listener) (n : nat) : list listener :=
  match n with 0 => [Derived 1] | 2 => [Derived 3] | 3 => [Within 1] | 1 => Derived 4 :: others | _ => [] end.
Definition lo_masters (n : nat) : list nat := match n with 1 => [3] | _ => [] end.
Definition lo_rank (n : nat) : nat := match n with 1 => 1 | 3 => 2 | 4 => 3 | _ => 0 end.
Example lockorder_example : ordered (lo_listeners []) lo_masters lo_rank.
Proof.
  assert (R : forall n m, reaches (lo_listeners []) n m -> n = 1 -> m = 4).
  { intros n m H. induction H as [n d H|n d H|n f m H _ _]; intros ->; simpl in H; destruct H as [[= <-]|[]]; reflexivity. }
  split; [|split; [|split]].
  - intros [|[|[|[|n]]]] d; simpl; intros H; try contradiction; destruct H as [[= <-]|[]]; repeat constructor.
  - intros [|[|f]] m; simpl; intros H; try tauto. destruct H as [<-|[]]. repeat constructor.
  - intros [|[|[|[|n]]]] f m; simpl; intros H; try contradiction; destruct H as [[= <-]|[]]. intros Hr. rewrite (R _ _ Hr eq_refl). repeat constructor.
  - intros [|[|[|[|n]]]] m; simpl; intros H; try contradiction; destruct H as [H|[]]; discriminate.
Qed.
(** what two threads do: one edits list 2, the other takes list 3 out of list 0 *)
Definition lo_one (p : list act) : list act := [Acq 3; Acq 4; Rel 4] ++ p ++ [Rel 3].
Definition lo_two : list act := [Acq 1; Acq 3; Rel 3; Rel 1].
Lemma lo_edit others p : does lo_kind (lo_listeners others) lo_masters (Hears others Item) p ->
  does lo_kind (lo_listeners others) lo_masters (Calls [Edit 2]) (lo_one p).
Proof.
  intros H. unfold lo_one. rewrite <- (app_nil_r (_ ++ p ++ _)). apply does_next; [|apply does_nothing]. apply does_edit; [reflexivity|]. apply does_send. simpl lo_listeners.
  apply does_raised. apply (does_filt_item lo_kind (lo_listeners others) lo_masters 3 (Acq 4 :: Rel 4 :: p)); [reflexivity|].
  change (Acq 4 :: Rel 4 :: p) with ([Acq 4; Rel 4] ++ p).
  rewrite <- (app_nil_r (_ ++ p)). apply (does_more lo_kind (lo_listeners others) lo_masters 3 Item); [|apply does_none]. apply does_send. simpl lo_listeners. apply does_raised. apply does_child.
  rewrite <- (app_nil_r (_ ++ p)). apply (does_more lo_kind (lo_listeners others) lo_masters 1 Item); [|apply does_none]. apply does_send. simpl lo_listeners.
  apply (does_hears _ _ _ (Derived 4) others Item [Acq 4; Rel 4]); [|exact H]. apply (does_filt_item lo_kind (lo_listeners others) lo_masters 4 []); [reflexivity|apply does_none].
Qed.
Lemma lo_remove others : does lo_kind (lo_listeners others) lo_masters (Calls [Edit 0]) lo_two.
Proof.
  apply (does_next lo_kind (lo_listeners others) lo_masters (Edit 0) [] lo_two []); [|apply does_nothing]. apply does_edit; [reflexivity|]. apply does_send. simpl lo_listeners.
  apply does_raised. apply (does_flat_item lo_kind (lo_listeners others) lo_masters 1 [Acq 3; Rel 3]); [reflexivity|]. apply (does_flat_read lo_kind (lo_listeners others) lo_masters 1 3 []); [left; reflexivity|apply does_flat_done].
Qed.
Example lockorder_example_clients : clients lo_kind (lo_listeners []) lo_masters [lo_one []; lo_two].
Proof. intros p [<-|[<-|[]]]; eexists; [apply lo_edit; apply does_heard|apply lo_remove]. Qed.

(** but a listener to a flattened list that reads the items of the flattened list can come to a deadlock, if a master item is a
    list with a mutex: the change of a master item is told without the mutex of the flattened list (886-916) *)
Theorem lockorder_flattened_refuted :
  exists ps l, clients lo_kind (lo_listeners [Reads 1]) lo_masters ps /\ steps (started ps) l /\ deadlock l.
Proof.
  exists [lo_one [Acq 1; Rel 1]; lo_two], [Thread [3] [Acq 1; Rel 1; Rel 3]; Thread [1] [Acq 3; Rel 3; Rel 1]].
  split; [|split; [|split]].
  - intros p [<-|[<-|[]]]; eexists; [apply lo_edit|apply lo_remove]. apply does_raised. apply (does_reads lo_kind (lo_listeners [Reads 1]) lo_masters 1 Item).
  - refine (steps_next _ _ _ (steps_next _ _ _ (steps_next _ _ _ (steps_next _ _ _ (steps_refl _) _) _) _) _).
    + apply (step_acq [] [Thread [] lo_two] [] 3). intros t [<-|[]] [].
    + apply (step_acq [] [Thread [] lo_two] [3] 4). intros t [<-|[]] [].
    + apply (step_rel [] [Thread [] lo_two] [4; 3] [3] 4). reflexivity.
    + apply (step_acq [Thread [3] [Acq 1; Rel 1; Rel 3]] [] [] 1). intros t [<-|[]] [H|[]]. discriminate.
  - intros H. destruct (H _ (or_introl eq_refl)) as [H1 _]. discriminate.
  - assert (D : forall l1 l2 t (a b : thread), l1 ++ t :: l2 = [a; b] -> (t = a /\ In b (l1 ++ l2)) \/ (t = b /\ In a (l1 ++ l2))).
    { intros [|x [|y [|z l1]]] l2 t a b E; try discriminate; injection E; intros; subst; simpl; auto. }
    intros l' S. inversion S as [l1 l2 held n p H E|l1 l2 held held' n p H E]; subst; apply D in E; destruct E as [[E Hin]|[E Hin]]; try discriminate; injection E as -> -> ->; apply H in Hin; apply Hin; simpl; auto.
Qed.
Print Assumptions lockorder_flattened_refuted.
(** likewise if a listener to a filtered list reads the list from which it is derived: list 1 is a filtered list of 0, which is one
    of 2 *)
Definition lu_kind (n : nat) : kind := match n with 0 | 1 => Filt | _ => Base end.
Definition lu_listeners (n : nat) : list listener := match n with 0 => [Derived 1] | 1 => [Reads 0] | 2 => [Derived 0] | _ => [] end.
Theorem lockorder_upstream_refuted :
  exists ps l, clients lu_kind lu_listeners (fun _ => []) ps /\ steps (started ps) l /\ deadlock l.
Proof.
  exists [[Acq 0; Acq 1; Rel 1; Rel 0]; [Acq 1; Acq 0; Rel 0; Rel 1]], [Thread [0] [Acq 1; Rel 1; Rel 0]; Thread [1] [Acq 0; Rel 0; Rel 1]].
  split; [|split; [|split]].
  - intros p [<-|[<-|[]]].
    + exists [Edit 2]. apply (does_next lu_kind lu_listeners (fun _ => []) (Edit 2) [] [Acq 0; Acq 1; Rel 1; Rel 0] []); [|apply does_nothing]. apply does_edit; [reflexivity|]. apply does_send.
      apply does_raised. apply (does_filt_item lu_kind lu_listeners (fun _ => []) 0 [Acq 1; Rel 1]); [reflexivity|]. apply (does_more lu_kind lu_listeners (fun _ => []) 0 Item [Acq 1; Rel 1] []); [|apply does_none].
      apply does_send. apply does_raised. apply (does_filt_item lu_kind lu_listeners (fun _ => []) 1 []); [reflexivity|apply does_none].
    + exists [EndChange 1]. apply (does_next lu_kind lu_listeners (fun _ => []) (EndChange 1) [] [Acq 1; Acq 0; Rel 0; Rel 1] []); [|apply does_nothing].
      apply (does_end lu_kind lu_listeners (fun _ => []) 1 [Acq 0; Rel 0]). apply (does_more lu_kind lu_listeners (fun _ => []) 1 Item [Acq 0; Rel 0] []); [|apply does_none].
      apply does_send. apply does_raised. apply (does_reads lu_kind lu_listeners (fun _ => []) 0 Item).
  - refine (steps_next _ _ _ (steps_next _ _ _ (steps_refl _) _) _).
    + apply (step_acq [] [Thread [] [Acq 1; Acq 0; Rel 0; Rel 1]] [] 0). intros t [<-|[]] [].
    + apply (step_acq [Thread [0] [Acq 1; Rel 1; Rel 0]] [] [] 1). intros t [<-|[]] [H|[]]. discriminate.
  - intros H. destruct (H _ (or_introl eq_refl)) as [H1 _]. discriminate.
  - assert (D : forall l1 l2 t (a b : thread), l1 ++ t :: l2 = [a; b] -> (t = a /\ In b (l1 ++ l2)) \/ (t = b /\ In a (l1 ++ l2))).
    { intros [|x [|y [|z l1]]] l2 t a b E; try discriminate; injection E; intros; subst; simpl; auto. }
    intros l' S. inversion S as [l1 l2 held n p H E|l1 l2 held held' n p H E]; subst; apply D in E; destruct E as [[E Hin]|[E Hin]]; try discriminate; injection E as -> -> ->; apply H in Hin; apply Hin; simpl; auto.
Qed.
Print Assumptions lockorder_upstream_refuted.
