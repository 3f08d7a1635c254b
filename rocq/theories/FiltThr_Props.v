(** Properties of a filtered list without sort key that any number of threads use. *)
From Coq Require Import List ZArith Bool Arith Permutation Lia.
From Verif Require Import PyBase Filtered_Model Filtered_Spec Filtered_Proofs Filtered_Proofs2
  FiltThr_Model FiltThr_Spec FiltThr_Proofs FiltThr_Proofs2 FiltThr_Proofs3.
Import ListNotations.

Section Props.
  Context {A C : Type} (A_dec : forall a b : A, {a = b} + {a <> b}).
  Notation tst := (tst A C).
  Notation tact := (tact A C).
  Notation tpc := (tpc A C).
  Notation t_run := (t_run A_dec).

  (** Whatever the threads do, the list has no item twice and none that is not in the master list, and an item that
      is missing or should not be there is one that some call under way will still look at. *)
  Theorem filtthr_pointwise (w : A -> C) (acts : list tact) : Forall visits acts ->
    let s := t_run w acts in
    NoDup (items s) /\ incl (items s) (master s) /\
    forall x, right s x \/ exists p, In p (t_calls s) /\ (updating p \/ handling p x).
  Proof.
    intros Ha s. pose proof (run_inv A_dec w acts Ha) as V. fold s in V. destruct (v_h s V) as [H1 H2 H3].
    split; [exact H2|]. split; [exact H3|]. intros x. destruct (v_fix s V x) as [(p & Hp & Hf)|[Hr _]]; [right|left; exact Hr].
    exists p. split; [exact Hp|]. destruct p; cbn in *; tauto.
  Qed.

  (** A thread that reads the items gets the mutex, so what it can miss is only what a call is waiting to do. *)
  Theorem filtthr_reader (w : A -> C) (acts : list tact) : Forall visits acts ->
    let s := t_run w acts in
    t_owner s = None -> forall x, right s x \/ exists p, In p (t_calls s) /\ awaiting p x.
  Proof.
    intros Ha s Ho x. pose proof (run_inv A_dec w acts Ha) as V. fold s in V.
    destruct (v_fix s V x) as [(p & Hp & Hf)|[Hr _]]; [right|left; exact Hr]. exists p. split; [exact Hp|].
    assert (K : holds p = false).
    { destruct (holds p) eqn:E; [|reflexivity]. apply In_nth_error in Hp as [t Hp]. rewrite (v_hold s V t p Hp E) in Ho. discriminate. }
    destruct p; cbn in *; try discriminate; tauto.
  Qed.

  (** When all calls have ended the list has just the items it should have, in some order. *)
  Theorem filtthr_settled (w : A -> C) (acts : list tact) : Forall visits acts ->
    let s := t_run w acts in over s -> Permutation (items s) (filter (wanted s) (master s)).
  Proof.
    intros Ha s Ho. pose proof (run_inv A_dec w acts Ha) as V. fold s in V. destruct (v_h s V) as [H1 H2 H3].
    apply NoDup_Permutation; [exact H2|apply NoDup_filter; exact H1|]. intros x. rewrite filter_In. apply (over_right s V Ho).
  Qed.

  (** If the place of an item is never looked for while a change of another item or an assignment is under way, the
      list is in the order of the master list at all times, and right in the end. *)
  Theorem filtthr_order_apart (w : A -> C) (acts : list tact) : Forall visits acts ->
    throughout A_dec (fun s => edits_apart s /\ updates_apart s) (t_new w) acts ->
    let s := t_run w acts in
    items s = filter (fun x => inb A_dec x (items s)) (master s) /\ (over s -> exact s).
  Proof.
    intros Ha HT s. pose proof (run_inv A_dec w acts Ha) as V. fold s in V.
    assert (Hs : sub (items s) (master s)).
    { apply (run_sub A_dec acts (t_new w)); [apply inv_new|exact Ha|exists (fun _ => true); reflexivity|exact HT]. }
    split; [apply (sub_self A_dec); exact Hs|]. intros Ho. apply exact_of; [exact Hs|]. exact (over_right s V Ho).
  Qed.

  (** Insertions may come during an assignment, provided no assignment to the filter comes while another thread is
      inside __update_items; then the list is right in the end. *)
  Theorem filtthr_order_filters (w : A -> C) (acts : list tact) : Forall visits acts ->
    throughout A_dec (fun s => edits_apart s /\ filters_apart s) (t_new w) acts ->
    let s := t_run w acts in over s -> exact s.
  Proof.
    intros Ha HT s Ho. pose proof (run_inv A_dec w acts Ha) as V. fold s in V.
    pose proof (run_ord A_dec acts (t_new w) (inv_new w) Ha (ord_new w) HT) as O. change (fold_left _ acts (t_new w)) with s in O.
    destruct (o_w s O) as [[K _]|[K|(_ & p & K & D)]].
    - apply exact_of; [exact K|]. exact (over_right s V Ho).
    - discriminate (Ho _ K).
    - rewrite (Ho p K) in D. destruct D as [D|D]; [discriminate|destruct D].
  Qed.

  (** A listener that applies the notifications, which come one at a time, has the items of the list at all times, and
      the begin and end notifications match whenever the mutex is free. *)
  Theorem filtthr_follow (w : A -> C) (acts : list tact) : Forall visits acts ->
    let s := t_run w acts in
    f_follows [] (t_log s) (items s) /\ (t_owner s = None -> nesting 0 (t_log s) = Some 0).
  Proof.
    intros Ha s. pose proof (run_inv A_dec w acts Ha) as V. fold s in V. split; [exact (v_log s V)|].
    intros Ho. rewrite (v_nest s V). f_equal. destruct (filter atflag (t_calls s)) as [|p l] eqn:E; [reflexivity|]. exfalso.
    assert (K : In p (filter atflag (t_calls s))) by (rewrite E; left; reflexivity). apply filter_In in K as [K1 K2].
    destruct p; try discriminate. apply In_nth_error in K1 as [t K1]. rewrite (v_hold s V t _ K1 eq_refl) in Ho. discriminate.
  Qed.

  (** From every state the calls under way can go on until all have ended: no call waits for ever for the mutex. *)
  Theorem filtthr_finish (w : A -> C) (acts : list tact) : Forall visits acts ->
    exists more, Forall visits more /\ Forall goes more /\ over (t_run w (acts ++ more)).
  Proof.
    intros Ha. pose proof (run_inv A_dec w acts Ha) as V. set (s := t_run w acts) in *.
    assert (D : exists a1, Forall visits a1 /\ Forall goes a1 /\ t_owner (fold_left (t_step A_dec) a1 s) = None).
    { destruct (t_owner s) as [t|] eqn:Ho; [|exists []; auto]. destruct (v_own s V t Ho) as (p & Hp & _).
      destruct (solo A_dec _ s t p V Hp (or_intror Ho) (le_n _)) as (a1 & A1 & A2 & _ & A4). exists a1. auto. }
    destruct D as (a1 & A1 & A2 & A3).
    destruct (finish_all A_dec _ _ (run_inv_from A_dec a1 s V A1) A3 (le_n _)) as (a2 & B1 & B2 & B3).
    exists (a1 ++ a2). rewrite !Forall_app. repeat split; auto. unfold FiltThr_Model.t_run in *. rewrite !fold_left_app. exact B3.
  Qed.
End Props.
Print Assumptions filtthr_pointwise.
Print Assumptions filtthr_reader.
Print Assumptions filtthr_settled.
Print Assumptions filtthr_order_apart.
Print Assumptions filtthr_order_filters.
Print Assumptions filtthr_follow.
Print Assumptions filtthr_finish.

(** -- examples -- *)
Local Notation run := (t_run (C := nat) Nat.eq_dec (fun x : nat => x)).
Local Notation go t := (TGo (A := nat) (C := nat) t (fun l => l)).
Local Notation call p := (TCall (A := nat) (C := nat) p).
Definition gos (t n : nat) : list (tact nat nat) := repeat (go t) n.
Definition above (k : nat) : nat -> bool := fun c => k <? c.

(** one call after the other *)
Definition abc : list (tact nat nat) :=
  call (TIns 1 0%Z) :: gos 0 4 ++ call (TIns 2 1%Z) :: gos 1 4 ++ call (TIns 3 2%Z) :: gos 2 4.

Lemma visits_gos t n : Forall visits (gos t n).
Proof. induction n; cbn; constructor; cbn; auto. Qed.
(** a filter is assigned; while its call waits for the mutex an insertion comes *)
Definition overlap : list (tact nat nat) :=
  abc ++ call (TSetFilter (above 1)) :: go 3 :: call (TIns 4 3%Z) :: gos 4 4 ++ gos 3 2.
Example filtthr_pointwise_ex :
  let s := run overlap in
  items s = [1; 2; 4; 3] /\ master s = [1; 2; 3; 4] /\ wanted s 1 = false /\
  t_calls s = [TDone; TDone; TDone; TBuild [] [1; 2; 3; 4]; TDone].
Proof. vm_compute. repeat split. Qed.
Example filtthr_reader_ex :
  let s := run (abc ++ [call (TSetFilter (above 1)); go 3]) in
  t_owner s = None /\ items s = [1; 2; 3] /\ wanted s 1 = false /\ t_calls s = [TDone; TDone; TDone; TSetFlag].
Proof. vm_compute. repeat split. Qed.
Definition alldone (s : tst nat nat) : bool := forallb (fun p => negb (going p)) (t_calls s).
Definition full := overlap ++ gos 3 9.
Example filtthr_settled_ex : alldone (run full) = true /\ items (run full) = [2; 3; 4] /\ master (run full) = [1; 2; 3; 4].
Proof. vm_compute. auto. Qed.

Definition all_states (P : tst nat nat -> bool) (acts : list (tact nat nat)) : bool :=
  forallb (fun k => P (run (firstn k acts))) (seq 0 (S (length acts))).
Definition apartb (s : tst nat nat) : bool :=
  forallb (fun p => match p with
                    | TPlace x => forallb (fun q => match q with TTell y => y =? x | TSetFlag | TUpd => false | _ => true end) (t_calls s)
                    | _ => true end) (t_calls s).
Definition filtersb (s : tst nat nat) : bool :=
  negb (existsb (fun p => match p with TSetFlag => true | _ => false end) (t_calls s) &&
        existsb (fun p => match p with TBuild _ _ | TApply _ | TFlag => true | _ => false end) (t_calls s)).
(** an assignment, then a change of content, then a removal while another assignment is under way *)
Definition calm : list (tact nat nat) :=
  abc ++ call (TSetFilter (above 1)) :: gos 3 12 ++ call (TEdit 1 5) :: gos 4 6
      ++ call (TSetFilter (above 2)) :: go 5 :: call (TDel 1%Z) :: gos 6 2 ++ gos 5 9.
Example filtthr_order_apart_ex :
  all_states apartb calm = true /\ alldone (run calm) = true /\ items (run calm) = [1; 3] /\ master (run calm) = [1; 3].
Proof. vm_compute. auto. Qed.
(** in the first example the insertion comes while the assignment is under way *)
Example filtthr_order_filters_ex :
  all_states filtersb full = true /\ all_states apartb full = false /\ items (run full) = [2; 3; 4].
Proof. vm_compute. auto. Qed.
Example filtthr_follow_ex :
  t_log (run full) =
  [FBegin; FIns 1 0; FEnd; FBegin; FIns 2 1; FEnd; FBegin; FIns 3 2; FEnd; FBegin; FIns 4 2; FEnd; FReset;
   FBegin; FRem 1 3; FRem 2 2; FRem 4 1; FRem 3 0; FIns 2 0; FIns 3 1; FIns 4 2; FEnd].
Proof. vm_compute. reflexivity. Qed.
Example filtthr_finish_ex : alldone (run overlap) = false /\ alldone (run full) = true.
Proof. vm_compute. auto. Qed.

(** One thread is inside __update_items and has changed the items when another assigns a filter; the first then
    writes True over the False of the second, an insertion counts with the new filter in the list of the old one, and
    the update of the second keeps the order it finds. *)
Definition filter_race : list (tact nat nat) :=
  abc ++ call TSortKey :: gos 3 7 ++ call (TSetFilter (above 2)) :: gos 4 2 ++ gos 3 2
      ++ call (TIns 4 3%Z) :: gos 5 4 ++ gos 4 9.
Lemma filter_race_visits : Forall visits filter_race.
Proof. unfold filter_race, abc. repeat first [apply visits_gos|apply Forall_app; split|constructor|exact I|intros l; reflexivity]. Qed.
Theorem filtthr_filter_race_refuted :
  exists acts : list (tact nat nat), Forall visits acts /\ all_states filtersb acts = false /\
    let s := run acts in alldone s = true /\ master s = [1; 2; 3; 4] /\ filter (wanted s) (master s) = [3; 4] /\ items s = [4; 3].
Proof. exists filter_race. split; [exact filter_race_visits|]. vm_compute. auto. Qed.
Print Assumptions filtthr_filter_race_refuted.

(** Two threads change items; the second change is handled first and counts the first item, which is not listed yet. *)
Definition edit_race : list (tact nat nat) :=
  abc ++ call (TSetFilter (above 9)) :: gos 3 12 ++ call (TEdit 3 10) :: gos 4 7
      ++ call (TEdit 1 10) :: go 5 :: call (TEdit 2 10) :: gos 6 7 ++ gos 5 7.
Lemma edit_race_visits : Forall visits edit_race.
Proof. unfold edit_race, abc. repeat first [apply visits_gos|apply Forall_app; split|constructor|exact I|intros l; reflexivity]. Qed.
Theorem filtthr_edit_race_refuted :
  exists acts : list (tact nat nat), Forall visits acts /\ all_states filtersb acts = true /\
    let s := run acts in alldone s = true /\ filter (wanted s) (master s) = [1; 2; 3] /\ items s = [1; 3; 2].
Proof. exists edit_race. split; [exact edit_race_visits|]. vm_compute. auto. Qed.
Print Assumptions filtthr_edit_race_refuted.
