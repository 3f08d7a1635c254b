(** Properties of persistent properties whose values can be edited. *)
From Coq Require Import List Bool Arith Lia.
From Verif Require Import PyBase PropShare_Model PropShare_Spec PropShare_Proofs.
Import ListNotations.

Section Props.
  Context {N C : Type} (N_dec : forall x y : N, {x = y} + {x <> y}).
  Variables (validate : N -> option (C -> @verdict C)) (special calls : N -> bool).
  Notation state := (@state N C).
  Notation op := (@op N C).
  Notation step := (step N_dec validate special calls).
  Notation run := (run N_dec validate special calls).

  (** A property without callback, set to an object the client has, whose validation makes a new object or that has none: it
      keeps the contents the object had then, and they are what is stored, whatever the client does with all objects it has, as
      long as it does not set or read the property again, and does not get its value unless that is copied when read. *)
  Theorem propshare_set (s : state) (h1 h2 : list op) (n : N) (a : nat) (c v : C) : sound s ->
    let s1 := run s h1 in
    In a (has s1) -> obj s1 a = Some c -> assigned (validate n) c = Some v -> calls n = false ->
    (forall o, In o h2 -> ~ assigns n o) -> (special n = true \/ forall o, In o h2 -> ~ gets n o) ->
    let s2 := run s (h1 ++ Set_ n a :: h2) in value s2 n = Some v /\ stored s2 n = Some v.
  Proof.
    intros S. cbv zeta. intros A E V K H G. unfold PropShare_Model.run. rewrite fold_left_app. cbn [fold_left]. fold (run s h1). set (s1 := run s h1) in *.
    destruct (assign_private N_dec validate calls n a s1 c v (run_sound N_dec validate special calls h1 s S) E V K) as (s' & E' & P & W & S' & Q).
    cbn [PropShare_Model.step]. destruct (in_dec Nat.eq_dec a (has s1)); [|contradiction]. rewrite E'. set (t := State _ _ _ _).
    destruct (run_private N_dec validate special calls n h2 t S' P H G) as (_ & R1 & R2). unfold PropShare_Model.run in R1, R2. rewrite R1, R2. split; [exact W|].
    cbn [t stored]. rewrite upd_eq. exact W.
  Qed.
  (** The same if it is read from a dict, and nothing is stored. *)
  Theorem propshare_read (s : state) (h1 h2 : list op) (n : N) (a : nat) (c v : C) : sound s ->
    let s1 := run s h1 in
    In a (has s1) -> obj s1 a = Some c -> assigned (validate n) c = Some v -> calls n = false ->
    (forall o, In o h2 -> ~ assigns n o) -> (special n = true \/ forall o, In o h2 -> ~ gets n o) ->
    let s2 := run s (h1 ++ Read n a :: h2) in value s2 n = Some v /\ stored s2 n = stored s1 n.
  Proof.
    intros S. cbv zeta. intros A E V K H G. unfold PropShare_Model.run. rewrite fold_left_app. cbn [fold_left]. fold (run s h1). set (s1 := run s h1) in *.
    destruct (assign_private N_dec validate calls n a s1 c v (run_sound N_dec validate special calls h1 s S) E V K) as (s' & E' & P & W & S' & Q).
    cbn [PropShare_Model.step]. destruct (in_dec Nat.eq_dec a (has s1)); [|contradiction]. rewrite E'.
    destruct (run_private N_dec validate special calls n h2 s' S' P H G) as (_ & R1 & R2). unfold PropShare_Model.run in R1, R2. rewrite R1, R2, Q. auto.
  Qed.

  (** A property changes only when it is set or read, or when the client edits the object that is its value and that it has;
      what is stored changes only when it is set. *)
  Theorem propshare_changes (s : state) (o : op) (n : N) : sound s ->
    (value (step s o) n <> value s n -> assigns n o \/ exists c, o = Edit (own s n) c /\ In (own s n) (has s)) /\
    (stored (step s o) n <> stored s n -> exists a, o = Set_ n a).
  Proof.
    intros [S1 S2]. assert (SV : forall m a s', set_value N_dec validate calls m a s = Some s' -> m <> n -> value s' n = value s n /\ stored s' n = stored s n).
    { intros m a s' E D. apply set_value_spec in E as (new & b & H1 & H2 & _ & H4 & _). unfold value, obj. rewrite H2, upd_ne, H1, H4 by exact D. split; [apply old_obj, S2|reflexivity]. }
    destruct o as [c|a c|m a|m a|m]; cbn [PropShare_Model.step assigns].
    - unfold value, obj. cbn [heap own stored]. rewrite old_obj by apply S2. split; congruence.
    - destruct (in_dec _ _ _) as [I|I]; [|split; congruence]. unfold value, obj. cbn [heap own stored]. split; [|congruence]. intros X. destruct (Nat.eq_dec a (own s n)) as [->|D].
      + right. exists c. auto.
      + exfalso. apply X. apply put_ne, D.
    - destruct (in_dec _ _ _) as [I|I]; [|split; congruence]. destruct (set_value N_dec validate calls m a s) as [s'|] eqn:E; [|split; congruence].
      destruct (N_dec m n) as [->|D]; [split; intros _; [auto|exists a; reflexivity]|]. destruct (SV m a s' E D) as [V1 V2]. unfold value, obj in *. cbn [heap own stored].
      rewrite upd_ne by exact D. split; congruence.
    - destruct (in_dec _ _ _) as [I|I]; [|split; congruence]. destruct (set_value N_dec validate calls m a s) as [s'|] eqn:E; [|split; congruence].
      destruct (N_dec m n) as [->|D].
      + split; [intros _; auto|]. apply set_value_spec in E as (new & b & _ & _ & _ & H4 & _). rewrite H4. congruence.
      + destruct (SV m a s' E D) as [V1 V2]. split; congruence.
    - destruct (special m); [destruct (nth_error _ _)|]; unfold value, obj; cbn [heap own stored]; rewrite ?old_obj by apply S2; split; congruence.
  Qed.

  (** A client that gets the value of a property that is not copied when read can make it anything; nothing is stored. *)
  Theorem propshare_live (s : state) (n : N) (c : C) : sound s -> special n = false ->
    let s' := run s [Get n; Edit (own s n) c] in value s' n = Some c /\ forall m, stored s' m = stored s m.
  Proof.
    intros [S1 S2] E. cbn. rewrite E. cbn [has heap own stored]. destruct (in_dec Nat.eq_dec (own s n) (own s n :: has s)) as [I|I]; [|exfalso; apply I; left; reflexivity].
    unfold value, obj. cbn [heap own stored]. split; [apply put_eq, S2|reflexivity].
  Qed.
End Props.

(** * On lists of numbers; both properties have the same object as their default at the start *)
Definition begin : @state nat (list nat) := State [[]] (fun _ => 0) [] (fun _ => None).
Lemma begin_sound : sound begin.
Proof. split; cbn; [contradiction|auto]. Qed.
Notation plain := (fun _ : nat => false).
Notation always := (fun _ : nat => true).
Notation unchecked := (fun _ : nat => @None (list nat -> verdict)).
Notation checked := (fun _ : nat => Some (fun l : list nat => if length l <=? 3 then Keep else Bad)).
(** the property is as it was set, and so is what is stored *)
Definition kept (run : @state nat (list nat) -> list (@op nat (list nat)) -> @state nat (list nat)) : Prop :=
  forall h1 h2 a c, let s1 := run begin h1 in In a (has s1) -> obj s1 a = Some c -> (forall o, In o h2 -> ~ assigns 0 o) ->
  value (run begin (h1 ++ Set_ 0 a :: h2)) 0 = Some c.
Lemma none_assigns (a : nat) (c : list nat) : forall o : @op nat (list nat), In o [Edit a c] -> ~ assigns 0 o.
Proof. intros o [<-|[]] X. exact X. Qed.
(** Findings *)
(** of a property that is not copied when read *)
Theorem propshare_live_refuted : ~ kept (run Nat.eq_dec unchecked plain plain).
Proof.
  intros H. specialize (H [New [1; 2]] [Get 0; Edit 2 [7]] 1 [1; 2]). cbv zeta in H. enough (Some [7] = Some [1; 2]) by discriminate.
  etransitivity; [|apply H]; [vm_compute; reflexivity|cbn; auto|reflexivity|]. intros o [<-|[<-|[]]] X; exact X.
Qed.
(** of one that is, with a changed callback: that is given the object itself *)
Theorem propshare_callback_refuted : ~ kept (run Nat.eq_dec unchecked always always).
Proof.
  intros H. specialize (H [New [1; 2]] [Edit 2 [7]] 1 [1; 2]). cbv zeta in H. enough (Some [7] = Some [1; 2]) by discriminate.
  etransitivity; [|apply H]; [vm_compute; reflexivity|cbn; auto|reflexivity|apply none_assigns].
Qed.
(** of one that is, with a validate function that returns what it is given: the object of the client is the value *)
Theorem propshare_validate_refuted : ~ kept (run Nat.eq_dec checked always plain).
Proof.
  intros H. specialize (H [New [1; 2]] [Edit 1 [7; 7; 7; 7]] 1 [1; 2]). cbv zeta in H. enough (Some [7; 7; 7; 7] = Some [1; 2]) by discriminate.
  etransitivity; [|apply H]; [vm_compute; reflexivity|cbn; auto|reflexivity|apply none_assigns].
Qed.
(** a default that two properties share: getting the value of one and editing it changes the other *)
Theorem propshare_default_refuted : ~ forall h n, (forall o, In o h -> ~ assigns n o /\ ~ gets n o) ->
  value (run Nat.eq_dec unchecked plain plain begin h) n = value begin n.
Proof.
  intros H. specialize (H [Get 1; Edit 0 [7]] 0). enough (Some [7] = Some []) by discriminate. etransitivity; [|apply H]; [vm_compute; reflexivity|].
  intros o [<-|[<-|[]]]; split; intros X; try exact X; discriminate.
Qed.

(** * Examples *)
Example apart : let s := run Nat.eq_dec unchecked always plain begin [New [1; 2]; Set_ 0 1; Edit 1 [8]; Get 0; Edit 3 [9]; Set_ 1 3; Edit 3 [4]] in
  (value s 0, value s 1, stored s 0, stored s 1, has s, heap s) = (Some [1; 2], Some [9], Some [1; 2], Some [9], [3; 1], [[]; [8]; [1; 2]; [4]; [9]]).
Proof. vm_compute. reflexivity. Qed.
Example refused : let s := run Nat.eq_dec checked plain plain begin [New [1; 2; 3; 4]; Set_ 0 1; Edit 1 [5]; Read 0 1; Edit 1 [6]] in
  (value s 0, stored s 0, own s 0) = (Some [6], None, 1).
Proof. vm_compute. reflexivity. Qed.
Example live : let s := run Nat.eq_dec unchecked plain plain begin [New [1]; Set_ 0 1; Get 0; Edit 2 [1; 2]] in
  (value s 0, stored s 0) = (Some [1; 2], Some [1]).
Proof. vm_compute. reflexivity. Qed.

Print Assumptions propshare_set.
Print Assumptions propshare_read.
Print Assumptions propshare_changes.
Print Assumptions propshare_live.
Print Assumptions propshare_live_refuted.
Print Assumptions propshare_callback_refuted.
Print Assumptions propshare_validate_refuted.
Print Assumptions propshare_default_refuted.
