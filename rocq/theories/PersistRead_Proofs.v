(** Lemmas: contexts of whole trees, registrations one after the other. *)
From Coq Require Import ZArith Bool List Lia Permutation.
From Verif Require Import PyBase PersistRead_Model PersistRead_Spec.
Import ListNotations.

Lemma obj_deep (P : obj -> Prop) :
  (forall i u c r is rs, Forall (fun x => match x with Some x => P x | None => True end) is -> Forall (Forall P) rs -> P (Obj i u c r is rs)) ->
  forall o, P o.
Proof.
  intros H. fix IH 1. intros [i u c r is rs]. apply H.
  - induction is as [|[x|] is IHi]; constructor; auto.
  - induction rs as [|l rs IHr]; constructor; [|exact IHr]. induction l as [|x l IHl]; constructor; auto.
Qed.
Lemma data_deep (P : data -> Prop) :
  (forall u is rs, Forall (fun x => match x with Some x => P x | None => True end) is -> Forall (Forall P) rs -> P (Data u is rs)) ->
  forall d, P d.
Proof.
  intros H. fix IH 1. intros [u is rs]. apply H.
  - induction is as [|[x|] is IHi]; constructor; auto.
  - induction rs as [|l rs IHr]; constructor; [|exact IHr]. induction l as [|x l IHl]; constructor; auto.
Qed.

(** ** registrations *)
Lemma registered_app l1 l2 f u : registered (l1 ++ l2) f u = registered l2 (registered l1 f) u.
Proof. revert f. induction l1 as [|[v x] l1 IH]; intros f; [reflexivity|]. cbn. apply IH. Qed.
Lemma registered_ext l f g u : (forall v, f v = g v) -> registered l f u = registered l g u.
Proof. revert f g. induction l as [|[v x] l IH]; intros f g H; [apply H|]. cbn. apply IH. intros v'. now rewrite H. Qed.
Lemma registered_out l f u : ~ In u (map fst l) -> registered l f u = f u.
Proof.
  revert f. induction l as [|[v x] l IH]; intros f H; [reflexivity|]. cbn in *. rewrite IH by tauto.
  destruct (Nat.eqb_spec u v) as [->|]; [exfalso; apply H; now left|reflexivity].
Qed.
Lemma registered_in l f u x : NoDup (map fst l) -> In (u, x) l -> registered l f u = Some x.
Proof.
  revert f. induction l as [|[v y] l IH]; intros f N H; [destruct H|]. cbn in *. inversion N as [|? ? N1 N2]; subst. destruct H as [H|H].
  - injection H as <- <-. rewrite registered_out by exact N1. now rewrite Nat.eqb_refl.
  - now apply IH.
Qed.
(** what is registered under a uuid of the list is an object of the list *)
Lemma registered_some l f u : In u (map fst l) -> exists x, registered l f u = Some x /\ In (u, x) l.
Proof.
  revert f. induction l as [|[v y] l IH]; intros f H; [destruct H|]. cbn in *. destruct (in_dec Nat.eq_dec u (map fst l)) as [I|I].
  - destruct (IH (fun v' => if Nat.eqb v' v then Some y else f v') I) as (x & E & Hx). exists x. auto.
  - destruct H as [<-|H]; [|contradiction]. exists y. rewrite registered_out by exact I. rewrite Nat.eqb_refl. auto.
Qed.

(** the registrations of [l], in the context if there is one *)
Definition regd (c : option nat) (l : list (nat * nat)) (f : nat -> nat -> option nat) (c' u : nat) : option nat :=
  match c with
  | Some k => if Nat.eqb c' k then registered l (f k) u else f c' u
  | None => f c' u
  end.
Lemma regd_app c l1 l2 f c' u : regd c (l1 ++ l2) f c' u = regd c l2 (regd c l1 f) c' u.
Proof.
  destruct c as [k|]; [|reflexivity]. cbn. destruct (Nat.eqb_spec c' k) as [->|]; [|reflexivity]. rewrite registered_app. apply registered_ext.
  intros v. unfold regd. now rewrite Nat.eqb_refl.
Qed.
Lemma regd_ext c l f g : (forall c' u, f c' u = g c' u) -> forall c' u, regd c l f c' u = regd c l g c' u.
Proof. intros H c' u. destruct c as [k|]; cbn; [|apply H]. destruct (Nat.eqb c' k); [|apply H]. apply registered_ext. apply H. Qed.
Lemma regd_nil c f c' u : regd c [] f c' u = f c' u.
Proof. destruct c as [k|]; cbn; [|reflexivity]. now destruct (Nat.eqb_spec c' k) as [->|]. Qed.

(** the two states differ in the registrations of [l] only *)
Definition regs (c : option nat) (l : list (nat * nat)) (w w' : world) : Prop :=
  (forall c' u, w_reg w' c' u = regd c l (w_reg w) c' u) /\ w_next w' = w_next w /\ w_lost w' = w_lost w.
Lemma regs_nil c w : regs c [] w w.
Proof. repeat split. intros c' u. now rewrite regd_nil. Qed.
Lemma regs_none l w : regs None l w w.
Proof. repeat split. Qed.
Lemma regs_app c l1 l2 w w1 w2 : regs c l1 w w1 -> regs c l2 w1 w2 -> regs c (l1 ++ l2) w w2.
Proof.
  intros (A1 & A2 & A3) (B1 & B2 & B3). repeat split; try congruence. intros c' u. rewrite B1, regd_app. now apply regd_ext.
Qed.
Lemma regs_one k u x w : regs (Some k) [(u, x)] w (register k u x w).
Proof.
  repeat split. intros c' u'. cbn. destruct (Nat.eqb_spec c' k) as [->|]; cbn; [|reflexivity]. now destruct (Nat.eqb u' u).
Qed.

(** ** trees *)
(** the tree with all its objects in the context *)
Fixpoint ctxd (c : option nat) (o : obj) : obj :=
  match o with Obj i u _ r is rs => Obj i u c r (map (option_map (ctxd c)) is) (map (map (ctxd c)) rs) end.

Definition objects_items (is : list (option obj)) : list obj := flat_map (fun x => match x with Some x => objects x | None => [] end) is.
Lemma objects_eq i u c r is rs : objects (Obj i u c r is rs) = objects_items is ++ flat_map (flat_map objects) rs ++ [Obj i u c r is rs].
Proof. reflexivity. Qed.
Lemma within_eq c i u k r is rs :
  within c (Obj i u k r is rs) <-> k = c /\ Forall (fun x => match x with Some x => within c x | None => True end) is /\ Forall (Forall (within c)) rs.
Proof.
  unfold within. rewrite objects_eq, !Forall_app. unfold objects_items.
  assert (A : forall l : list (option obj), Forall (fun x => o_ctx x = c) (flat_map (fun x => match x with Some x => objects x | None => [] end) l) <->
              Forall (fun x => match x with Some x => Forall (fun y => o_ctx y = c) (objects x) | None => True end) l).
  { induction l as [|[x|] l IH]; cbn; [split; constructor| |]; rewrite ?Forall_app, Forall_cons_iff; cbn; tauto. }
  assert (B0 : forall l : list obj, Forall (fun x => o_ctx x = c) (flat_map objects l) <-> Forall (fun x => Forall (fun y => o_ctx y = c) (objects x)) l).
  { induction l as [|x l IH]; cbn; [split; constructor|]. rewrite Forall_app, Forall_cons_iff. tauto. }
  assert (B : forall l : list (list obj), Forall (fun x => o_ctx x = c) (flat_map (flat_map objects) l) <-> Forall (Forall (fun x => Forall (fun y => o_ctx y = c) (objects x))) l).
  { induction l as [|x l IH]; cbn; [split; constructor|]. rewrite Forall_app, Forall_cons_iff, B0. tauto. }
  rewrite A, B, Forall_cons_iff. cbn. split; [tauto|]. intros (H1 & H2 & H3). repeat split; auto.
Qed.

(** each, when [f] does not raise and always does [R] *)
Lemma each_regs {X} (f : X -> world -> out X) (g : X -> X) (E : X -> list (nat * nat)) c l :
  Forall (fun x => forall w, exists w', f x w = (g x, w', None) /\ regs c (E x) w w') l ->
  forall w, exists w', each f l w = (map g l, w', None) /\ regs c (flat_map E l) w w'.
Proof.
  induction 1 as [|x l H _ IH]; intros w; [exists w; split; [reflexivity|apply regs_nil]|]. cbn.
  destruct (H w) as (w1 & -> & R1). destruct (IH w1) as (w2 & E2 & R2).
  exists w2. split; [|eapply regs_app; eauto]. unfold each in E2 |- *. rewrite E2. reflexivity.
Qed.

Lemma entries_app l1 l2 : entries (l1 ++ l2) = entries l1 ++ entries l2.
Proof. apply map_app. Qed.
Lemma entries_flat {X} (f : X -> list obj) l : entries (flat_map f l) = flat_map (fun x => entries (f x)) l.
Proof. induction l as [|x l IH]; [reflexivity|]. cbn. now rewrite entries_app, IH. Qed.
Lemma flat_map_ext_Forall {X Y} (f g : X -> list Y) l : Forall (fun x => f x = g x) l -> flat_map f l = flat_map g l.
Proof. induction 1 as [|x l H _ IH]; [reflexivity|]. cbn. now rewrite H, IH. Qed.

(** a tree without a context is put into one, or stays without *)
Lemma set_context_in c o : within None o ->
  forall w, exists w', set_context c o w = (ctxd c o, w', None) /\ regs c (entries (objects o)) w w'.
Proof.
  induction o as [i u k r is rs IHi IHr] using obj_deep. intros W w. apply within_eq in W. destruct W as (-> & Wi & Wr).
  assert (A : forall w, exists w', each (opt (set_context c)) is w = (map (option_map (ctxd c)) is, w', None) /\
              regs c (flat_map (fun x => entries (match x with Some x => objects x | None => [] end)) is) w w').
  { apply each_regs. rewrite Forall_forall in *. intros [x|] Hx v; [|exists v; split; [reflexivity|apply regs_nil]].
    destruct (IHi _ Hx (Wi _ Hx) v) as (v' & E & R). exists v'. cbn. rewrite E. auto. }
  assert (B : forall w, exists w', each (each (set_context c)) rs w = (map (map (ctxd c)) rs, w', None) /\
              regs c (flat_map (flat_map (fun x => entries (objects x))) rs) w w').
  { apply each_regs. rewrite Forall_forall in *. intros l Hl. apply each_regs. specialize (IHr _ Hl). specialize (Wr _ Hl).
    rewrite Forall_forall in *. auto. }
  destruct (A w) as (w1 & E1 & R1). destruct (B w1) as (w2 & E2 & R2).
  rewrite objects_eq, !entries_app. unfold objects_items. rewrite !entries_flat.
  rewrite (flat_map_ext _ _ (entries_flat objects) rs).
  cbn [set_context]. rewrite E1, E2. cbn [ctxd].
  destruct c as [k|].
  - eexists. split; [reflexivity|]. eapply regs_app; [exact R1|]. eapply regs_app; [exact R2|]. apply regs_one.
  - eexists. split; [reflexivity|]. eapply regs_app; [exact R1|]. eapply regs_app; [exact R2|]. apply regs_none.
Qed.

Lemma objects_ctxd c o : objects (ctxd c o) = map (ctxd c) (objects o).
Proof.
  induction o as [i u k r is rs IHi IHr] using obj_deep. cbn [ctxd]. rewrite !objects_eq, !map_app. unfold objects_items.
  f_equal; [|f_equal].
  - induction IHi as [|[x|] is H _ IH]; [reflexivity| |exact IH]. cbn. now rewrite map_app, H, IH.
  - induction IHr as [|l rs H _ IH]; [reflexivity|]. cbn. rewrite map_app, IH. f_equal. clear -H. induction H as [|x l E _ IH]; [reflexivity|]. cbn. now rewrite map_app, E, IH.
Qed.
Lemma o_id_ctxd c o : o_id (ctxd c o) = o_id o.
Proof. now destruct o. Qed.
Lemma o_uuid_ctxd c o : o_uuid (ctxd c o) = o_uuid o.
Proof. now destruct o. Qed.
Lemma o_ctx_ctxd c o : o_ctx (ctxd c o) = c.
Proof. now destruct o. Qed.
Lemma entries_ctxd c l : entries (map (ctxd c) l) = entries l.
Proof. unfold entries. rewrite map_map. apply map_ext. intros o. now rewrite o_id_ctxd, o_uuid_ctxd. Qed.
Lemma within_ctxd c o : within c (ctxd c o).
Proof. unfold within. rewrite objects_ctxd. apply Forall_forall. intros x H. apply in_map_iff in H. destruct H as (y & <- & _). apply o_ctx_ctxd. Qed.
