(** Lemmas: leaving a context, histories. *)
From Coq Require Import ZArith Bool List Lia Permutation.
From Verif Require Import PyBase PersistRead_Model PersistRead_Spec PersistRead_Proofs PersistRead_Proofs2.
Import ListNotations.

(** ** uuids are unregistered one after the other *)
Fixpoint dels (k : nat) (l : list nat) (w : world) : world * option exn :=
  match l with
  | [] => (w, None)
  | u :: l' => match unregister k u w with (w1, None) => dels k l' w1 | (w1, Some e) => (w1, Some e) end
  end.
Lemma dels_app k l1 l2 w : dels k (l1 ++ l2) w = match dels k l1 w with (w1, None) => dels k l2 w1 | (w1, Some e) => (w1, Some e) end.
Proof.
  revert w. induction l1 as [|u l1 IH]; intros w; [reflexivity|]. cbn. destruct (unregister k u w) as [w1 [e|]]; [reflexivity|]. apply IH.
Qed.
Lemma dels_frame k l w : w_next (fst (dels k l w)) = w_next w /\ w_lost (fst (dels k l w)) = w_lost w /\
  (snd (dels k l w) = None \/ snd (dels k l w) = Some KeyError).
Proof.
  revert w. induction l as [|u l IH]; intros w; [cbn; auto|]. cbn. unfold unregister. destruct (w_reg w k u); [|cbn; auto].
  destruct (IH (set_reg k u None w)) as (A & B & C). cbn in A, B. auto.
Qed.
Lemma dels_spec k l w :
  (snd (dels k l w) = None <-> NoDup l /\ forall u, In u l -> w_reg w k u <> None) /\
  (snd (dels k l w) = None -> forall c u, w_reg (fst (dels k l w)) c u = if Nat.eqb c k && (if in_dec Nat.eq_dec u l then true else false) then None else w_reg w c u).
Proof.
  revert w. induction l as [|u l IH]; intros w.
  - cbn. split; [split; [intros _; split; [constructor|tauto]|auto]|]. intros _ c v. now rewrite andb_false_r.
  - cbn [dels]. unfold unregister. destruct (w_reg w k u) as [x|] eqn:E.
    + destruct (IH (set_reg k u None w)) as [A B]. split.
      * rewrite A. cbn [set_reg w_reg]. rewrite Nat.eqb_refl. cbn [andb]. split.
        -- intros [N H]. assert (~ In u l) by (intros I; specialize (H u I); rewrite Nat.eqb_refl in H; now apply H). split; [now constructor|].
           intros v [<-|I]; [congruence|]. specialize (H v I). destruct (Nat.eqb_spec v u) as [Q|Q]; [subst v; contradiction|exact H].
        -- intros [N H]. inversion N as [|? ? N1 N2]; subst. split; [exact N2|]. intros v I. destruct (Nat.eqb_spec v u) as [Q|Q]; [subst v; contradiction|]. apply H. now right.
      * intros Hn c v. rewrite (B Hn). cbn [set_reg w_reg]. destruct (Nat.eqb_spec c k) as [->|]; [|reflexivity]. cbn [andb].
        destruct (in_dec Nat.eq_dec v l) as [I|I]; destruct (in_dec Nat.eq_dec v (u :: l)) as [J|J]; try reflexivity.
        -- exfalso. apply J. now right.
        -- destruct J as [<-|J]; [now rewrite Nat.eqb_refl|contradiction].
        -- destruct (Nat.eqb_spec v u) as [->|]; [|reflexivity]. exfalso. apply J. now left.
    + cbn. split; [|discriminate]. split; [discriminate|]. intros [_ H]. exfalso. exact (H u (or_introl eq_refl) E).
Qed.

Lemma each_dels {X} (f : X -> world -> out X) (g : X -> X) (E : X -> list nat) k l :
  Forall (fun x => forall w, exists x', f x w = (x', fst (dels k (E x) w), snd (dels k (E x) w)) /\ (snd (dels k (E x) w) = None -> x' = g x)) l ->
  forall w, exists l', each f l w = (l', fst (dels k (flat_map E l) w), snd (dels k (flat_map E l) w)) /\ (snd (dels k (flat_map E l) w) = None -> l' = map g l).
Proof.
  induction 1 as [|x l H _ IH]; intros w; [exists []; auto|]. cbn [flat_map]. rewrite dels_app. destruct (H w) as (x' & E1 & G1). cbn [each]. rewrite E1.
  destruct (dels k (E x) w) as [w1 [e|]]; cbn [fst snd] in *.
  - exists (x' :: l). split; [reflexivity|discriminate].
  - destruct (IH w1) as (l' & E2 & G2). exists (x' :: l').
    change ((let '(l'', w2, e) := each f l w1 in (x' :: l'', w2, e)) = (x' :: l', fst (dels k (flat_map E l) w1), snd (dels k (flat_map E l) w1)) /\ (snd (dels k (flat_map E l) w1) = None -> x' :: l' = map g (x :: l))).
    rewrite E2. split; [reflexivity|]. intros Hn. cbn. rewrite (G1 eq_refl), (G2 Hn). reflexivity.
Qed.
Lemma uuids_flat {X} (f : X -> list obj) l : map o_uuid (flat_map f l) = flat_map (fun x => map o_uuid (f x)) l.
Proof. induction l as [|x l IH]; [reflexivity|]. cbn. now rewrite map_app, IH. Qed.
Lemma set_context_out k o : within (Some k) o -> forall w, exists o', set_context None o w = (o', fst (dels k (uuids o) w), snd (dels k (uuids o) w)) /\
  (snd (dels k (uuids o) w) = None -> o' = ctxd None o).
Proof.
  induction o as [i u k' r is rs IHi IHr] using obj_deep. intros W w. apply within_eq in W. destruct W as (-> & Wi & Wr).
  assert (A : forall w, exists l', each (opt (set_context None)) is w = (l', fst (dels k (flat_map (fun x => map o_uuid (match x with Some x => objects x | None => [] end)) is) w), snd (dels k (flat_map (fun x => map o_uuid (match x with Some x => objects x | None => [] end)) is) w)) /\
              (snd (dels k (flat_map (fun x => map o_uuid (match x with Some x => objects x | None => [] end)) is) w) = None -> l' = map (option_map (ctxd None)) is)).
  { apply each_dels. rewrite Forall_forall in *. intros [x|] Hx v; [|exists None; auto].
    destruct (IHi _ Hx (Wi _ Hx) v) as (x' & E & G). exists (Some x'). cbn [opt]. rewrite E. split; [reflexivity|]. intros Hn. cbn. now rewrite (G Hn). }
  assert (B : forall w, exists l', each (each (set_context None)) rs w = (l', fst (dels k (flat_map (flat_map uuids) rs) w), snd (dels k (flat_map (flat_map uuids) rs) w)) /\
              (snd (dels k (flat_map (flat_map uuids) rs) w) = None -> l' = map (map (ctxd None)) rs)).
  { apply each_dels. rewrite Forall_forall in *. intros l Hl. apply each_dels. specialize (IHr _ Hl). specialize (Wr _ Hl).
    rewrite Forall_forall in *. auto. }
  unfold uuids. rewrite objects_eq, !map_app. unfold objects_items. rewrite !uuids_flat. rewrite (flat_map_ext _ _ (uuids_flat objects) rs).
  destruct (A w) as (is' & E1 & G1). cbn [set_context]. rewrite E1. rewrite dels_app. destruct (dels k (flat_map _ is) w) as [w1 [e|]]; cbn [fst snd] in *.
  { eexists. split; [reflexivity|discriminate]. }
  destruct (B w1) as (rs' & E2 & G2). rewrite E2. rewrite dels_app. fold uuids in *. change (fun x => flat_map (fun x0 => map o_uuid (objects x0)) x) with (flat_map uuids).
  destruct (dels k (flat_map (flat_map uuids) rs) w1) as [w2 [e|]]; cbn [fst snd] in *.
  { eexists. split; [reflexivity|discriminate]. }
  cbn [map o_uuid dels]. destruct (unregister k u w2) as [w3 [e|]]; cbn [fst snd].
  - eexists. split; [reflexivity|discriminate].
  - eexists. split; [reflexivity|]. intros _. cbn. rewrite (G1 eq_refl), (G2 eq_refl). reflexivity.
Qed.

(** ** the objects after reading *)
Lemma items_read_objects ds is is' new old P : items_read ds is is' new old ->
  Forall P (objects_items is) -> Forall P (flat_map objects (map snd new)) -> Forall P (objects_items is').
Proof.
  induction 1 as [is|ds|ds x is is' new old H IH|d ds x y is is' new old H IH]; intros A B; auto.
  - change (Forall P ((match x with Some x => objects x | None => [] end) ++ objects_items is)) in A. apply Forall_app in A. destruct A as [A1 A2].
    change (Forall P ((match x with Some x => objects x | None => [] end) ++ objects_items is')). apply Forall_app. auto.
  - change (Forall P ((match x with Some x => objects x | None => [] end) ++ objects_items is)) in A. apply Forall_app in A. destruct A as [A1 A2].
    cbn in B. apply Forall_app in B. destruct B as [B1 B2]. change (Forall P (objects y ++ objects_items is')). apply Forall_app. auto.
Qed.
Lemma rels_read_objects ds rs rs' new P : rels_read ds rs rs' new ->
  Forall P (flat_map (flat_map objects) rs) -> Forall P (flat_map objects (map snd new)) -> Forall P (flat_map (flat_map objects) rs').
Proof.
  induction 1 as [rs|ds|d ds l rs rs' ys new L H IH]; intros A B; auto.
  cbn in *. rewrite flat_map_app. rewrite !Forall_app in *. rewrite map_app, flat_map_app, Forall_app in B. destruct A as [A1 A2], B as [B1 B2].
  split; [split; [exact A1|]|now apply IH]. revert B1. clear -L. revert ys L. induction d as [|x d IH]; intros [|y ys] L; try discriminate; [auto|].
  cbn. rewrite !Forall_app. intros [B1 B2]. split; [exact B1|]. apply IH; [now injection L|exact B2].
Qed.
(** the new objects are in the tree *)
Lemma items_read_new_in ds is is' new old : items_read ds is is' new old -> incl (flat_map objects (map snd new)) (objects_items is').
Proof.
  induction 1 as [is|ds|ds x is is' new old H IH|d ds x y is is' new old H IH]; intros z Hz; try destruct Hz.
  - unfold objects_items. cbn. apply in_or_app. right. now apply IH.
  - cbn in Hz. apply in_app_or in Hz. unfold objects_items. cbn. apply in_or_app. destruct Hz; [auto|right; now apply IH].
Qed.
Lemma map_snd_combine {X Y} (d : list X) (ys : list Y) : length ys = length d -> map snd (combine d ys) = ys.
Proof. revert ys. induction d as [|x d IH]; intros [|y ys] L; try discriminate; [reflexivity|]. cbn. rewrite IH; [reflexivity|now injection L]. Qed.

(** the list is [l'] with some elements left out, in some order *)
Definition part {X} (l l' : list X) : Prop := exists l2, Permutation l' (l ++ l2).
Lemma part_nodup {X Y} (f : X -> Y) l l' : part l l' -> NoDup (map f l') -> NoDup (map f l).
Proof.
  intros (l2 & P) N. apply (Permutation_map f) in P. eapply Permutation_NoDup in N; [|exact P]. rewrite map_app in N. clear -N.
  induction (map f l) as [|x m IH]; [constructor|]. cbn in N. inversion N as [|? ? N1 N2]; subst. constructor; [|now apply IH].
  intros I. apply N1. apply in_or_app. auto.
Qed.
Lemma part_nil {X} (l : list X) : part [] l.
Proof. exists l. reflexivity. Qed.
Lemma part_refl {X} (l : list X) : part l l.
Proof. exists []. now rewrite app_nil_r. Qed.
Lemma part_app {X} (a b a' b' : list X) : part a a' -> part b b' -> part (a ++ b) (a' ++ b').
Proof. intros (x & P) (y & Q). exists (x ++ y). rewrite P, Q. rewrite <- !app_assoc. apply Permutation_app_head. rewrite !app_assoc. apply Permutation_app_tail. apply Permutation_app_comm. Qed.
Lemma part_skip {X} (a b b' : list X) : part b b' -> part b (a ++ b').
Proof. intros (y & Q). exists (a ++ y). rewrite Q, !app_assoc. apply Permutation_app_tail. apply Permutation_app_comm. Qed.

Lemma items_read_part ds is is' new old : items_read ds is is' new old ->
  part (flat_map objects (map snd new)) (objects_items is').
Proof.
  induction 1 as [is|ds|ds x is is' new old H IH|d ds x y is is' new old H IH]; try apply part_nil.
  - apply part_skip. exact IH.
  - cbn. apply part_app; [apply part_refl|exact IH].
Qed.
Lemma rels_read_part ds rs rs' new : rels_read ds rs rs' new -> part (flat_map objects (map snd new)) (flat_map (flat_map objects) rs').
Proof.
  induction 1 as [rs|ds|d ds l rs rs' ys new L H IH]; try apply part_nil.
  rewrite map_app, flat_map_app. cbn [flat_map]. apply part_app; [|exact IH]. rewrite map_snd_combine by exact L. rewrite flat_map_app. apply part_skip. apply part_refl.
Qed.

Lemma part_in {X} (l l' : list X) x : part l l' -> In x l -> In x l'.
Proof. intros (l2 & P) H. eapply Permutation_in; [symmetry; exact P|]. apply in_or_app. auto. Qed.
Lemma nodup_inj {X Y} (f : X -> Y) l a b : NoDup (map f l) -> In a l -> In b l -> f a = f b -> a = b.
Proof.
  induction l as [|x l IH]; intros N A B E; [destruct A|]. cbn in N. inversion N as [|? ? N1 N2]; subst. destruct A as [<-|A], B as [<-|B].
  - reflexivity.
  - exfalso. apply N1. rewrite E. now apply in_map.
  - exfalso. apply N1. rewrite <- E. now apply in_map.
  - now apply IH.
Qed.
Lemma entries_in l u x : In (u, x) (entries l) <-> exists o, In o l /\ o_uuid o = u /\ o_id o = x.
Proof.
  unfold entries. rewrite in_map_iff. split.
  - intros (o & E & H). injection E as <- <-. eauto.
  - intros (o & H & <- & <-). eauto.
Qed.
Lemma entries_fst l : map fst (entries l) = map o_uuid l.
Proof. unfold entries. now rewrite map_map. Qed.

(** where the objects of the tree come from *)
Lemma read_from i u c r is rs is' rs' new1 new2 old dis drs y :
  items_read dis is is' new1 old -> rels_read drs rs rs' new2 ->
  In y (objects (Obj i u c r is' rs')) ->
  y = Obj i u c r is' rs' \/ In y (fresh_objects (new1 ++ new2)) \/ In y (objects_items is) \/ In y (flat_map (flat_map objects) rs).
Proof.
  intros Hi Hr Hy. rewrite objects_eq in Hy. rewrite fresh_app. unfold fresh_objects. rewrite !in_app_iff in *. destruct Hy as [Hy|[Hy|[Hy|[]]]].
  - assert (F := items_read_objects _ _ _ _ _ (fun y => In y (flat_map objects (map snd new1)) \/ In y (objects_items is)) Hi). rewrite !Forall_forall in F.
    destruct (F ltac:(auto) ltac:(auto) y Hy); auto.
  - assert (F := rels_read_objects _ _ _ _ (fun y => In y (flat_map objects (map snd new2)) \/ In y (flat_map (flat_map objects) rs)) Hr). rewrite !Forall_forall in F.
    destruct (F ltac:(auto) ltac:(auto) y Hy); auto.
  - auto.
Qed.
Lemma read_part i u c r is rs is' rs' new1 new2 old dis drs :
  items_read dis is is' new1 old -> rels_read drs rs rs' new2 -> part (fresh_objects (new1 ++ new2)) (objects (Obj i u c r is' rs')).
Proof.
  intros Hi Hr. rewrite fresh_app, objects_eq. apply part_app; [eapply items_read_part; eauto|]. rewrite <- (app_nil_r (fresh_objects new2)).
  apply part_app; [eapply rels_read_part; eauto|apply part_nil].
Qed.

Definition good (s : obj * world) : Prop :=
  within (o_ctx (fst s)) (fst s) /\ NoDup (uuids (fst s)) /\
  forall k y, o_ctx (fst s) = Some k -> In y (objects (fst s)) -> w_reg (snd s) k (o_uuid y) = Some (o_id y).
Lemma uuids_ctxd c o : uuids (ctxd c o) = uuids o.
Proof. unfold uuids. rewrite objects_ctxd, map_map. apply map_ext. apply o_uuid_ctxd. Qed.

Section Steps.
  Variable new_uuid : nat -> nat.
  Notation step := (step new_uuid). Notation read := (read new_uuid).

  Lemma fresh_within c ps : Forall (fun p => made new_uuid c (fst p) (snd p)) ps -> Forall (fun y => o_ctx y = c) (fresh_objects ps).
  Proof.
    induction 1 as [|p ps H _ IH]; [constructor|]. unfold fresh_objects in *. cbn. apply Forall_app. split; [|exact IH].
    exact (made_within new_uuid _ _ _ H).
  Qed.
  Lemma read_good d o w : good (o, w) -> NoDup (uuids (fst (fst (read d o w)))) -> snd (read d o w) = None /\ good (fst (read d o w)).
  Proof.
    intros (W & _ & R) N. destruct (read_spec new_uuid d o w) as (is' & rs' & new1 & new2 & old & w' & E & Hi & Hr & HL & [M1 M2 M3 M4]).
    rewrite E in *. cbn [fst snd] in *. split; [reflexivity|]. split; [|split; [exact N|]].
    - destruct o as [i u c r is rs]. cbn [o_id o_uuid o_ctx o_reading o_items o_rels fst] in *. apply within_eq in W as W'. unfold within in *. rewrite Forall_forall in *. intros y Hy.
      destruct (read_from _ _ _ _ is rs _ _ _ _ _ _ _ y Hi Hr Hy) as [->|[F|[F|F]]]; [reflexivity| | |].
      + pose proof (fresh_within _ _ ltac:(apply Forall_forall; exact M1)) as G. rewrite Forall_forall in G. now apply G.
      + apply W. rewrite objects_eq. apply in_or_app. auto.
      + apply W. rewrite objects_eq, !in_app_iff. auto.
    - intros k y Ek Hy. destruct o as [i u c r is rs]. cbn [o_id o_uuid o_ctx o_reading o_items o_rels fst snd] in *. subst c.
      set (o' := Obj i (match d_uuid d with Some x => x | None => u end) (Some k) r is' rs') in *.
      set (L := (match d_uuid d with Some x => [(x, i)] | None => [] end) ++ entries (fresh_objects (new1 ++ new2))).
      assert (Rg : w_reg w' k (o_uuid y) = registered L (w_reg w k) (o_uuid y)).
      { rewrite M4. cbn [regd]. rewrite Nat.eqb_refl. unfold L. rewrite registered_app. apply registered_ext. intros v. destruct (d_uuid d); cbn; [|reflexivity].
        now rewrite Nat.eqb_refl. }
      rewrite Rg. destruct (in_dec Nat.eq_dec (o_uuid y) (map fst L)) as [I|I].
      + destruct (registered_some L (w_reg w k) _ I) as (x & -> & Hx). f_equal. unfold L in Hx. apply in_app_or in Hx.
        assert (Z : exists z, In z (objects o') /\ o_uuid z = o_uuid y /\ o_id z = x).
        { destruct Hx as [Hx|Hx].
          - destruct (d_uuid d) as [x0|] eqn:Ed; [|destruct Hx]. destruct Hx as [Hx|[]]. injection Hx as Hx1 Hx2. exists o'. split; [unfold o'; rewrite objects_eq, !in_app_iff; cbn; auto|].
            unfold o'. cbn. auto.
          - apply entries_in in Hx. destruct Hx as (z & Hz & E1 & E2). exists z. split; [|auto]. eapply part_in; [|exact Hz]. eapply read_part; eauto. }
        destruct Z as (z & Hz & E1 & <-). f_equal. eapply nodup_inj; eauto.
      + rewrite registered_out by exact I. unfold L in I. rewrite map_app, in_app_iff, entries_fst in I.
        destruct (read_from _ _ _ _ is rs _ _ _ _ _ _ _ y Hi Hr Hy) as [->|[F|[F|F]]].
        * unfold o' in *. cbn [o_uuid o_id] in *. destruct (d_uuid d) as [x0|]; [exfalso; apply I; left; cbn; auto|]. apply (R k (Obj i u (Some k) r is rs) eq_refl). rewrite objects_eq, !in_app_iff. cbn. auto.
        * exfalso. apply I. right. now apply in_map.
        * apply R; [reflexivity|]. rewrite objects_eq, !in_app_iff. auto.
        * apply R; [reflexivity|]. rewrite objects_eq, !in_app_iff. auto.
  Qed.
  Lemma set_some_good k o w : o_ctx o = None -> good (o, w) -> snd (set_context (Some k) o w) = None /\ good (fst (set_context (Some k) o w)).
  Proof.
    intros Ec (W & N & R). cbn [fst snd] in *. rewrite Ec in W. destruct (set_context_in (Some k) o W w) as (w' & E & (R1 & R2 & R3)). rewrite E. cbn [fst snd].
    split; [reflexivity|]. split; [cbn [fst]; rewrite o_ctx_ctxd; apply within_ctxd|]. cbn [fst snd]. split; [now rewrite uuids_ctxd|].
    intros k' y Ek Hy. rewrite o_ctx_ctxd in Ek. injection Ek as <-. rewrite R1. cbn [regd]. rewrite Nat.eqb_refl. apply registered_in.
    - rewrite entries_fst. exact N.
    - rewrite objects_ctxd in Hy. apply in_map_iff in Hy. destruct Hy as (z & <- & Hz). rewrite o_uuid_ctxd, o_id_ctxd. apply entries_in. eauto.
  Qed.
  Lemma set_none_good o w : good (o, w) -> snd (set_context None o w) = None /\ good (fst (set_context None o w)).
  Proof.
    intros (W & N & R). cbn [fst snd] in *. destruct (o_ctx o) as [k|] eqn:Ec.
    - destruct (set_context_out k o W w) as (o' & E & G). destruct (dels_spec k (uuids o) w) as [A B].
      assert (H : snd (dels k (uuids o) w) = None).
      { apply A. split; [exact N|]. intros u Hu. unfold uuids in Hu. apply in_map_iff in Hu. destruct Hu as (y & <- & Hy). now rewrite (R k y eq_refl Hy). }
      rewrite E. cbn [fst snd]. split; [exact H|]. rewrite (G H). split; [cbn [fst]; rewrite o_ctx_ctxd; apply within_ctxd|]. cbn [fst snd]. split; [now rewrite uuids_ctxd|].
      intros k' y Ek _. rewrite o_ctx_ctxd in Ek. discriminate.
    - destruct (set_context_in None o W w) as (w' & E & _). rewrite E. cbn [fst snd].
      split; [reflexivity|]. split; [cbn [fst]; rewrite o_ctx_ctxd; apply within_ctxd|]. cbn [fst snd]. split; [now rewrite uuids_ctxd|].
      intros k' y Ek _. rewrite o_ctx_ctxd in Ek. discriminate.
  Qed.
  (** ** the flag *)
  Lemma objects_finish o : objects (finish_reading o) = map finish_reading (objects o).
  Proof.
    induction o as [i u k r is rs IHi IHr] using obj_deep. cbn [finish_reading]. rewrite !objects_eq, !map_app. unfold objects_items.
    f_equal; [|f_equal].
    - induction IHi as [|[x|] is H _ IH]; [reflexivity| |exact IH]. cbn. now rewrite map_app, H, IH.
    - induction IHr as [|l rs H _ IH]; [reflexivity|]. cbn. rewrite map_app, IH. f_equal. clear -H. induction H as [|x l E _ IH]; [reflexivity|]. cbn. now rewrite map_app, E, IH.
  Qed.
  Lemma begin_good o w : good (o, w) -> good (begin_reading o, w).
  Proof.
    destruct o as [i u c r is rs]. intros (W & N & R). cbn [begin_reading]. cbn [fst snd o_ctx] in *. split; [|split].
    - apply within_eq. apply within_eq in W. exact W.
    - unfold uuids in *. cbn [fst] in *. rewrite objects_eq, !map_app in *. exact N.
    - intros k y Ek Hy. cbn [fst snd o_ctx] in *. rewrite objects_eq, !in_app_iff in Hy. destruct Hy as [Hy|[Hy|[<-|[]]]].
      + apply R; [exact Ek|]. rewrite objects_eq, !in_app_iff. auto.
      + apply R; [exact Ek|]. rewrite objects_eq, !in_app_iff. auto.
      + apply (R k (Obj i u c r is rs) Ek). rewrite objects_eq, !in_app_iff. cbn. auto.
  Qed.
  Lemma finish_fields o : o_id (finish_reading o) = o_id o /\ o_uuid (finish_reading o) = o_uuid o /\ o_ctx (finish_reading o) = o_ctx o /\ o_reading (finish_reading o) = false.
  Proof. destruct o. cbn. auto. Qed.
  Lemma finish_good o w : good (o, w) -> good (finish_reading o, w).
  Proof.
    intros (W & N & R). cbn [fst snd] in *. destruct (finish_fields o) as (F1 & F2 & F3 & F4). split; [|split]; cbn [fst snd].
    - rewrite F3. unfold within in *. rewrite objects_finish, Forall_map. eapply Forall_impl; [|exact W]. intros y Hy. now rewrite (proj1 (proj2 (proj2 (finish_fields y)))).
    - unfold uuids in *. rewrite objects_finish, map_map. erewrite map_ext; [exact N|]. intros y. apply finish_fields.
    - intros k y Ek Hy. rewrite F3 in Ek. rewrite objects_finish in Hy. apply in_map_iff in Hy. destruct Hy as (z & <- & Hz).
      destruct (finish_fields z) as (-> & -> & _ & _). now apply R.
  Qed.
  Lemma orderly_good l : forall s, good s -> orderly new_uuid l s -> smooth new_uuid l s /\ good (run new_uuid l s).
  Proof.
    induction l as [|o l IH]; intros [x w] G H; [cbn; auto|]. cbn [orderly] in H. destruct H as (H1 & H2 & H3). cbn [smooth run fold_left].
    assert (S : snd (step (x, w) o) = None /\ good (fst (step (x, w) o))).
    { destruct o as [|d| |[k|]]; cbn [PersistRead_Model.step fst snd] in *.
      - split; [reflexivity|now apply begin_good].
      - now apply read_good.
      - split; [reflexivity|now apply finish_good].
      - now apply set_some_good.
      - now apply set_none_good. }
    destruct S as [S1 S2]. destruct (IH _ S2 H3) as [A B]. split; [split; [exact S1|exact A]|exact B].
  Qed.
End Steps.
