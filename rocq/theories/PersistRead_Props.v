(** C116: reading a dict into an object that is in use. *)
From Coq Require Import ZArith Bool List Lia Permutation.
From Verif Require Import PyBase PersistRead_Model PersistRead_Spec PersistRead_Proofs PersistRead_Proofs2 PersistRead_Proofs3.
Import ListNotations.

Section Props.
  Variable new_uuid : nat -> nat.

  (** what reading does, whatever the object holds: items of the dict replace, members of relationships are added after
      those that are there, all new objects, all in the context of the object; the replaced items keep all they had.  In
      a context, the object is registered under its new uuid and the new objects under theirs; nothing is unregistered *)
  Theorem pread_read d o w : exists is' rs' new1 new2 old w',
    let new := flat_map objects (map snd (new1 ++ new2)) in
    read new_uuid d o w = (Obj (o_id o) (match d_uuid d with Some u => u | None => o_uuid o end) (o_ctx o) (o_reading o) is' rs', w', None) /\
    items_read (d_items d) (o_items o) is' new1 old /\ rels_read (d_rels d) (o_rels o) rs' new2 /\
    Forall (fun p => made new_uuid (o_ctx o) (fst p) (snd p)) (new1 ++ new2) /\
    Permutation (map o_id new) (seq (w_next w) (w_next w' - w_next w)) /\
    w_lost w' = w_lost w ++ old /\
    (forall c u, o_ctx o <> Some c -> w_reg w' c u = w_reg w c u) /\
    (forall c u, o_ctx o = Some c ->
       w_reg w' c u = registered ((match d_uuid d with Some x => [(x, o_id o)] | None => [] end) ++ entries new) (w_reg w c) u).
  Proof.
    destruct (read_spec new_uuid d o w) as (is' & rs' & new1 & new2 & old & w' & E & Hi & Hr & HL & [M1 M2 M3 M4]).
    exists is', rs', new1, new2, old, w'. cbv zeta. split; [exact E|]. split; [exact Hi|]. split; [exact Hr|]. split; [exact M1|].
    assert (Nx : w_next (match d_uuid d, o_ctx o with Some x, Some k => register k x (o_id o) w | _, _ => w end) = w_next w) by now destruct (d_uuid d), (o_ctx o).
    rewrite Nx in M3. split; [exact M3|]. split; [exact HL|]. split.
    - intros c u Hc. rewrite M4. destruct (o_ctx o) as [k|]; [|now destruct (d_uuid d)]. cbn [regd]. destruct (Nat.eqb_spec c k) as [->|Q]; [now contradict Hc|].
      destruct (d_uuid d); [|reflexivity]. cbn. destruct (Nat.eqb_spec c k); [contradiction|reflexivity].
    - intros c u Hc. rewrite Hc in *. rewrite M4. cbn [regd]. rewrite Nat.eqb_refl, registered_app. apply registered_ext. intros v.
      destruct (d_uuid d); [|reflexivity]. cbn. now rewrite Nat.eqb_refl.
  Qed.

  (** a tree leaves its context: an exception unless the uuids are different and all are registered; then just these
      are unregistered *)
  Theorem pread_clear k o w : within (Some k) o ->
    let '(o', w', e) := set_context None o w in
    (e = None \/ e = Some KeyError) /\
    (e = None <-> NoDup (uuids o) /\ forall u, In u (uuids o) -> w_reg w k u <> None) /\
    (e = None -> within None o' /\ uuids o' = uuids o /\
       forall c u, w_reg w' c u = if Nat.eqb c k && (if in_dec Nat.eq_dec u (uuids o) then true else false) then None else w_reg w c u).
  Proof.
    intros W. destruct (set_context_out k o W w) as (o' & -> & G). destruct (dels_spec k (uuids o) w) as [A B]. destruct (dels_frame k (uuids o) w) as (_ & _ & C).
    split; [exact C|]. split; [exact A|]. intros H. rewrite (G H). split; [apply within_ctxd|]. split; [apply uuids_ctxd|]. exact (B H).
  Qed.

  (** after any orderly history nothing has raised, the whole tree is in the context of its root, and every object of it
      is registered under its uuid *)
  Theorem pread_history l o w : o_ctx o = None -> within None o -> NoDup (uuids o) -> orderly new_uuid l (o, w) ->
    let (o', w') := run new_uuid l (o, w) in
    smooth new_uuid l (o, w) /\ within (o_ctx o') o' /\
    forall k y, o_ctx o' = Some k -> In y (objects o') -> w_reg w' k (o_uuid y) = Some (o_id y).
  Proof.
    intros Hc W N H. assert (G : good (o, w)). { split; [cbn; now rewrite Hc|]. split; [exact N|]. cbn. intros k y Ek. congruence. }
    destruct (orderly_good new_uuid l (o, w) G H) as [S (A & _ & B)]. destruct (run new_uuid l (o, w)) as [o' w']. cbn in A, B. auto.
  Qed.

  (** the uuid that the object had stays registered, when it is read a new one and when it leaves the context *)
  Theorem pread_stale d o w k u : o_ctx o = Some k -> d_uuid d = Some u -> w_reg w k (o_uuid o) = Some (o_id o) ->
    let '(o', w', _) := read new_uuid d o w in
    ~ In (o_uuid o) (uuids o') ->
    w_reg w' k (o_uuid o) = Some (o_id o) /\
    (within (Some k) o' -> let '(_, w2, e) := set_context None o' w' in e = None -> w_reg w2 k (o_uuid o) = Some (o_id o)).
  Proof.
    intros Hc Hu Hr. destruct (read_spec new_uuid d o w) as (is' & rs' & new1 & new2 & old & w' & E & Hi & Hl & HL & [M1 M2 M3 M4]). rewrite E. intros Hn.
    assert (R : w_reg w' k (o_uuid o) = Some (o_id o)).
    { rewrite M4, Hc, Hu. cbn [regd]. rewrite Nat.eqb_refl. rewrite registered_out.
      - cbn. rewrite Nat.eqb_refl. cbn. destruct (Nat.eqb_spec (o_uuid o) u) as [Q|Q]; [|exact Hr]. exfalso. apply Hn. rewrite Hu. rewrite Q. unfold uuids. rewrite objects_eq, !map_app, !in_app_iff. cbn. auto.
      - rewrite entries_fst. intros I. apply Hn. unfold uuids. apply in_map_iff in I. destruct I as (z & <- & Hz). apply in_map. eapply part_in; [|exact Hz]. eapply read_part; eauto. }
    split; [exact R|]. intros W. pose proof (pread_clear k _ w' W) as P. destruct (set_context None _ w') as [[o2 w2] e]. destruct P as (_ & _ & P). intros He. destruct (P He) as (_ & _ & Q).
    rewrite Q. destruct (in_dec Nat.eq_dec (o_uuid o) _) as [I|I]; [contradiction|]. now rewrite andb_false_r.
  Qed.

  (** [finish_reading] ends the reading of all objects of the tree and changes nothing else *)
  Theorem pread_finish o :
    objects (finish_reading o) = map finish_reading (objects o) /\ Forall (fun y => o_reading y = false) (objects (finish_reading o)) /\
    Forall2 (fun y y' => o_id y' = o_id y /\ o_uuid y' = o_uuid y /\ o_ctx y' = o_ctx y) (objects o) (objects (finish_reading o)).
  Proof.
    rewrite objects_finish. split; [reflexivity|]. split.
    - apply Forall_map. apply Forall_forall. intros y _. apply finish_fields.
    - induction (objects o) as [|y l IH]; constructor; [|exact IH]. destruct (finish_fields y) as (A & B & C & _). auto.
  Qed.

  (** a dict with a uuid in a relationship is read twice: the tree cannot leave its context *)
  Lemma rels_read_at ds rs rs' new n d l : rels_read ds rs rs' new -> nth_error ds n = Some d -> nth_error rs n = Some l ->
    exists ys, nth_error rs' n = Some (l ++ ys) /\ length ys = length d /\ incl (combine d ys) new.
  Proof.
    intros H. revert n. induction H as [rs|ds|d0 ds l0 rs rs' ys new L H IH]; intros n Hd Hl.
    - destruct n; discriminate.
    - destruct n; discriminate.
    - destruct n as [|n]; cbn in *.
      + injection Hd as <-. injection Hl as <-. exists ys. split; [reflexivity|]. split; [exact L|]. intros x Hx. apply in_or_app. auto.
      + destruct (IH n Hd Hl) as (ys' & A & B & C). exists ys'. split; [exact A|]. split; [exact B|]. intros x Hx. apply in_or_app. auto.
  Qed.
  Lemma made_uuid c d y u : made new_uuid c d y -> d_uuid d = Some u -> o_uuid y = u.
  Proof. destruct d as [du dis drs], y as [i v k r is rs]. cbn. intros (-> & _) ->. reflexivity. Qed.
  Lemma combine_at {X Y} (d : list X) (ys : list Y) x : length ys = length d -> In x d -> exists y, In (x, y) (combine d ys).
  Proof.
    revert ys. induction d as [|z d IH]; intros [|y ys] L H; try discriminate; [destruct H|]. destruct H as [<-|H]; [exists y; now left|].
    destruct (IH ys ltac:(now injection L) H) as (y' & ?). exists y'. now right.
  Qed.
  Lemma objects_self o : In o (objects o).
  Proof. destruct o. rewrite objects_eq, !in_app_iff. cbn. auto. Qed.
  Lemma nodup_flat {X Y} (f : X -> list Y) l1 l2 x y z : In x l1 -> In y l2 -> In z (f x) -> In z (f y) -> ~ NoDup (flat_map f (l1 ++ l2)).
  Proof.
    intros Hx Hy Zx Zy N. rewrite flat_map_app in N. assert (I1 : In z (flat_map f l1)) by (apply in_flat_map; eauto). assert (I2 : In z (flat_map f l2)) by (apply in_flat_map; eauto).
    apply in_split in I1. destruct I1 as (a & b & E). rewrite E, <- app_assoc in N. apply NoDup_remove_2 in N. apply N. rewrite !in_app_iff. auto.
  Qed.
  Lemma nodup_part {X Y} (f : X -> list Y) l n x : nth_error l n = Some x -> NoDup (flat_map f l) -> NoDup (f x).
  Proof.
    intros E N. apply nth_error_split in E. destruct E as (a & b & -> & _). rewrite flat_map_app in N. cbn in N. clear -N.
    induction (flat_map f a) as [|z m IH]; cbn in N; [|inversion N; auto]. clear -N. induction (f x) as [|z m IH]; [constructor|]. cbn in N. inversion N as [|? ? A B]; subst.
    constructor; [|auto]. intros I. apply A. apply in_or_app. auto.
  Qed.
  Theorem pread_twice_refuted d o w k n l e u ro :
    within (Some k) o -> nth_error (d_rels d) n = Some l -> nth_error (o_rels o) n = Some ro -> In e l -> d_uuid e = Some u ->
    let s := run new_uuid [Read d; Read d] (o, w) in snd (step new_uuid s (SetContext None)) = Some KeyError.
  Proof.
    intros W Hn Hro He Hu. cbn [run fold_left step].
    destruct (read_spec new_uuid d o w) as (is1 & rs1 & p1 & q1 & old1 & w1 & E1 & Hi1 & Hr1 & _ & [M1 _ _ _]). rewrite E1. cbn [fst step]. cbv beta iota.
    set (o1 := Obj _ _ _ _ is1 rs1). destruct (read_spec new_uuid d o1 w1) as (is2 & rs2 & p2 & q2 & old2 & w2 & E2 & Hi2 & Hr2 & _ & [N1 _ _ _]). rewrite E2. cbn [fst snd step]. cbv beta iota.
    set (o2 := Obj _ _ _ _ is2 rs2).
    destruct (rels_read_at _ _ _ _ n _ _ Hr1 Hn Hro) as (y1 & A1 & L1 & I1). destruct (rels_read_at _ _ _ _ n _ (ro ++ y1) Hr2 Hn A1) as (y2 & A2 & L2 & I2).
    destruct (combine_at l y1 e L1 He) as (z1 & C1). destruct (combine_at l y2 e L2 He) as (z2 & C2).
    rewrite Forall_forall in M1, N1. pose proof (M1 _ (in_or_app _ _ _ (or_intror (I1 _ C1)))) as U1. pose proof (N1 _ (in_or_app _ _ _ (or_intror (I2 _ C2)))) as U2. cbn [fst snd] in U1, U2.
    apply (fun H => made_uuid _ _ _ _ H Hu) in U1. apply (fun H => made_uuid _ _ _ _ H Hu) in U2.
    assert (Hctx : o_ctx o = Some k). { destruct o. apply within_eq in W. exact (proj1 W). }
    assert (W2 : within (Some k) o2).
    { assert (W1 : within (Some k) o1).
      { unfold within. apply Forall_forall. intros y Hy. destruct (read_from _ _ _ _ (o_items o) (o_rels o) _ _ _ _ _ _ _ y Hi1 Hr1 Hy) as [->|[F|F]]; [exact Hctx| |].
        - pose proof (fresh_within new_uuid _ _ (proj2 (Forall_forall _ _) M1)) as G. rewrite Forall_forall in G. rewrite (G _ F). exact Hctx.
        - unfold within in W. rewrite Forall_forall in W. apply W. destruct o. rewrite objects_eq, !in_app_iff. cbn in F. tauto. }
      unfold within. apply Forall_forall. intros y Hy. destruct (read_from _ _ _ _ (o_items o1) (o_rels o1) _ _ _ _ _ _ _ y Hi2 Hr2 Hy) as [->|[F|F]]; [exact Hctx| |].
      - pose proof (fresh_within new_uuid _ _ (proj2 (Forall_forall _ _) N1)) as G. rewrite Forall_forall in G. rewrite (G _ F). exact Hctx.
      - unfold within in W1. rewrite Forall_forall in W1. apply W1. unfold o1 in *. rewrite objects_eq, !in_app_iff. cbn [o_items o_rels] in F. tauto. }
    pose proof (pread_clear k o2 w2 W2) as P. destruct (set_context None o2 w2) as [[o3 w3] x]. cbn [snd]. destruct P as (P0 & P & _). destruct P0 as [P0|P0]; rewrite P0 in *; [|reflexivity]. exfalso.
    destruct (proj1 P eq_refl) as [N _]. unfold uuids, o2 in N. rewrite objects_eq, !map_app in N.
    assert (N' : NoDup (map o_uuid (flat_map (flat_map objects) rs2))).
    { clear -N. induction (map o_uuid (objects_items is2)) as [|z m IH]; cbn in N; [|inversion N; auto]. clear -N. induction (map o_uuid (flat_map (flat_map objects) rs2)) as [|z m IH]; [constructor|].
      cbn in N. inversion N as [|? ? A B]; subst. constructor; [|auto]. intros I. apply A. apply in_or_app. auto. }
    rewrite uuids_flat in N'. apply (nodup_part _ _ n _ A2) in N'. cbv beta in N'. rewrite uuids_flat in N'. revert N'.
    apply (nodup_flat _ _ _ z1 z2 u).
    - apply in_or_app. right. eapply in_combine_r. exact C1.
    - eapply in_combine_r. exact C2.
    - rewrite <- U1. apply in_map. apply objects_self.
    - rewrite <- U2. apply in_map. apply objects_self.
  Qed.
End Props.
Print Assumptions pread_read.
Print Assumptions pread_clear.
Print Assumptions pread_history.
Print Assumptions pread_stale.
Print Assumptions pread_finish.
Print Assumptions pread_twice_refuted.

(** an object with one item and one relationship; new objects get the uuids 100, 101, ... *)
Definition prx_uuid (i : nat) : nat := 100 + i.
Definition prx_start : obj * world := (Obj 0 100 None false [None] [[]], World (fun _ _ => None) 1 []).
Definition prx_leaf (u : option nat) : data := Data u [] [].
Definition prx_d : data := Data (Some 7) [Some (prx_leaf (Some 8))] [[prx_leaf (Some 9); prx_leaf None]].
Definition prx_run (l : list op) := run prx_uuid l prx_start.
Example pread_history_case :
  let l := [SetContext (Some 1); Begin; Read prx_d; Finish; SetContext None; SetContext (Some 2)] in
  orderly prx_uuid l prx_start /\ uuids (fst (prx_run l)) = [8; 9; 103; 7] /\ map o_id (objects (fst (prx_run l))) = [1; 2; 3; 0] /\
  map (w_reg (snd (prx_run l)) 2) [7; 8; 9; 103; 100] = [Some 0; Some 1; Some 2; Some 3; None] /\
  map (w_reg (snd (prx_run l)) 1) [7; 8; 9; 103; 100] = [None; None; None; None; Some 0].
Proof.
  split; [|repeat split]. cbn [orderly]. repeat (split; [first [exact I|reflexivity|vm_compute; repeat constructor; simpl; intuition discriminate]|]). exact I.
Qed.
(** FINDING: an item that is replaced while reading stays in the context, and registered, for good *)
Theorem pread_replaced_refuted :
  let s := prx_run [SetContext (Some 1); Read (Data None [Some (prx_leaf (Some 8))] []); Read (Data None [Some (prx_leaf (Some 9))] []); SetContext None] in
  map (fun o => (o_id o, o_uuid o, o_ctx o)) (w_lost (snd s)) = [(1, 8, Some 1)] /\ uuids (fst s) = [9; 100] /\
  map (w_reg (snd s) 1) [8; 9; 100] = [Some 1; None; None].
Proof. vm_compute. repeat split. Qed.
Print Assumptions pread_replaced_refuted.
(** after reading twice, leaving the context raises halfway: one object is still in the context and the tree cannot be
    put into any *)
Theorem pread_halfway_refuted :
  let s := prx_run [SetContext (Some 1); Read prx_d; Read prx_d; SetContext None] in
  map o_ctx (objects (fst s)) = [None; None; None; None; Some 1; None] /\ map o_uuid (objects (fst s)) = [8; 9; 103; 9; 106; 7] /\
  forall k, snd (step prx_uuid s (SetContext (Some k))) = Some AssertionError.
Proof. vm_compute. repeat split. Qed.
Print Assumptions pread_halfway_refuted.
Example pread_stale_case :
  let s := prx_run [SetContext (Some 1)] in
  let '(o', w', e) := read prx_uuid prx_d (fst s) (snd s) in
  e = None /\ o_uuid o' = 7 /\ w_reg w' 1 100 = Some 0 /\ w_reg w' 1 7 = Some 0 /\ map o_reading (objects o') = [true; true; true; false] /\
  map o_reading (objects (finish_reading o')) = [false; false; false; false].
Proof. vm_compute. repeat split. Qed.
Example pread_read_case :
  let '(o', w', _) := read prx_uuid (Data None [None] [[prx_leaf (Some 4)]]) (Obj 0 5 (Some 1) true [Some (Obj 1 6 (Some 1) false [] [])] [[Obj 2 7 (Some 1) false [] []]]) (World (fun _ _ => None) 3 []) in
  o' = Obj 0 5 (Some 1) true [Some (Obj 1 6 (Some 1) false [] [])] [[Obj 2 7 (Some 1) false [] []; Obj 3 4 (Some 1) true [] []]] /\ w_reg w' 1 4 = Some 3 /\ w_reg w' 1 5 = None.
Proof. vm_compute. repeat split. Qed.
Example pread_clear_case :
  let o := Obj 0 5 (Some 1) true [] [[Obj 2 7 (Some 1) false [] []]] in
  snd (set_context None o (World (fun _ u => Some u) 3 [])) = None /\ snd (set_context None o (World (fun _ u => if Nat.eqb u 5 then None else Some u) 3 [])) = Some KeyError.
Proof. vm_compute. repeat split. Qed.
