(** Property C94: mapped lists whose functions raise. *)
From Coq Require Import List ZArith Bool Arith Permutation Lia.
From Verif Require Import PyBase MapFail_Model MapFail_Spec MapFail_Proofs.
Import ListNotations.

Section Props.
  Context {A B : Type} (mapf : nat -> A -> res B) (unmapf : nat -> B -> option exn).
  Notation q_run := (q_run mapf unmapf).
  Notation q_step := (q_step mapf unmapf).

  (** whatever map_fn and unmap_fn raise, the notifications rebuild the items *)
  Theorem mapfail_observer h : let '(s, t, _) := q_run q_new h in q_observes [] t (q_items s).
  Proof. destruct (q_run q_new h) as [[s t] es] eqn:E. apply q_run_moved in E as [H _]. exact H. Qed.

  (** every result of map_fn is shown until it has been given to unmap_fn, which then returned, exactly once *)
  Theorem mapfail_balance h : let '(s, t, _) := q_run q_new h in Permutation (made t) (q_items s ++ unmade t).
  Proof. destruct (q_run q_new h) as [[s t] es] eqn:E. apply q_run_moved in E as [_ H]. exact H. Qed.

  (** if nothing raises, the items are the images of the container and only removals outside the container raise *)
  Theorem mapfail_none_right (f : A -> B) h :
    (forall n x, mapf n x = Ok (f x)) -> (forall n b, unmapf n b = None) ->
    let '(s, _, es) := q_run q_new h in
    q_items s = map f (q_contents s) /\ ~ stuck s /\
    (forall k o e, nth_error h k = Some o -> nth_error es k = Some (Some e) -> exists i, o = QRemove i /\ e = IndexError).
  Proof.
    intros Hm Hu.
    assert (G : forall h s, shown_ok f s -> let '(s', _, es) := q_run s h in shown_ok f s' /\
      (forall k o e, nth_error h k = Some o -> nth_error es k = Some (Some e) -> exists i, o = QRemove i /\ e = IndexError)).
    { clear h. induction h as [|o h IH]; intros s H; cbn [MapFail_Model.q_run]; [split; [exact H|intros [|k] ? ?; discriminate]|].
      pose proof (q_step_ok mapf unmapf f s o Hm Hu H) as S1. destruct (q_step s o) as [[s1 t1] e1]. destruct S1 as [H1 He].
      specialize (IH s1 H1). destruct (q_run s1 h) as [[s2 t2] es]. destruct IH as [H2 IH]. split; [exact H2|].
      intros [|k] o0 e0; cbn; [|apply IH]. intros [= <-] [= ->]. destruct He as (i & -> & He & _); [discriminate|]. exists i. split; [reflexivity|congruence]. }
    specialize (G h q_new eq_refl). destruct (q_run q_new h) as [[s t] es]. destruct G as [G1 G2]. unfold shown_ok in G1. unfold stuck, q_contents.
    destruct (q_cont s) as [l|]; [destruct G1 as [Hl Hi]|]; (split; [assumption|]); (split; [|exact G2]); intros [H1 H2]; congruence.
  Qed.

  (** assigning the container from any state: if it raises, the model is stuck or has the new container *)
  Theorem mapfail_set s c : let '(s', _, e) := q_step s (QSet c) in
    (e <> None /\ stuck s') \/ (q_cont s' = c /\ q_live s' = match c with Some _ => true | None => false end).
  Proof.
    cbn [MapFail_Model.q_step]. destruct (q_set_container mapf unmapf s c) as [[s' t] e] eqn:E. apply q_set_moved in E as [_ H]. exact H.
  Qed.

  (** giving the container up raises IndexError exactly if there are fewer items than container items, and then the
      model is stuck; otherwise the items beyond the number of container items stay *)
  Theorem mapfail_detach s l :
    (forall n b, unmapf n b = None) -> q_cont s = Some l -> q_live s = true ->
    let '(s', _, e) := q_step s (QSet None) in
    if length (q_items s) <? length l then e = Some IndexError /\ stuck s' /\ q_items s' = []
    else e = None /\ q_cont s' = None /\ q_items s' = firstn (length (q_items s) - length l) (q_items s).
  Proof.
    intros Hu Hc Hl. cbn [MapFail_Model.q_step]. unfold q_set_container. rewrite Hc, Hl.
    destruct (q_remove_loop_ok unmapf (rev l) Hu (Qs (Some l) false (q_items s) (q_maps s) (q_unmaps s))) as [H1 H2].
    cbn [q_items q_cont q_live q_maps] in *. rewrite rev_length in *. destruct (Nat.ltb_spec (length (q_items s)) (length l)) as [Hlt|Hge].
    - destruct (H2 Hlt) as (t & n & ->). repeat split; discriminate.
    - destruct (H1 Hge) as (t & n & ->). cbn. auto.
  Qed.

  (** assigning a container to a model without one shows the images up to the first item map_fn fails for, and raises
      exactly if there is one; the model then follows the container all the same *)
  Theorem mapfail_attach (good : A -> bool) (f : A -> B) s l1 l2 :
    (forall n x, mapf n x = if good x then Ok (f x) else Err HandlerError) -> forallb good l1 = true ->
    match l2 with [] => True | x :: _ => good x = false end ->
    q_cont s = None -> q_items s = [] ->
    let '(s', _, e) := q_step s (QSet (Some (l1 ++ l2))) in
    q_cont s' = Some (l1 ++ l2) /\ q_live s' = true /\ q_items s' = map f l1 /\
    e = match l2 with [] => None | _ => Some HandlerError end.
  Proof.
    intros Hm Hg Hx Hc Hi. cbn [MapFail_Model.q_step]. unfold q_set_container. rewrite Hc. cbn [q_attach].
    assert (G : forall l1 s, forallb good l1 = true ->
      let '(s', _, e) := q_insert_loop mapf (l1 ++ l2) (length (q_items s)) s in
      q_cont s' = q_cont s /\ q_live s' = q_live s /\ q_items s' = q_items s ++ map f l1 /\
      e = match l2 with [] => None | _ => Some HandlerError end).
    { clear - Hm Hx. induction l1 as [|y l1 IH]; intros s Hg; cbn [app].
      - destruct l2 as [|x l2]; cbn; [rewrite app_nil_r; auto|]. unfold q_inserted. rewrite Hm, Hx. cbn. rewrite app_nil_r. auto.
      - cbn in Hg. apply andb_prop in Hg as [Hy Hg]. cbn [MapFail_Model.q_insert_loop]. unfold q_inserted. rewrite Hm, Hy.
        set (s1 := Qs _ _ _ _ _).
        assert (E : q_items s1 = q_items s ++ [f y]).
        { unfold s1. cbn [q_items]. unfold py_insert. rewrite py_insert_pos_nat by lia. unfold insert_at. rewrite firstn_all, skipn_all. reflexivity. }
        specialize (IH s1 Hg). rewrite E, app_length in IH. cbn [length] in IH. rewrite Nat.add_comm in IH. cbn [Nat.add] in IH.
        destruct (q_insert_loop mapf (l1 ++ l2) (S (length (q_items s))) s1) as [[s2 t2] e2].
        destruct IH as (H1 & H2 & H3 & H4). repeat split; auto. rewrite H3, <- app_assoc. reflexivity. }
    specialize (G l1 (Qs (Some (l1 ++ l2)) true (q_items s) (q_maps s) (q_unmaps s)) Hg). cbn [q_items q_cont q_live] in G.
    rewrite Hi in *. cbn [length] in G.
    destruct (q_insert_loop mapf (l1 ++ l2) 0 (Qs (Some (l1 ++ l2)) true [] (q_maps s) (q_unmaps s))) as [[s2 t2] e2]. exact G.
  Qed.

  (** a stuck model stays so: it no longer follows its container, and every assignment raises *)
  Theorem mapfail_stuck_forever h : forall s, stuck s ->
    let '(s', t, es) := q_run s h in
    stuck s' /\ q_items s' = q_items s /\ t = [] /\
    (forall k c, nth_error h k = Some (QSet c) -> nth_error es k = Some (Some AttributeError)).
  Proof.
    induction h as [|o h IH]; intros s H; cbn [MapFail_Model.q_run].
    - repeat split; try assumption; try apply H. intros [|k] c; discriminate.
    - pose proof (q_step_stuck mapf unmapf s o H) as S1. destruct (q_step s o) as [[s1 t1] e1]. destruct S1 as (H1 & I1 & -> & E1).
      specialize (IH s1 H1). destruct (q_run s1 h) as [[s2 t2] es]. destruct IH as (H2 & I2 & -> & E2).
      split; [exact H2|]. split; [congruence|]. split; [reflexivity|]. intros [|k] c; cbn; [|apply E2]. intros [= ->]. rewrite E1; reflexivity.
  Qed.

  (** items map_fn fails for are left out; edits before all of them keep the rest right *)
  Theorem mapfail_left_out (good : A -> bool) (f : A -> B) l h :
    (forall n x, mapf n x = if good x then Ok (f x) else Err HandlerError) -> (forall n b, unmapf n b = None) ->
    forallb good l = true -> all_before_bad good l h ->
    let '(s, _, _) := q_run q_new (QSet (Some l) :: h) in
    q_contents s = fold_left edited h l /\ q_items s = map f (filter good (q_contents s)).
  Proof.
    intros Hm Hu Hg Ha. cbn [MapFail_Model.q_run MapFail_Model.q_step q_set_container q_cont q_new q_attach].
    assert (Hx : forall n x, In x l -> mapf n x = Ok (f x)).
    { intros n x Hx. rewrite Hm. rewrite forallb_forall in Hg. rewrite (Hg x Hx). reflexivity. }
    destruct (q_insert_loop_ok mapf f l Hx 0 (Qs (Some l) true [] 0 0) eq_refl) as (t & n & E). unfold q_new. cbn [q_items q_maps q_unmaps]. rewrite E.
    cbn [q_items q_cont q_live q_unmaps app].
    assert (G : forall h l s, q_cont s = Some l -> q_live s = true -> q_items s = map f (filter good l) -> all_before_bad good l h ->
      let '(s', _, _) := q_run s h in q_contents s' = fold_left edited h l /\ q_items s' = map f (filter good (fold_left edited h l))).
    { clear - Hm Hu. induction h as [|o h IH]; intros l s Hc Hl Hi Ha; cbn [MapFail_Model.q_run fold_left]; [unfold q_contents; rewrite Hc; auto|].
      destruct Ha as [Hb Ha]. pose proof (q_step_before mapf unmapf good f s l o Hm Hu Hc Hl Hi Hb) as S1. destruct (q_step s o) as [[s1 t1] e1].
      destruct S1 as (C1 & L1 & I1). specialize (IH _ s1 C1 L1 I1 Ha). destruct (q_run s1 h) as [[s2 t2] es]. exact IH. }
    specialize (G h l (Qs (Some l) true (map f l) n 0) eq_refl eq_refl).
    destruct (q_run _ h) as [[s' t'] es']. destruct G as [G1 G2]; [|exact Ha|rewrite G1; auto].
    cbn. f_equal. clear -Hg. induction l as [|y l IH]; [reflexivity|]. cbn in *. apply andb_prop in Hg as [H1 H2]. rewrite H1, <- IH by exact H2. reflexivity.
  Qed.
End Props.
Print Assumptions mapfail_observer.
Print Assumptions mapfail_balance.
Print Assumptions mapfail_none_right.
Print Assumptions mapfail_set.
Print Assumptions mapfail_detach.
Print Assumptions mapfail_attach.
Print Assumptions mapfail_stuck_forever.
Print Assumptions mapfail_left_out.

(** ** examples: ten times the item, failing for 0 *)
Definition mf_map (n : nat) (x : nat) : res nat := if x =? 0 then Err HandlerError else Ok (10 * x).
Definition mf_ok (n : nat) (b : nat) : option exn := None.
Definition mf_items (r : qstate nat nat * list (qev nat nat) * list (option exn)) : list nat * list (option exn) := (q_items (fst (fst r)), snd r).
Definition mf_h : list (qop nat) := [QSet (Some [1; 2; 3]); QInsert 1 0; QInsert 0 4; QInsert 1 5; QRemove 0].
Example mapfail_left_out_ex :
  mf_items (q_run mf_map mf_ok q_new mf_h) = ([50; 10; 20; 30], [None; None; None; None; None]) /\
  q_contents (fst (fst (q_run mf_map mf_ok q_new mf_h))) = [5; 1; 0; 2; 3] /\
  all_before_bad (fun x => negb (x =? 0)) [1; 2; 3] (tl mf_h).
Proof.
  split; [vm_compute; reflexivity|]. split; [vm_compute; reflexivity|]. cbn.
  split; [exists 1; vm_compute; repeat split; lia|]. split; [exists 0; vm_compute; repeat split; lia|]. split; [exists 1; vm_compute; repeat split; lia|].
  split; [exists 0; vm_compute; repeat split; lia|exact I].
Qed.
Example mapfail_balance_ex :
  let '(s, t, _) := q_run mf_map mf_ok q_new mf_h in made t = [10; 20; 30; 40; 50] /\ unmade t = [40] /\ length t = 13.
Proof. vm_compute. auto. Qed.
Example mapfail_attach_ex :
  mf_items (q_run mf_map mf_ok q_new [QSet (Some [1; 2; 0; 3]); QInsert 0 4]) = ([40; 10; 20], [Some HandlerError; None]).
Proof. vm_compute. reflexivity. Qed.
Example mapfail_detach_ex :
  mf_items (q_run mf_map mf_ok q_new (mf_h ++ [QSet None; QSet None; QInsert 0 9; QSet (Some [7])])) =
  ([], [None; None; None; None; None; Some IndexError; Some AttributeError; None; Some AttributeError]).
Proof. vm_compute. reflexivity. Qed.
(** unmap_fn failing once: the item stays for good, and is still there after the container has been given up *)
Example mapfail_unmap_ex :
  mf_items (q_run mf_map (fun n _ => if n =? 0 then Some HandlerError else None) q_new [QSet (Some [1; 2; 3]); QRemove 1; QRemove 1; QSet None]) =
  ([10], [None; None; None; None]).
Proof. vm_compute. reflexivity. Qed.

(** one failure and the items are displaced: the image of 5, inserted before 3, comes after that of 3, and the
    removal of 3 removes nothing *)
Theorem mapfail_displaced_refuted :
  exists h, let '(s, _, es) := q_run mf_map mf_ok q_new h in
    es = [None; None; None; None] /\ q_contents s = [1; 0; 5] /\ q_items s = [10; 30; 50].
Proof. exists [QSet (Some [1; 3]); QInsert 1 0; QInsert 2 5; QRemove 3]. vm_compute. auto. Qed.
(** ... and the model can neither be given another container nor closed *)
Theorem mapfail_stuck_refuted :
  exists h, mf_items (q_run mf_map mf_ok q_new h) = ([], [None; None; Some IndexError; Some AttributeError; Some AttributeError]) /\ stuck (fst (fst (q_run mf_map mf_ok q_new h))).
Proof.
  exists [QSet (Some [1; 3]); QInsert 1 0; QSet None; QSet None; QSet (Some [2])]. split; [vm_compute; reflexivity|]. vm_compute. split; [discriminate|reflexivity].
Qed.
Print Assumptions mapfail_displaced_refuted.
Print Assumptions mapfail_stuck_refuted.
