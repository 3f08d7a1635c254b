(** Lemmas: what reading does. *)
From Coq Require Import ZArith Bool List Lia Permutation.
From Verif Require Import PyBase PersistRead_Model PersistRead_Spec PersistRead_Proofs.
Import ListNotations.

Section Reading.
  Variable new_uuid : nat -> nat.
  Notation read := (read new_uuid). Notation made := (made new_uuid).

  Lemma made_ctxd c c' d : forall o, made c d o -> made c' d (ctxd c' o).
  Proof.
    induction d as [du dis drs IHi IHr] using data_deep. intros [i u k r is rs] (-> & _ & -> & Hi & Hr). cbn [ctxd PersistRead_Spec.made].
    repeat split.
    - revert is Hi. induction IHi as [|d dis H _ IH]; intros [|x is] Hi; try (exact Hi || contradiction). cbn in Hi |- *. destruct Hi as [Hx Hi].
      split; [|now apply IH]. destruct d as [d|], x as [x|]; cbn; try exact Hx. now apply H.
    - revert rs Hr. induction IHr as [|l drs H _ IH]; intros [|x rs] Hr; try (exact Hr || contradiction). cbn in Hr |- *. destruct Hr as [Hx Hr].
      split; [|now apply IH]. clear -H Hx. revert x Hx. induction H as [|d l Hd _ IH]; intros [|y x] Hx; try (exact Hx || contradiction).
      cbn in Hx |- *. destruct Hx as [H1 H2]. split; auto.
  Qed.
  Lemma made_within c d : forall o, made c d o -> within c o.
  Proof.
    induction d as [du dis drs IHi IHr] using data_deep. intros [i u k r is rs] (_ & -> & _ & Hi & Hr). apply within_eq. split; [reflexivity|]. split.
    - revert is Hi. induction IHi as [|d dis H _ IH]; intros [|x is] Hi; try contradiction; [apply Forall_nil|]. cbn in Hi. destruct Hi as [Hx Hi]. apply Forall_cons.
      + destruct d as [d|], x as [x|]; try exact I; try contradiction. now apply H.
      + now apply IH.
    - revert rs Hr. induction IHr as [|l drs H _ IH]; intros [|x rs] Hr; try contradiction; [apply Forall_nil|]. cbn in Hr. destruct Hr as [Hx Hr]. apply Forall_cons.
      + clear -H Hx. revert x Hx. induction H as [|d l Hd _ IH]; intros [|y x] Hx; try contradiction; [apply Forall_nil|]. cbn in Hx. destruct Hx as [H1 H2]. apply Forall_cons; auto.
      + now apply IH.
  Qed.

  Definition fresh_objects (ps : list (data * obj)) : list obj := flat_map objects (map snd ps).
  (** [ps] are the dicts that were read and the new objects made of them, put into the context *)
  Record news (c : option nat) (ps : list (data * obj)) (w w' : world) : Prop := News {
    n_made : Forall (fun p => made c (fst p) (snd p)) ps;
    n_le : w_next w <= w_next w';
    n_ids : Permutation (map o_id (fresh_objects ps)) (seq (w_next w) (w_next w' - w_next w));
    n_reg : forall c' u, w_reg w' c' u = regd c (entries (fresh_objects ps)) (w_reg w) c' u
  }.
  Lemma news_nil c w w' : w_next w' = w_next w -> (forall c' u, w_reg w' c' u = w_reg w c' u) -> news c [] w w'.
  Proof.
    intros E R. split; [constructor|lia| |].
    - rewrite E, Nat.sub_diag. constructor.
    - intros c' u. cbn. now rewrite regd_nil.
  Qed.
  Lemma fresh_app ps qs : fresh_objects (ps ++ qs) = fresh_objects ps ++ fresh_objects qs.
  Proof. unfold fresh_objects. now rewrite map_app, flat_map_app. Qed.
  Lemma news_app c ps qs w w1 w2 : news c ps w w1 -> news c qs w1 w2 -> news c (ps ++ qs) w w2.
  Proof.
    intros [A1 A2 A3 A4] [B1 B2 B3 B4]. split; [now apply Forall_app|lia| |].
    - rewrite fresh_app, map_app. rewrite A3, B3. replace (w_next w2 - w_next w) with ((w_next w1 - w_next w) + (w_next w2 - w_next w1)) by lia.
      rewrite seq_app. replace (w_next w + (w_next w1 - w_next w)) with (w_next w1) by lia. reflexivity.
    - intros c' u. rewrite fresh_app, entries_app, regd_app, B4. apply regd_ext. exact A4.
  Qed.
  (** [n_reg] does not look at the numbers: steps that only lose objects *)
  Lemma news_lose c ps x w w1 : news c ps w w1 -> news c ps w (lose x w1).
  Proof. intros [A1 A2 A3 A4]. split; auto. Qed.

  Definition reads (d : data) : Prop :=
    forall o w, exists is' rs' new1 new2 old w',
      read d o w = (Obj (o_id o) (match d_uuid d with Some x => x | None => o_uuid o end) (o_ctx o) (o_reading o) is' rs', w', None) /\
      items_read (d_items d) (o_items o) is' new1 old /\ rels_read (d_rels d) (o_rels o) rs' new2 /\ w_lost w' = w_lost w ++ old /\
      news (o_ctx o) (new1 ++ new2) (match d_uuid d, o_ctx o with Some x, Some k => register k x (o_id o) w | _, _ => w end) w'.

  Lemma items_read_new c dis is' new old : items_read dis (repeat None (length dis)) is' new old -> Forall (fun p => made c (fst p) (snd p)) new ->
    all2 (fun d x => match d, x with Some d, Some x => made c d x | None, None => True | _, _ => False end) dis is' /\ old = [] /\
    objects_items is' = fresh_objects new.
  Proof.
    revert is' new old. induction dis as [|[d|] dis IH]; intros is' new old H F; inversion H; subst.
    - now cbn.
    - now cbn.
    - cbn in F. inversion F as [|? ? F1 F2]; subst. destruct (IH _ _ _ ltac:(eassumption) F2) as (A & -> & B). split; [cbn; auto|]. split; [reflexivity|]. unfold fresh_objects, objects_items in *. cbn. f_equal. exact B.
    - destruct (IH _ _ _ ltac:(eassumption) F) as (A & -> & B). split; [cbn; auto|]. split; [reflexivity|exact B].
  Qed.
  Lemma all2_combine {X Y} (P : X -> Y -> Prop) l l' : length l' = length l -> Forall (fun p => P (fst p) (snd p)) (combine l l') -> all2 P l l'.
  Proof. revert l'. induction l as [|x l IH]; intros [|y l'] L F; try discriminate; cbn in *; [exact I|]. inversion F; subst. auto. Qed.
  Lemma rels_read_new c drs rs' new : rels_read drs (repeat [] (length drs)) rs' new -> Forall (fun p => made c (fst p) (snd p)) new ->
    all2 (all2 (made c)) drs rs' /\ flat_map (flat_map objects) rs' = fresh_objects new.
  Proof.
    revert rs' new. induction drs as [|d drs IH]; intros rs' new H F; inversion H; subst.
    - now cbn.
    - now cbn.
    - apply Forall_app in F. destruct F as [F1 F2]. destruct (IH _ _ ltac:(eassumption) F2) as (A & B). cbn [all2 app flat_map]. split; [split; [now apply all2_combine|exact A]|].
      rewrite fresh_app, B. f_equal. unfold fresh_objects.
      match goal with L : length ?y = length d |- _ => clear -L; revert y L end.
      intros y L. revert y L. induction d as [|x d IH]; intros [|y ys] L; try discriminate; [reflexivity|]. cbn. f_equal. apply IH. now injection L.
  Qed.

  Lemma read_new_spec d : reads d -> forall c w, exists y w',
    read_new new_uuid c (read d) (n_items d) (n_rels d) w = (y, w', None) /\ news c [(d, y)] w w' /\ w_lost w' = w_lost w.
  Proof.
    intros Rd c w. unfold read_new, make. cbn [begin_reading].
    set (x := Obj (w_next w) (new_uuid (w_next w)) None true (repeat None (n_items d)) (repeat [] (n_rels d))).
    destruct (Rd x (World (w_reg w) (S (w_next w)) (w_lost w))) as (is' & rs' & new1 & new2 & old & w2 & E & Hi & Hr & HL & [M1 M2 M3 M4]).
    rewrite E. clear E. destruct d as [du dis drs]. cbn [n_items n_rels d_uuid d_items d_rels x o_id o_uuid o_ctx o_reading o_items o_rels] in *.
    apply Forall_app in M1. destruct M1 as [M1a M1b].
    destruct (items_read_new None _ _ _ _ Hi M1a) as (A1 & -> & A2). destruct (rels_read_new None _ _ _ Hr M1b) as (B1 & B2).
    set (x' := Obj (w_next w) (match du with Some x => x | None => new_uuid (w_next w) end) None true is' rs').
    assert (Mx : made None (Data du dis drs) x') by (cbn; auto).
    destruct (set_context_in c x' (made_within _ _ _ Mx) w2) as (w3 & E3 & (R1 & R2 & R3)).
    exists (ctxd c x'), w3. split; [exact E3|]. replace (match du with Some _ => _ | None => _ end) with (World (w_reg w) (S (w_next w)) (w_lost w)) in M2, M3, M4 by now destruct du.
    cbn [w_next w_reg w_lost] in *. split; [|rewrite R3, HL; apply app_nil_r].
    assert (F : fresh_objects [(Data du dis drs, ctxd c x')] = map (ctxd c) (objects x')).
    { unfold fresh_objects. cbn. rewrite app_nil_r. change (objects (ctxd c x') = map (ctxd c) (objects x')). apply objects_ctxd. }
    split.
    - constructor; [|constructor]. cbn [fst snd]. eapply made_ctxd. exact Mx.
    - lia.
    - rewrite F, map_map, (map_ext _ _ (o_id_ctxd c)). unfold x'. rewrite objects_eq, A2, B2, !map_app. cbn [map o_id].
      rewrite fresh_app, map_app in M3. rewrite app_assoc, M3, R2. replace (w_next w2 - w_next w) with (S (w_next w2 - S (w_next w))) by lia.
      cbn [seq]. symmetry. apply Permutation_cons_append.
    - intros c' u. rewrite F, entries_ctxd, R1. apply regd_ext. intros c'' v. now rewrite M4.
  Qed.

  Lemma read_items_spec c dis : Forall (fun d => match d with Some d => reads d | None => True end) dis ->
    forall is w, exists is' new old w', read_items new_uuid c read dis is w = (is', w', None) /\
      items_read dis is is' new old /\ w_lost w' = w_lost w ++ old /\ news c new w w'.
  Proof.
    induction 1 as [|d dis Hd _ IH]; intros is w.
    - exists is, [], [], w. split; [reflexivity|]. split; [apply ir_nil|]. split; [now rewrite app_nil_r|]. now apply news_nil.
    - destruct is as [|x is].
      + exists [], [], [], w. replace (read_items new_uuid c read (d :: dis) [] w) with (@nil (option obj), w, @None exn) by now destruct d.
        split; [reflexivity|]. split; [constructor|]. split; [now rewrite app_nil_r|]. now apply news_nil.
      + destruct d as [d|].
        * destruct (read_new_spec d Hd c w) as (y & w1 & E1 & N1 & L1). destruct (IH is (lose x w1)) as (is' & new & old & w2 & E2 & I2 & L2 & N2).
          exists (Some y :: is'), ((d, y) :: new), ((match x with Some o => [o] | None => [] end) ++ old), w2. cbn [read_items]. rewrite E1.
          change (match read_items new_uuid c read dis is (lose x w1) with (l, w2, e) => (Some y :: l, w2, e) end = (Some y :: is', w2, None) /\ items_read (Some d :: dis) (x :: is) (Some y :: is') ((d, y) :: new) ((match x with Some o => [o] | None => [] end) ++ old) /\
             w_lost w2 = w_lost w ++ (match x with Some o => [o] | None => [] end) ++ old /\ news c ((d, y) :: new) w w2).
          rewrite E2. split; [reflexivity|]. split; [now constructor|]. split; [rewrite L2; cbn [lose w_lost]; now rewrite L1, app_assoc|].
          apply (news_app c [(d, y)] new w (lose x w1) w2); [|exact N2]. now apply news_lose.
        * destruct (IH is w) as (is' & new & old & w2 & E2 & I2 & L2 & N2). exists (x :: is'), new, old, w2. cbn [read_items].
          change (match read_items new_uuid c read dis is w with (l, w2, e) => (x :: l, w2, e) end = (x :: is', w2, None) /\ items_read (None :: dis) (x :: is) (x :: is') new old /\
             w_lost w2 = w_lost w ++ old /\ news c new w w2).
          rewrite E2. repeat (split; [reflexivity || assumption || now constructor|]). exact N2.
  Qed.
  Lemma read_rel_spec c ds : Forall reads ds -> forall l w, exists ys w', read_rel new_uuid c read ds l w = (l ++ ys, w', None) /\
    length ys = length ds /\ w_lost w' = w_lost w /\ news c (combine ds ys) w w'.
  Proof.
    induction 1 as [|d ds Hd _ IH]; intros l w.
    - exists [], w. cbn. rewrite app_nil_r. repeat (split; [reflexivity|]). now apply news_nil.
    - destruct (read_new_spec d Hd c w) as (y & w1 & E1 & N1 & L1). destruct (IH (l ++ [y]) w1) as (ys & w2 & E2 & A & L2 & N2).
      exists (y :: ys), w2. cbn [read_rel]. rewrite E1.
      change (read_rel new_uuid c read ds (l ++ [y]) w1 = (l ++ y :: ys, w2, None) /\ length (y :: ys) = length (d :: ds) /\ w_lost w2 = w_lost w /\ news c (combine (d :: ds) (y :: ys)) w w2).
      rewrite E2, <- app_assoc. split; [reflexivity|]. split; [cbn; congruence|]. split; [congruence|]. apply (news_app c [(d, y)] (combine ds ys) w w1 w2 N1 N2).
  Qed.
  Lemma read_rels_spec c drs : Forall (Forall reads) drs ->
    forall rs w, exists rs' new w', read_rels new_uuid c read drs rs w = (rs', w', None) /\
      rels_read drs rs rs' new /\ w_lost w' = w_lost w /\ news c new w w'.
  Proof.
    induction 1 as [|d drs Hd _ IH]; intros rs w.
    - exists rs, [], w. split; [reflexivity|]. split; [constructor|]. split; [reflexivity|]. now apply news_nil.
    - destruct rs as [|l rs].
      + exists [], [], w. split; [reflexivity|]. split; [constructor|]. split; [reflexivity|]. now apply news_nil.
      + destruct (read_rel_spec c d Hd l w) as (ys & w1 & E1 & A & L1 & N1). destruct (IH rs w1) as (rs' & new & w2 & E2 & I2 & L2 & N2).
        exists ((l ++ ys) :: rs'), (combine d ys ++ new), w2. cbn [read_rels]. rewrite E1.
        change (match read_rels new_uuid c read drs rs w1 with (r, w2, e) => ((l ++ ys) :: r, w2, e) end = ((l ++ ys) :: rs', w2, None) /\
          rels_read (d :: drs) (l :: rs) ((l ++ ys) :: rs') (combine d ys ++ new) /\ w_lost w2 = w_lost w /\ news c (combine d ys ++ new) w w2).
        rewrite E2. split; [reflexivity|]. split; [now constructor|]. split; [congruence|]. eapply news_app; eauto.
  Qed.
  Lemma read_spec d : reads d.
  Proof.
    induction d as [du dis drs IHi IHr] using data_deep. intros [i u c r is rs] w. cbn [d_uuid d_items d_rels o_id o_uuid o_ctx o_reading o_items o_rels PersistRead_Model.read].
    set (w1 := match du, c with Some x, Some k => register k x i w | _, _ => w end).
    destruct (read_items_spec c dis IHi is w1) as (is' & new1 & old & w2 & E1 & I1 & L1 & N1).
    destruct (read_rels_spec c drs IHr rs w2) as (rs' & new2 & w3 & E2 & I2 & L2 & N2).
    exists is', rs', new1, new2, old, w3. rewrite E1, E2. split; [reflexivity|]. split; [exact I1|]. split; [exact I2|].
    assert (L0 : w_lost w1 = w_lost w) by (unfold w1; destruct du, c; reflexivity).
    split; [congruence|]. eapply news_app; eauto.
  Qed.
End Reading.
