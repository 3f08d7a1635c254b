From Coq Require Import String ZArith Bool List Lia Arith.
From Verif Require Import PyBase StructTree_Model StructTree_Spec.
From Verif Require StructSeq_Spec StructSeq_Proofs.
Import ListNotations.

Lemma py_get_cases {X} (l : list X) i :
  (exists a x b, l = a ++ x :: b /\ StructSeq_Spec.denotes (length l) i (length a) /\ py_get l i = Ok x /\ py_del l i = Ok (a ++ b)) \/
  ((forall k, ~ StructSeq_Spec.denotes (length l) i k) /\ py_get l i = Err IndexError /\ py_del l i = Err IndexError).
Proof.
  unfold py_get, py_del. destruct (py_index (length l) i) as [k|] eqn:E.
  - left. pose proof (py_index_lt _ _ _ E) as L. destruct (StructSeq_Proofs.split_nth l k L) as (a & x & b & -> & La). exists a, x, b.
    split; [reflexivity|]. split; [apply StructSeq_Proofs.index_denotes; rewrite La; exact E|]. subst k.
    rewrite nth_error_app2 by lia. rewrite Nat.sub_diag, delete_at_app. split; reflexivity.
  - right. split; [apply StructSeq_Proofs.index_none, E|split; reflexivity].
Qed.
Section Proofs.
  Context {V : Type} (differs : V -> V -> bool).
  Notation node := (node V).
  Notation change := (change differs).
  Implicit Types (x y a : node) (p q : list place).

  Definition child (s : place) (x : node) : option node :=
    match s, x with
    | Fld n, NRecord _ fields => dict_get string_dec n fields
    | Itm i, NArray items _ => match nth_error items i with Some (_, y) => Some y | None => None end
    | _, _ => None
    end.
  Lemma get_cons s p x : get (s :: p) x = match child s x with Some y => get p y | None => None end.
  Proof. destruct s, x; cbn; try reflexivity. destruct (nth_error items i) as [[id y]|]; reflexivity. Qed.
  Lemma get_app p : forall q x, get (p ++ q) x = match get p x with Some y => get q y | None => None end.
  Proof.
    induction p as [|s p IH]; intros q x; [reflexivity|]. rewrite <- app_comm_cons, !get_cons.
    destruct (child s x); [apply IH|reflexivity].
  Qed.
  (** the node with one child replaced *)
  Definition set_child (s : place) (y' : node) (x : node) : node :=
    match s, x with
    | Fld n, NRecord w fields => NRecord w (dict_set string_dec n y' fields)
    | Itm i, NArray items l =>
        match nth_error items i with Some (id, _) => NArray (firstn i items ++ (id, y') :: skipn (S i) items) l | None => x end
    | _, _ => x
    end.
  Fixpoint put (p : list place) (a' : node) (x : node) : node :=
    match p with
    | [] => a'
    | s :: p' => match child s x with Some y => set_child s (put p' a' y) x | None => x end
    end.
  Definition passes (x : node) : bool := match x with NRecord w _ => w | _ => true end.
  Fixpoint openb (p : list place) (x : node) : bool :=
    match p with
    | [] => true
    | s :: p' => passes x && match child s x with Some y => openb p' y | None => false end
    end.
  Fixpoint below (p : list place) (x : node) : list (list place) :=
    match p with
    | [] => []
    | s :: p' => match child s x with
                 | Some y => (if openb p' y then [[s]] else []) ++ map (cons s) (below p' y)
                 | None => []
                 end
    end.
  Definition own_step (s : place) (here : list place) (x : node) : option (list place * string) :=
    match s with Fld n => if passes x then Some (here, n) else None | Itm _ => None end.
  Fixpoint owner (p : list place) (here : list place) (o : option (list place * string)) (x : node) : option (list place * string) :=
    match p with
    | [] => o
    | s :: p' => match child s x with Some y => owner p' (here ++ [s]) (own_step s here x) y | None => None end
    end.

  Lemma child_set s y' x y : child s x = Some y -> child s (set_child s y' x) = Some y'.
  Proof.
    destruct s, x; cbn; try discriminate.
    - intros _. rewrite dict_get_set. destruct (string_dec n n); congruence.
    - destruct (nth_error items i) as [[id z]|] eqn:E; [|discriminate]. intros _. cbn [child].
      assert (L : i < length items) by (apply nth_error_Some; congruence).
      rewrite nth_error_app2 by (rewrite firstn_length; lia). rewrite firstn_length. replace (i - Nat.min i (length items)) with 0 by lia. reflexivity.
  Qed.
  Lemma child_set_other s t y' x y : child s x = Some y -> s <> t -> child t (set_child s y' x) = child t x.
  Proof.
    destruct s, x; cbn [child set_child]; try discriminate.
    - intros _ N. destruct t; cbn; [|reflexivity]. rewrite dict_get_set. destruct (string_dec n0 n); congruence.
    - destruct (nth_error items i) as [[id z]|] eqn:E; [|discriminate]. intros _ N. destruct t as [|j]; cbn [child]; [reflexivity|].
      assert (L : i < length items) by (apply nth_error_Some; congruence). assert (J : i <> j) by congruence.
      replace (nth_error (firstn i items ++ (id, y') :: skipn (S i) items) j) with (nth_error items j); [reflexivity|].
      apply nth_error_split in E as (u & v & -> & Lu). subst i.
      rewrite firstn_app, Nat.sub_diag, firstn_all, firstn_O, app_nil_r.
      replace (skipn (S (length u)) (u ++ (id, z) :: v)) with v.
      2:{ rewrite skipn_app. replace (S (length u) - length u) with 1 by lia. rewrite skipn_all2 by lia. reflexivity. }
      destruct (Nat.lt_ge_cases j (length u)).
      + rewrite !nth_error_app1 by lia. reflexivity.
      + rewrite !nth_error_app2 by lia. destruct (j - length u) as [|m] eqn:D; [lia|reflexivity].
  Qed.
  Lemma get_put p : forall x a a', get p x = Some a -> get p (put p a' x) = Some a'.
  Proof.
    induction p as [|s p IH]; intros x a a' H; [reflexivity|]. rewrite get_cons in H. cbn [put].
    destruct (child s x) as [y|] eqn:C; [|discriminate]. rewrite get_cons, (child_set s _ x y C). apply (IH y a a' H).
  Qed.
  Lemma get_put_apart p : forall q x a a', get p x = Some a -> apart p q -> get q (put p a' x) = get q x.
  Proof.
    induction p as [|s p IH]; intros q x a a' H A; [contradiction|]. destruct q as [|t q]; [contradiction|].
    rewrite get_cons in H. cbn [put]. destruct (child s x) as [y|] eqn:C; [|discriminate]. rewrite !get_cons.
    destruct A as [N|[<- A]].
    - rewrite (child_set_other s t _ x y C N). reflexivity.
    - rewrite (child_set s _ x y C), C. apply (IH q y a a' H A).
  Qed.

  (** the listeners of an object at the end of a path *)
  Definition ups (p : list place) (here : list place) (up : list event) (x : node) : list event :=
    (if openb p x then up else []) ++ map (fun q => Touched (here ++ q)) (below p x).
  Lemma heard_child s x y : heard_once x -> child s x = Some y -> heard_once y.
  Proof.
    intros H C. destruct s, x; cbn in C; try discriminate; inversion H as [| |w f F|it l N K M F]; subst.
    - apply dict_get_in in C. rewrite Forall_forall in F. apply (F _ C).
    - destruct (nth_error items i) as [[id z]|] eqn:E; [|discriminate]. injection C as <-. apply nth_error_In in E.
      rewrite Forall_forall in F. apply (F _ E).
  Qed.
  Lemma change_field n p e here up o w fields : change (Fld n :: p) e here up o (NRecord w fields) =
    match dict_get string_dec n fields with
    | Some y =>
        match change p e (here ++ [Fld n]) ((if w then up else []) ++ [Touched (here ++ [Fld n])]) (if w then Some (here, n) else None) y with
        | Some (y', tr, r) => Some (NRecord w (dict_set string_dec n y' fields), tr, r)
        | None => None
        end
    | None => None
    end.
  Proof. reflexivity. Qed.
  Lemma change_item i p e here up o items l : change (Itm i :: p) e here up o (NArray items l) =
    match nth_error items i with
    | Some (id, y) =>
        match change p e (here ++ [Itm i]) (times (count_occ opt_nat_dec l (Some id)) up ++ [Touched (here ++ [Itm i])]) None y with
        | Some (y', tr, r) => Some (NArray (firstn i items ++ (id, y') :: skipn (S i) items) l, tr, r)
        | None => None
        end
    | None => None
    end.
  Proof. reflexivity. Qed.
  Lemma change_leaf p e : forall here up o x, heard_once x ->
    change p e here up o x =
    match get p x with
    | Some a => match change [] e (here ++ p) (ups p here up x) (owner p here o x) a with
                | Some (a', tr, r) => Some (put p a' x, tr, r)
                | None => None
                end
    | None => None
    end.
  Proof.
    induction p as [|s p IH]; intros here up o x Hx.
    - change (get [] x) with (Some x). cbn [owner put]. unfold ups. cbn [openb below map]. rewrite !app_nil_r. cbn iota.
      destruct (change [] e here up o x) as [[[? ?] ?]|]; reflexivity.
    - rewrite get_cons. destruct (child s x) as [y|] eqn:C.
      2:{ destruct s, x; cbn in C |- *; try reflexivity; try (rewrite C; reflexivity).
          destruct (nth_error items i) as [[id z]|]; [discriminate|reflexivity]. }
      assert (Hy : heard_once y) by (eapply heard_child; eassumption).
      assert (G : forall up1 o1, up1 = (if passes x then up else []) ++ [Touched (here ++ [s])] -> o1 = own_step s here x ->
                  change p e (here ++ [s]) up1 o1 y =
                  match get p y with
                  | Some a => match change [] e (here ++ s :: p) (ups (s :: p) here up x) (owner (s :: p) here o x) a with
                              | Some (a', tr, r) => Some (put p a' y, tr, r)
                              | None => None
                              end
                  | None => None
                  end).
      { intros up1 o1 -> ->. rewrite (IH _ _ _ y Hy). rewrite <- app_assoc. cbn [app owner]. rewrite C.
        replace (ups (s :: p) here up x) with (ups p (here ++ [s]) ((if passes x then up else []) ++ [Touched (here ++ [s])]) y); [reflexivity|].
        unfold ups. cbn [openb below]. rewrite C.
        replace (map (fun q => Touched (here ++ q)) ((if openb p y then [[s]] else []) ++ map (cons s) (below p y)))
          with (map Touched (if openb p y then [here ++ [s]] else []) ++ map (fun q => Touched ((here ++ [s]) ++ q)) (below p y)).
        2:{ rewrite map_app, map_map. f_equal; [destruct (openb p y); reflexivity|]. apply map_ext. intros q. rewrite <- app_assoc. reflexivity. }
        rewrite app_assoc. f_equal. destruct (openb p y), (passes x); cbn; rewrite ?app_nil_r; reflexivity. }
      assert (Q : forall z, put (s :: p) z x = set_child s (put p z y) x) by (intros z; cbn [put]; rewrite C; reflexivity).
      destruct s as [n|i], x as [v|v|w fields|items l]; cbn [child] in C; try discriminate; rewrite ?change_field, ?change_item.
      + rewrite C. rewrite (G ((if w then up else []) ++ [Touched (here ++ [Fld n])]) (if w then Some (here, n) else None) eq_refl eq_refl). destruct (get p y) as [a|]; [|reflexivity].
        destruct (change [] e _ _ _ a) as [[[a' tr] r]|]; [|reflexivity]. rewrite Q. reflexivity.
      + destruct (nth_error items i) as [[id z]|] eqn:E; [|discriminate]. injection C as ->.
        inversion Hx as [| | |it l0 N K M F]; subst. pose proof (nth_error_In _ _ E) as I.
        rewrite Forall_forall in F. destruct (F _ I) as [Ki _]. cbn [snd] in Ki.
        assert (D : is_model y \/ exists v, y = NRaw v) by (destruct y; cbn in *; eauto; contradiction).
        destruct D as [D|[v ->]].
        * rewrite (K _ _ I D). cbn [times]. rewrite app_nil_r, (G (up ++ [Touched (here ++ [Itm i])]) None eq_refl eq_refl). destruct (get p y) as [a|]; [|reflexivity].
          destruct (change [] e _ _ _ a) as [[[a' tr] r]|]; [|reflexivity]. rewrite Q. cbn [set_child]. rewrite E. reflexivity.
        * assert (Z : forall p h u o, change p e h u o (NRaw v) = None) by (intros [|[] ?] ? ? ?; reflexivity). rewrite Z.
          destruct p as [|[] p]; reflexivity.
  Qed.

  (** ** who hears *)
  Lemma closed_app x q y r : get q x = Some y -> closed_at x (q ++ r) <-> closed_at y r.
  Proof. intros G. unfold closed_at. rewrite get_app, G. reflexivity. Qed.
  Lemma openb_spec r : forall y a, get r y = Some a -> openb r y = true <-> (forall r1 s r2, r = r1 ++ s :: r2 -> ~ closed_at y r1).
  Proof.
    induction r as [|s r IH]; intros y a G.
    - split; [|reflexivity]. intros _ [|] ? ? E; discriminate.
    - rewrite get_cons in G. cbn [openb]. destruct (child s y) as [z|] eqn:C; [|discriminate].
      rewrite andb_true_iff, (IH z a G). split.
      + intros [P H] [|t r1] s' r2 E.
        * intros [f Hf]. cbn in Hf. injection Hf as ->. discriminate.
        * injection E as -> E. intros [f Hf]. rewrite get_cons, C in Hf. apply (H r1 s' r2 E). exists f. exact Hf.
      + intros H. split.
        * destruct y as [| |[] f|]; try reflexivity. exfalso. apply (H [] s r eq_refl). exists f. reflexivity.
        * intros r1 s' r2 E [f Hf]. apply (H (s :: r1) s' r2 (f_equal (cons s) E)). exists f. rewrite get_cons, C. exact Hf.
  Qed.
  Lemma open_to_spec x q y r a : get q x = Some y -> get r y = Some a -> openb r y = true <-> open_to x q r.
  Proof.
    intros G H. rewrite (openb_spec r y a H). unfold open_to. split; intros F r1 s r2 E.
    - rewrite (closed_app x q y r1 G). eapply F, E.
    - rewrite <- (closed_app x q y r1 G). eapply F, E.
  Qed.
  Lemma hearers_app x p l1 l2 m1 m2 : hearers x p l1 m1 -> hearers x p l2 m2 -> hearers x p (l1 ++ l2) (m1 ++ m2).
  Proof. induction 1; intros; cbn; [assumption|econstructor 2; eauto|econstructor 3; eauto]. Qed.
  Lemma hearers_below x r : forall q y a, get q x = Some y -> get r y = Some a ->
    hearers x (q ++ r) (map (app q) (prefixes r)) (map (app q) ((if openb r y then [[]] else []) ++ below r y)).
  Proof.
    induction r as [|s r IH]; intros q y a G H.
    - cbn [prefixes map openb below app]. rewrite !app_nil_r. apply (Hr_yes x q q []); [symmetry; apply app_nil_r| |constructor].
      intros [|] ? ? E; discriminate.
    - pose proof (open_to_spec x q y (s :: r) a G H) as O. pose proof H as H0. rewrite get_cons in H0. cbn [prefixes map]. cbn [below].
      destruct (child s y) as [z|] eqn:C; [|discriminate].
      assert (G1 : get (q ++ [s]) x = Some z) by (rewrite get_app, G, get_cons, C; reflexivity).
      specialize (IH (q ++ [s]) z a G1 H0). rewrite <- app_assoc in IH. cbn [app] in IH.
      assert (E1 : map (app q) (map (cons s) (prefixes r)) = map (app (q ++ [s])) (prefixes r)).
      { rewrite map_map. apply map_ext. intros t. rewrite <- app_assoc. reflexivity. }
      assert (E2 : map (app q) ((if openb r z then [[s]] else []) ++ map (cons s) (below r z)) =
                   map (app (q ++ [s])) ((if openb r z then [[]] else []) ++ below r z)).
      { rewrite !map_app, map_map. f_equal; [destruct (openb r z); cbn; rewrite ?app_nil_r; reflexivity|]. apply map_ext. intros t. rewrite <- app_assoc. reflexivity. }
      rewrite map_app, E1, E2. rewrite app_nil_r. destruct (openb (s :: r) y).
      + cbn [map app]. rewrite app_nil_r. econstructor 2; [reflexivity|apply O; reflexivity|exact IH].
      + cbn [map app]. econstructor 3; [reflexivity| |exact IH]. intros F. apply O in F. discriminate.
  Qed.
  Lemma owner_last p : forall s here o x y, get p x = Some y -> child s y <> None -> owner (p ++ [s]) here o x = own_step s (here ++ p) y.
  Proof.
    induction p as [|t p IH]; intros s here o x y G N; cbn [app owner].
    - injection G as <-. destruct (child s x); [|contradiction]. rewrite app_nil_r. reflexivity.
    - rewrite get_cons in G. destruct (child t x) as [z|]; [|discriminate]. rewrite (IH s _ _ z y G N), <- app_assoc. reflexivity.
  Qed.
  Lemma owner_told x p a ev key : get p x = Some a ->
    told x p ev key ([ev p key] ++ match owner p [] None x with Some (q, n) => [ev q n] | None => [] end).
  Proof.
    intros G. destruct p as [|s p _] using rev_ind; [constructor 1; reflexivity|].
    rewrite get_app in G. destruct (get p x) as [y|] eqn:Gp; [|discriminate]. rewrite get_cons in G.
    assert (N : child s y <> None) by (destruct (child s y); [congruence|discriminate]).
    rewrite (owner_last p s [] None x y Gp N). cbn [app]. destruct s as [n|i]; cbn [own_step].
    - assert (O : owner_of (p ++ [Fld n]) = Some (p, n)) by (unfold owner_of; rewrite rev_app_distr; cbn; rewrite rev_involutive; reflexivity).
      destruct y as [| |w f|]; cbn in N; try congruence. destruct w; cbn [passes].
      + econstructor 3; [exact O|]. intros [f' Hf]. congruence.
      + econstructor 2; [exact O|]. exists f. exact Gp.
    - constructor 1. unfold owner_of. rewrite rev_app_distr. reflexivity.
  Qed.
  Lemma announced_all x p a ev key : get p x = Some a ->
    announced x p ev key ([ev p key] ++ (match owner p [] None x with Some (q, n) => [ev q n] | None => [] end) ++ ups p [] [Touched []] x).
  Proof.
    intros G. eexists _, _. split; [apply (owner_told x p a ev key G)|]. split.
    - pose proof (hearers_below x p [] x a eq_refl G) as H. cbn [app] in H. rewrite !map_id in H. exact H.
    - rewrite <- app_assoc. do 2 f_equal. unfold ups. rewrite map_app. f_equal. destruct (openb p x); reflexivity.
  Qed.

  (** ** the edit of one object *)
  Lemma leaf_outcome x p e a a' tr r : get p x = Some a ->
    change [] e p (ups p [] [Touched []] x) (owner p [] None x) a = Some (a', tr, r) -> outcome differs x p e a a' tr r.
  Proof.
    intros G H. pose proof (fun ev key => announced_all x p a ev key G) as A.
    destruct a as [old|v|w fields|items l], e as [v'|i id y|i|]; cbn [StructTree_Model.change] in H; try discriminate.
    - destruct (differs old v') eqn:D; injection H as <- <- <-; constructor; auto. apply A.
    - injection H as <- <- <-. constructor.
    - destruct w; [injection H as <- <- <-; constructor|]. destruct fields; injection H as <- <- <-; constructor.
    - injection H as <- <- <-. unfold py_insert.
      destruct (split_at items (py_insert_pos (length items) i) (py_insert_pos_le _ _)) as (u & v & -> & L).
      rewrite <- L, insert_at_app. constructor; [apply StructSeq_Proofs.insert_place_pos; symmetry; exact L|]. apply (A (fun q k => Inserted q k id i)).
    - destruct (py_get_cases items i) as [(u & [id y] & v & -> & D & Eg & Ed)|(D & Eg & Ed)]; rewrite Eg, ?Ed in H.
      2:{ injection H as <- <- <-. constructor. exact D. }
      destruct (py_get_cases l i) as [(lu & lx & lv & El & Dl & _ & Ed')|(Dl & _ & Ed')]; rewrite Ed' in H; injection H as <- <- <-.
      + eapply Out_remove; [exact D|]. apply (A (fun q k => Removed q k id i)).
      + apply Out_no_listener; assumption.
    - injection H as <- <- <-. constructor.
  Qed.
  Lemma leaf_possible e h u o a : change [] e h u o a <> None <-> edit_for e a.
  Proof.
    destruct a as [old|v|w fields|items l], e as [v'|i id y|i|]; cbn [StructTree_Model.change edit_for]; split; intros H; try congruence; try contradiction; try exact I.
    destruct (py_get_cases items i) as [(c & [id y] & b & _ & _ & -> & ->)|(_ & -> & _)]; [|discriminate].
    destruct (py_del l i); discriminate.
  Qed.

  (** ** the listeners *)
  Lemma model_put s z x : is_model (set_child s z x) <-> is_model x.
  Proof. destruct s, x; cbn [set_child]; try reflexivity. destruct (nth_error items i) as [[? ?]|]; reflexivity. Qed.
  Lemma dict_set_forall (P : node -> Prop) n y fields : P y -> Forall (fun f => P (snd f)) fields -> Forall (fun f => P (snd f)) (dict_set string_dec n y fields).
  Proof.
    intros Py. induction 1 as [|[k z] l Hz Hl IH]; cbn [dict_set]; [constructor; auto|]. destruct (string_dec n k); constructor; auto.
  Qed.
  Lemma set_child_array (items : list (nat * node)) i id z y : nth_error items i = Some (id, z) ->
    exists u v, items = u ++ (id, z) :: v /\ firstn i items ++ (id, y) :: skipn (S i) items = u ++ (id, y) :: v.
  Proof.
    intros E. apply nth_error_split in E as (u & v & -> & <-). exists u, v. split; [reflexivity|].
    rewrite firstn_app, Nat.sub_diag, firstn_all, firstn_O, app_nil_r. f_equal. f_equal.
    rewrite skipn_app. replace (S (length u) - length u) with 1 by lia. rewrite skipn_all2 by lia. reflexivity.
  Qed.
  Definition same_kind (y z : node) : Prop := (is_model y <-> is_model z) /\ (item_kind y <-> item_kind z).
  Lemma heard_set s y z x : heard_once x -> child s x = Some z -> heard_once y -> same_kind y z -> heard_once (set_child s y x).
  Proof.
    intros H C Hy [KM KI]. destruct s, x; cbn [child] in C; try discriminate; cbn [set_child]; inversion H as [| |w f F|it l N K M F]; subst.
    - constructor. apply dict_set_forall; assumption.
    - destruct (nth_error items i) as [[id z']|] eqn:E; [|discriminate]. injection C as ->.
      destruct (set_child_array items i id z y E) as (u & v & -> & ->). rewrite map_app in N. cbn [map fst] in N.
      assert (Em : map fst (u ++ (id, y) :: v) = map fst (u ++ (id, z) :: v)) by (rewrite !map_app; reflexivity).
      constructor.
      + rewrite map_app. exact N.
      + intros id' y' I' D'. apply in_app_or in I' as [I'|[I'|I']].
        * apply (K id' y'); [apply in_or_app; auto|exact D'].
        * injection I' as <- <-. apply (K id z); [apply in_or_app; right; left; reflexivity|apply KM, D'].
        * apply (K id' y'); [apply in_or_app; right; right; exact I'|exact D'].
      + intros id'. rewrite Em. apply M.
      + apply Forall_app in F as [F1 F2]. inversion F2 as [|? ? [Fk _] F3]; subst. apply Forall_app. split; [exact F1|]. constructor; [|exact F3].
        split; [apply KI; exact Fk|exact Hy].
  Qed.
  Lemma order_child s x y : in_order x -> child s x = Some y -> in_order y.
  Proof.
    intros H C. destruct s, x; cbn in C; try discriminate; inversion H as [| |w f F|it l N K F]; subst.
    - apply dict_get_in in C. rewrite Forall_forall in F. apply (F _ C).
    - destruct (nth_error items i) as [[id z]|] eqn:E; [|discriminate]. injection C as <-. apply nth_error_In in E.
      rewrite Forall_forall in F. apply (F _ E).
  Qed.
  Lemma order_set s y z x : in_order x -> child s x = Some z -> in_order y -> same_kind y z -> in_order (set_child s y x).
  Proof.
    intros H C Hy [KM KI]. destruct s, x; cbn [child] in C; try discriminate; cbn [set_child]; inversion H as [| |w f F|it l N K F]; subst.
    - constructor. apply dict_set_forall; assumption.
    - destruct (nth_error items i) as [[id z']|] eqn:E; [|discriminate]. injection C as ->.
      destruct (set_child_array items i id z y E) as (u & v & -> & ->). rewrite map_app in N. cbn [map fst] in N.
      constructor.
      + rewrite map_app. exact N.
      + apply Forall2_app_inv_l in K as (l1 & l2 & K1 & K2 & ->). inversion K2 as [|? lz ? l3 Kz K3]; subst.
        apply Forall2_app; [exact K1|]. constructor; [|exact K3]. cbn [fst snd] in *. rewrite KM. exact Kz.
      + apply Forall_app in F as [F1 F2]. inversion F2 as [|? ? [Fk _] F3]; subst. apply Forall_app. split; [exact F1|]. constructor; [|exact F3].
        split; [apply KI; exact Fk|exact Hy].
  Qed.
  Lemma put_preserves (P : node -> Prop)
    (Pc : forall s x y, P x -> child s x = Some y -> P y)
    (Ps : forall s y z x, P x -> child s x = Some z -> P y -> same_kind y z -> P (set_child s y x)) p :
    forall x a a', P x -> get p x = Some a -> P a' -> same_kind a' a -> P (put p a' x) /\ same_kind (put p a' x) x.
  Proof.
    induction p as [|s p IH]; intros x a a' Hx G Ha S.
    - injection G as ->. auto.
    - rewrite get_cons in G. cbn [put]. destruct (child s x) as [y|] eqn:C; [|discriminate].
      destruct (IH y a a' (Pc s x y Hx C) G Ha S) as [Py Sy]. split; [eapply Ps; eauto|].
      split; [apply model_put|]. destruct s, x; cbn [set_child]; try reflexivity. destruct (nth_error items i) as [[? ?]|]; reflexivity.
  Qed.
  Lemma get_preserves (P : node -> Prop) (Pc : forall s x y, P x -> child s x = Some y -> P y) p :
    forall x a, P x -> get p x = Some a -> P a.
  Proof.
    induction p as [|s p IH]; intros x a Hx G; [injection G as <-; exact Hx|]. rewrite get_cons in G.
    destruct (child s x) as [y|] eqn:C; [|discriminate]. eapply IH; [eapply Pc; eauto|exact G].
  Qed.
  Lemma leaf_kind x p e a a' tr r : outcome differs x p e a a' tr r -> same_kind a' a.
  Proof. intros H; inversion H; subst; split; reflexivity. Qed.
  Lemma tag_spec it : (is_model (snd it) -> @tag V it = Some (fst it)) /\ (~ is_model (snd it) -> @tag V it = None).
  Proof. destruct it as [id []]; cbn; split; intros H; try reflexivity; try contradiction; exfalso; apply H; exact I. Qed.
  Lemma count_app_tag l it id : count_occ opt_nat_dec (l ++ [@tag V it]) (Some id) =
    count_occ opt_nat_dec l (Some id) + (if opt_nat_dec (tag it) (Some id) then 1 else 0).
  Proof. rewrite count_occ_app. cbn [count_occ]. destruct (opt_nat_dec (tag it) (Some id)); reflexivity. Qed.
  Lemma leaf_heard h u o e a a' tr r : heard_once a -> ~ removes e ->
    (match e, a with Insert _ id y, NArray items _ => heard_once y /\ item_kind y /\ ~ In id (map fst items) | _, _ => True end) ->
    change [] e h u o a = Some (a', tr, r) -> heard_once a'.
  Proof.
    intros Ha R Fr H. destruct a as [old|v|w fields|items l], e as [v'|i id y|i|]; cbn [StructTree_Model.change] in H; try discriminate; cbn in R; try (exfalso; apply R; exact I).
    - destruct (differs old v'); injection H as <- _ _; constructor.
    - injection H as <- _ _. constructor.
    - injection H as <- _ _. inversion Ha; subst. constructor. assumption.
    - injection H as <- _ _. destruct Fr as (Hy & Ki & Fr). inversion Ha as [| | |it l0 N K M F]; subst. unfold py_insert.
      destruct (split_at items (py_insert_pos (length items) i) (py_insert_pos_le _ _)) as (c & d & -> & L).
      rewrite <- L, insert_at_app.
      assert (NI : ~ In (Some id) l) by (apply M; exact Fr).
      constructor.
      + rewrite map_app. cbn [map fst]. rewrite map_app in N, Fr. apply NoDup_Add with (a := id) (l := map fst c ++ map fst d); [apply Add_app|].
        split; assumption.
      + intros id' y' I' D'. rewrite count_app_tag. apply in_app_or in I'. destruct (Nat.eq_dec id' id) as [->|Ne].
        * assert (y' = y) as ->.
          { destruct I' as [I'|[I'|I']]; [|injection I' as ->; reflexivity|]; exfalso; apply Fr; rewrite map_app; apply in_or_app; [left|right]; apply (in_map fst) in I'; exact I'. }
          apply (count_occ_not_In opt_nat_dec) in NI. rewrite NI. destruct (tag_spec (id, y)) as [T _]. rewrite (T D'). cbn [fst].
          destruct (opt_nat_dec (Some id) (Some id)); [reflexivity|congruence].
        * rewrite (K id' y'); [|apply in_or_app; destruct I' as [I'|[I'|I']]; [auto|congruence|auto]|exact D'].
          destruct (opt_nat_dec (tag (id, y)) (Some id')) as [E|_]; [|reflexivity]. exfalso. unfold tag in E. cbn [fst snd] in E.
          destruct y; try discriminate; congruence.
      + intros id' I'. rewrite map_app in I'. cbn [map fst] in I'. intros J. apply in_app_or in J as [J|[J|[]]].
        * apply (M id'); [|exact J]. intros J'. apply I'. rewrite map_app in J'. apply in_app_or in J' as [J'|J']; apply in_or_app; [left|right; right]; exact J'.
        * unfold tag in J. cbn [fst snd] in J. apply I'. apply in_or_app. right. left. destruct y; try discriminate; congruence.
      + apply Forall_app in F as [F1 F2]. apply Forall_app. split; [exact F1|]. constructor; [split; assumption|exact F2].
    - injection H as <- _ _. exact Ha.
  Qed.
  Lemma forall2_length {X Y} (R : X -> Y -> Prop) l m : Forall2 R l m -> length l = length m.
  Proof. induction 1; cbn; congruence. Qed.
  Lemma leaf_order h u o e a a' tr r : in_order a ->
    (match e, a with Insert i id y, NArray items _ => in_order y /\ item_kind y /\ ~ In id (map fst items) /\ i = Z.of_nat (length items) | _, _ => True end) ->
    change [] e h u o a = Some (a', tr, r) -> in_order a'.
  Proof.
    intros Ha Fr H. destruct a as [old|v|w fields|items l], e as [v'|i id y|i|]; cbn [StructTree_Model.change] in H; try discriminate.
    - destruct (differs old v'); injection H as <- _ _; constructor.
    - injection H as <- _ _. constructor.
    - injection H as <- _ _. inversion Ha; subst. constructor. assumption.
    - injection H as <- _ _. destruct Fr as (Hy & Ki & Fr & ->). inversion Ha as [| | |it l0 N K F]; subst. unfold py_insert.
      rewrite py_insert_pos_nat by lia. rewrite <- (app_nil_r items) at 2. rewrite insert_at_app.
      constructor.
      + rewrite map_app. cbn [map fst]. apply NoDup_Add with (a := id) (l := map fst items ++ []); [apply Add_app|]. rewrite app_nil_r. split; assumption.
      + apply Forall2_app; [exact K|]. constructor; [|constructor]. apply tag_spec.
      + apply Forall_app. split; [exact F|]. constructor; [split; assumption|constructor].
    - inversion Ha as [| | |it l0 N K F]; subst. pose proof (forall2_length _ _ _ K) as L.
      destruct (py_get_cases items i) as [(c & [id y] & d & -> & D & Eg & Ed)|(D & Eg & Ed)]; rewrite Eg, ?Ed in H.
      2:{ injection H as <- _ _. exact Ha. }
      apply Forall2_app_inv_l in K as (l1 & l2 & K1 & K2 & ->). inversion K2 as [|? lz ? l3 Kz K3]; subst.
      assert (E : py_del (l1 ++ lz :: l3) i = Ok (l1 ++ l3)).
      { unfold py_del. rewrite <- L. apply StructSeq_Proofs.index_denotes in D. rewrite D. rewrite (forall2_length _ _ _ K1), delete_at_app. reflexivity. }
      rewrite E in H. injection H as <- _ _. constructor.
      + rewrite map_app in *. cbn [map] in N. apply NoDup_remove_1 in N. exact N.
      + apply Forall2_app; assumption.
      + apply Forall_app in F as [F1 F2]. inversion F2; subst. apply Forall_app. split; assumption.
    - injection H as <- _ _. exact Ha.
  Qed.
  Lemma node_ind2 (P : node -> Prop) : (forall v, P (NField v)) -> (forall v, P (NRaw v)) ->
    (forall w fields, Forall (fun f => P (snd f)) fields -> P (NRecord w fields)) ->
    (forall items l, Forall (fun f => P (snd f)) items -> P (NArray items l)) -> forall x, P x.
  Proof.
    intros H1 H2 H3 H4. fix IH 1. intros [v|v|w fields|items l]; [apply H1|apply H2| |].
    - apply H3. induction fields as [|[n y] fields IHf]; constructor; [apply IH|exact IHf].
    - apply H4. induction items as [|[n y] items IHf]; constructor; [apply IH|exact IHf].
  Qed.
  Lemma order_heard x : in_order x -> heard_once x.
  Proof.
    induction x as [v|v|w fields IH|items l IH] using node_ind2; intros H; inversion H as [| |w' f F|it l' N K F]; subst; constructor; auto.
    - rewrite Forall_forall in *. intros f I. apply (IH f I), F, I.
    - intros id y I D. clear IH F H. induction K as [|[id' y'] lz items' l' [K1 K2] K IHK]; [destruct I|].
      cbn [map fst] in N. inversion N as [|? ? N1 N2]; subst. cbn [fst snd] in K1, K2.
      assert (Z : forall j, In (Some j) l' -> In j (map fst items')).
      { clear - K. induction K as [|[a b] c d e [Q1 Q2] K IHK]; intros j J; [destruct J|]. cbn [fst snd map] in *. destruct J as [->|J]; [|right; auto].
        left. destruct b; cbn in Q1, Q2; first [specialize (Q1 Logic.I)|specialize (Q2 (fun h : False => h))]; congruence. }
      destruct I as [I|I].
      + injection I as -> ->. rewrite (K1 D). rewrite count_occ_cons_eq by reflexivity. f_equal. apply count_occ_not_In. intros J. apply N1, Z, J.
      + rewrite count_occ_cons_neq; [apply IHK; assumption|]. intros E.
        assert (id' = id) as ->. { destruct y'; cbn in K1, K2; first [specialize (K1 Logic.I)|specialize (K2 (fun h : False => h))]; congruence. }
        apply N1. apply (in_map fst) in I. exact I.
    - intros id NI J. apply NI. clear IH F H NI N. induction K as [|[a b] c d e [Q1 Q2] K IHK]; [destruct J|]. cbn [fst snd map] in *. destruct J as [->|J]; [|right; auto].
      left. destruct b; cbn in Q1, Q2; first [specialize (Q1 Logic.I)|specialize (Q2 (fun h : False => h))]; congruence.
    - rewrite Forall_forall in *. intros f I. destruct (F f I) as [? ?]. split; [assumption|]. apply (IH f I); assumption.
  Qed.
  Lemma made_order (items : list (nat * node)) : NoDup (map fst items) -> Forall (fun f => item_kind (snd f) /\ in_order (snd f)) items -> in_order (@array_made V items).
  Proof. intros N F. constructor; auto. clear N F. induction items; constructor; [apply tag_spec|assumption]. Qed.
End Proofs.
