(** Property C89: notifications of nested structured models.  Property C90: the attributes of a record. *)
From Coq Require Import String ZArith Bool List Lia Arith.
From Verif Require Import PyBase StructTree_Model StructTree_Spec StructTree_Proofs.
Import ListNotations.
Open Scope string_scope.
Open Scope list_scope.

Section Props.
  Context {V : Type} (differs : V -> V -> bool).
  Notation node := (node V).

  Lemma edit_split x p e x' tr r : heard_once x -> edit_at differs p e x = Some (x', tr, r) ->
    exists a a', get p x = Some a /\ change differs [] e p (ups p [] [Touched []] x) (owner p [] None x) a = Some (a', tr, r) /\ x' = put p a' x.
  Proof.
    intros H E. unfold edit_at in E. rewrite (change_leaf differs p e [] _ _ x H) in E. cbn [app] in E.
    destruct (get p x) as [a|]; [|discriminate]. exists a.
    destruct (change differs [] e p _ _ a) as [[[a' tr'] r']|]; [|discriminate]. injection E as <- <- <-. exists a'. auto.
  Qed.
  (** C89: an edit of the object at [p], at any depth, changes that object only, announces exactly what it did, and every
      object above it hears of it once *)
  Theorem tree_edit x p e x' tr r : heard_once x -> edit_at differs p e x = Some (x', tr, r) ->
    exists a a', get p x = Some a /\ get p x' = Some a' /\ outcome differs x p e a a' tr r /\
                 (forall q, apart p q -> get q x' = get q x).
  Proof.
    intros H E. destruct (edit_split x p e x' tr r H E) as (a & a' & G & C & ->). exists a, a'.
    split; [exact G|]. split; [eapply get_put; exact G|]. split; [eapply leaf_outcome; eassumption|].
    intros q A. eapply get_put_apart; eassumption.
  Qed.
  Theorem tree_edit_possible x p e : heard_once x -> (edit_at differs p e x <> None <-> exists a, get p x = Some a /\ edit_for e a).
  Proof.
    intros H. unfold edit_at. rewrite (change_leaf differs p e [] _ _ x H). destruct (get p x) as [a|].
    - pose proof (leaf_possible differs e ([] ++ p) (ups p [] [Touched []] x) (owner p [] None x) a) as L.
      destruct (change differs [] e _ _ _ a) as [[[a' tr] r]|].
      + split; [|discriminate]. intros _. exists a. split; [reflexivity|]. apply L. discriminate.
      + split; [congruence|]. intros (a0 & [= <-] & F). apply L in F. congruence.
    - split; [congruence|]. intros (a0 & [=] & _).
  Qed.
  (** C89: as long as no record on the way is closed, all objects from the root down to the object hear, once each *)
  Theorem tree_all_hear (x : node) p l : (forall q, ~ closed_at x q) -> hearers x p (prefixes p) l -> l = prefixes p /\ NoDup l.
  Proof.
    intros N H. assert (E : l = prefixes p).
    { induction H as [|q r qs l E O H IH|q r qs l E O H IH]; [reflexivity|f_equal; exact IH|]. exfalso. apply O. intros r1 s r2 _. apply N. }
    split; [exact E|]. subst l. clear. induction p as [|s p IH]; [repeat constructor; intros []|]. cbn [prefixes]. constructor.
    - intros I. apply in_map_iff in I as (? & ? & _). discriminate.
    - apply FinFun.Injective_map_NoDup; [intros ? ? [= ->]; reflexivity|exact IH].
  Qed.
  (** C89: a closed record and all above it hear nothing from below it *)
  Theorem tree_closed x q s p e x' tr r q1 q2 : heard_once x -> closed_at x q -> q = q1 ++ q2 ->
    edit_at differs (q ++ s :: p) e x = Some (x', tr, r) -> ~ In (Touched q1) tr.
  Proof.
    intros H C Eq E. destruct (tree_edit x _ e x' tr r H E) as (a & a' & _ & _ & O & _).
    assert (K : forall ev key tr, announced x (q ++ s :: p) ev key tr -> (forall z k, ev z k <> Touched q1) -> ~ In (Touched q1) tr).
    { clear - C Eq. intros ev key tr (t & l & T & Hl & ->) Ne I. apply in_app_or in I as [I|I].
      - inversion T; subst; cbn in I; intuition (eapply Ne; eauto).
      - apply in_map_iff in I as (z & [= ->] & I).
        assert (J : forall qs, hearers x (q ++ s :: p) qs l -> exists r, q ++ s :: p = q1 ++ r /\ open_to x q1 r).
        { intros qs Hq. clear Hl T. induction Hq as [|? ? ? ? ? ? ? IH|? ? ? ? ? ? ? IH]; [destruct I| |auto]. destruct I as [->|I]; [eauto|auto]. }
        destruct (J _ Hl) as (r & Er & Op). subst q. rewrite <- app_assoc in Er. apply app_inv_head in Er. symmetry in Er. apply (Op _ _ _ Er C). }
    inversion O; subst; try (intros []; fail); try (eapply K; [eassumption|intros; discriminate]).
    intros [I|[]]; discriminate.
  Qed.

  Lemma step_heard p e x : heard_once x -> ~ removes e -> fresh_edit heard_once p e x ->
    heard_once (match edit_at differs p e x with Some (x', _, _) => x' | None => x end).
  Proof.
    intros H R F. destruct (edit_at differs p e x) as [[[x' tr] r]|] eqn:E; [|exact H].
    destruct (edit_split x p e x' tr r H E) as (a & a' & G & C & ->).
    apply (put_preserves heard_once heard_child heard_set p x a a' H G).
    - refine (leaf_heard differs _ _ _ e a a' tr r _ R _ C); [exact (get_preserves heard_once heard_child p x a H G)|].
      destruct e; auto. destruct a; auto. destruct F as (F1 & F2 & F3). split; [exact F1|]. split; [exact F2|]. eapply F3. exact G.
    - eapply leaf_kind, leaf_outcome; eassumption.
  Qed.
  Lemma step_order p e x : in_order x -> fresh_edit in_order p e x -> append_edit p e x ->
    in_order (match edit_at differs p e x with Some (x', _, _) => x' | None => x end).
  Proof.
    intros H F A. destruct (edit_at differs p e x) as [[[x' tr] r]|] eqn:E; [|exact H].
    destruct (edit_split x p e x' tr r (order_heard x H) E) as (a & a' & G & C & ->).
    apply (put_preserves in_order order_child order_set p x a a' H G).
    - refine (leaf_order differs _ _ _ e a a' tr r _ _ C); [exact (get_preserves in_order order_child p x a H G)|].
      destruct e; auto. destruct a; auto. destruct F as (F1 & F2 & F3). split; [exact F1|]. split; [exact F2|]. split; [eapply F3; exact G|].
      eapply A. exact G.
    - eapply leaf_kind, leaf_outcome; eassumption.
  Qed.
  (** C89: an array starts with its listeners in order *)
  Theorem tree_made (items : list (nat * node)) : NoDup (map fst items) -> Forall (fun f => item_kind (snd f) /\ in_order (snd f)) items ->
    in_order (array_made items).
  Proof. exact (made_order items). Qed.
  (** C89: a history that only inserts at the end keeps the listeners in order, with removals anywhere *)
  Theorem tree_appends l x : in_order x -> always differs (fun p e x => fresh_edit in_order p e x /\ append_edit p e x) l x ->
    in_order (history differs l x) /\ heard_once (history differs l x).
  Proof.
    intros H A. assert (K : in_order (history differs l x)); [|split; [exact K|apply order_heard, K]]. revert x H A.
    induction l as [|[p e] l IH]; intros x H A; [exact H|]. cbn [history always] in *. destruct A as [[A1 A2] A]. apply IH; [|exact A]. apply step_order; assumption.
  Qed.
  (** C89: a history without removals keeps every object heard once, with insertions anywhere *)
  Theorem tree_inserts l x : heard_once x -> always differs (fun p e x => ~ removes e /\ fresh_edit heard_once p e x) l x ->
    heard_once (history differs l x).
  Proof.
    revert x. induction l as [|[p e] l IH]; intros x H A; [exact H|]. cbn [history always] in *. destruct A as [[A1 A2] A]. apply IH; [|exact A]. apply step_heard; assumption.
  Qed.
  (** C89: with the listeners in order a removal raises for indices without item only *)
  Theorem tree_remove x p i x' tr r items l k : in_order x -> get p x = Some (NArray items l) -> StructSeq_Spec.denotes (length items) i k ->
    edit_at differs p (Remove i) x = Some (x', tr, r) -> r = Ok tt.
  Proof.
    intros H G D E. destruct (tree_edit x p _ x' tr r (order_heard x H) E) as (a & a' & Ga & _ & O & _).
    rewrite G in Ga. injection Ga as <-.
    assert (Ho : in_order (NArray items l)) by (eapply (get_preserves in_order order_child); eassumption).
    inversion Ho as [| | |? ? _ K _]; subst. apply forall2_length in K.
    inversion O; subst; auto; exfalso; match goal with N : forall k, ~ _ |- _ => eapply N end; [exact D|rewrite <- K; exact D].
  Qed.
  (** FINDING: an insertion at the front followed by its removal leaves the array as it was, but the first item is no longer
      listened to: assigning one of its fields is announced by the item, not by the array and not by anything above *)
  Theorem tree_insert_remove_refuted id0 w fields rest n old v id y :
    let x := array_made ((id0, NRecord true fields) :: rest) in
    in_order x -> dict_get string_dec n fields = Some (NField old) -> differs old v = true ->
    in_order y -> is_model y -> ~ In id (id0 :: map fst rest) -> w = history differs [([], Insert 0 id y); ([], Remove 0)] x ->
    (exists l, w = NArray ((id0, NRecord true fields) :: rest) l) /\
    exists w', edit_at differs [Itm 0; Fld n] (Assign v) w =
      Some (w', [Changed [Itm 0; Fld n] "value"; Changed [Itm 0] n; Touched [Itm 0]; Touched [Itm 0; Fld n]], Ok tt).
  Proof.
    cbv zeta. intros Ho G D Hy My Fr ->.
    assert (E : history differs [([], Insert 0 id y); ([], Remove 0)] (array_made ((id0, NRecord true fields) :: rest)) =
                NArray ((id0, NRecord true fields) :: rest) (map tag rest ++ [tag (id, y)])).
    { unfold array_made. cbn [history map edit_at change]. unfold edit_at. cbn [change].
      unfold py_insert, insert_at. change (py_insert_pos (length ((id0, NRecord true fields) :: rest)) 0) with (py_insert_pos (length ((id0, NRecord true fields) :: rest)) (Z.of_nat 0)).
      rewrite py_insert_pos_nat by lia. cbn [firstn skipn app].
      unfold py_get, py_del. change 0%Z with (Z.of_nat 0). rewrite !py_index_nat by (cbn [length]; lia). cbn [nth_error]. reflexivity. }
    rewrite E. split; [eexists; reflexivity|].
    assert (C : count_occ opt_nat_dec (map tag rest ++ [tag (id, y)]) (Some id0) = 0).
    { apply count_occ_not_In. intros I. inversion Ho as [| | |? ? N _ _]; subst. cbn [map fst] in N. inversion N as [|? ? N1 _]; subst.
      apply in_app_or in I as [I|[I|[]]].
      - apply in_map_iff in I as ([i z] & T & I). apply N1. apply in_map_iff. exists (i, z). split; [|exact I]. unfold tag in T. cbn [fst snd] in T. destruct z; try discriminate; injection T as ->; reflexivity.
      - unfold tag in I. cbn [fst snd] in I. apply Fr. left. destruct y; try discriminate; injection I as ->; reflexivity. }
    unfold edit_at. cbn [change nth_error]. rewrite C, G. cbn [change times app]. rewrite D. eexists. reflexivity.
  Qed.
End Props.
Print Assumptions tree_edit.
Print Assumptions tree_edit_possible.
Print Assumptions tree_all_hear.
Print Assumptions tree_closed.
Print Assumptions tree_made.
Print Assumptions tree_appends.
Print Assumptions tree_inserts.
Print Assumptions tree_remove.
Print Assumptions tree_insert_remove_refuted.

(** a record with a title and an array of points, one of them appended later *)
Example tree_case :
  let point (a b : Z) := NRecord true [("a", NField a); ("b", NField b)] in
  let x := NRecord true [("title", NField 7%Z); ("points", array_made [(0, point 1%Z 2%Z); (1, point 3%Z 4%Z)])] in
  let e l := edit_at (fun a b => negb (Z.eqb a b)) (fst l) (snd l) x in
  e ([Fld "points"; Itm 1; Fld "b"], Assign 9%Z) =
    Some (NRecord true [("title", NField 7%Z); ("points", array_made [(0, point 1%Z 2%Z); (1, point 3%Z 9%Z)])],
          [Changed [Fld "points"; Itm 1; Fld "b"] "value"; Changed [Fld "points"; Itm 1] "b";
           Touched []; Touched [Fld "points"]; Touched [Fld "points"; Itm 1]; Touched [Fld "points"; Itm 1; Fld "b"]], Ok tt) /\
  e ([Fld "points"; Itm 1; Fld "b"], Assign 4%Z) = Some (x, [], Ok tt) /\
  e ([Fld "points"], Insert 2 5 (point 5%Z 6%Z)) =
    Some (NRecord true [("title", NField 7%Z); ("points", array_made [(0, point 1%Z 2%Z); (1, point 3%Z 4%Z); (5, point 5%Z 6%Z)])],
          [Inserted [Fld "points"] "items" 5 2; Inserted [] "points" 5 2; Touched []; Touched [Fld "points"]], Ok tt) /\
  e ([Fld "points"], Remove (-2)) =
    Some (NRecord true [("title", NField 7%Z); ("points", array_made [(1, point 3%Z 4%Z)])],
          [Removed [Fld "points"] "items" 0 (-2); Removed [] "points" 0 (-2); Touched []; Touched [Fld "points"]], Ok tt) /\
  e ([Fld "points"], Close) = Some (x, [], Err TypeError) /\ e ([Itm 0], Close) = None.
Proof. repeat split. Qed.

(** ** C90: attributes *)
Section Attributes.
  Local Open Scope string_scope.
  Context {M A : Type}.
  Variable builtin : string -> bool.
  Variable primitive : M -> bool.
  Variable field_value : M -> A.
  Variable put : A -> M -> M.
  Notation obj := (@obj M A).
  Notation getattr := (getattr builtin field_value).
  Notation setattr := (setattr primitive put).
  Definition field (n : string) (o : obj) : option M := dict_get string_dec n (o_fields o).
  Definition untouched (n : string) (o : obj) : Prop := dict_get string_dec n (o_assigned o) = None.

  (** C90: a field name that is no other attribute reads as the value of the field, and <name>_model as its model *)
  Theorem attr_read n o m : field n o = Some m ->
    (builtin n = false -> untouched n o -> getattr n o = Ok (FValue (field_value m))) /\
    (builtin (n ++ "_model") = false -> untouched (n ++ "_model") o -> field (n ++ "_model") o = None -> getattr (n ++ "_model") o = Ok (FModel m)).
  Proof.
    unfold field, untouched, getattr. intros F. split.
    - intros B U. rewrite U, B, F. reflexivity.
    - intros B U N. rewrite U, B, N. unfold model_suffix.
      assert (L : String.length (n ++ "_model") = String.length n + 6) by (clear; induction n as [|c n IH]; [reflexivity|cbn; rewrite IH; reflexivity]).
      rewrite L. replace (String.length n + 6 - 6)%nat with (String.length n) by lia.
      replace (6 <=? String.length n + 6)%nat with true by (symmetry; apply Nat.leb_le; lia).
      assert (S1 : forall s, substring (String.length n) 6 (n ++ s) = substring 0 6 s) by (clear; intros s; induction n as [|c n IH]; [reflexivity|exact IH]).
      assert (S2 : forall s, substring 0 (String.length n) (n ++ s) = n) by (clear; intros s; induction n as [|c n IH]; [destruct s; reflexivity|cbn; f_equal; exact IH]).
      rewrite S1, S2. change (substring 0 6 "_model") with "_model". destruct (string_dec "_model" "_model"); [|congruence]. rewrite F. reflexivity.
  Qed.
  (** C90: any other name raises AttributeError *)
  Theorem attr_missing n o : builtin n = false -> untouched n o -> field n o = None ->
    (forall k, n = k ++ "_model" -> field k o = None) -> getattr n o = Err AttributeError.
  Proof.
    unfold field, untouched, getattr. intros B U F H. rewrite U, B, F. unfold model_suffix.
    destruct (Nat.leb_spec 6 (String.length n)) as [L|]; [|reflexivity].
    destruct (string_dec _ _) as [E|]; [|reflexivity].
    rewrite (H (substring 0 (String.length n - 6) n)); [reflexivity|]. rewrite <- E.
    clear - L. remember (String.length n - 6)%nat as k eqn:Ek. assert (Lk : String.length n = (k + 6)%nat) by lia. clear Ek L. revert k Lk.
    induction n as [|c n IH]; intros k Lk; [destruct k; discriminate|]. destruct k as [|k].
    - cbn [substring append]. destruct n as [|c1 [|c2 [|c3 [|c4 [|c5 [|c6 n]]]]]]; try discriminate. reflexivity.
    - cbn [substring append]. f_equal. apply IH. injection Lk as Lk. exact Lk.
  Qed.
  (** C90: assigning a primitive field sets its value, and changes no other attribute and no other field *)
  Theorem attr_assign n o m a : field n o = Some m -> primitive m = true ->
    field n (setattr n a o) = Some (put a m) /\ (forall k, k <> n -> field k (setattr n a o) = field k o) /\ o_assigned (setattr n a o) = o_assigned o.
  Proof.
    unfold field, setattr. intros F P. rewrite F, P. cbn [o_fields o_assigned]. split; [|split; [|reflexivity]].
    - rewrite dict_get_set. destruct (string_dec n n); congruence.
    - intros k N. rewrite dict_get_set. destruct (string_dec k n); congruence.
  Qed.
  (** C90 (defect): assigning a record or array field, or any other name, leaves all fields as they are; from then on the
      name reads as the assigned value *)
  Theorem attr_shadow n o a : (forall m, field n o = Some m -> primitive m = false) ->
    o_fields (setattr n a o) = o_fields o /\ getattr n (setattr n a o) = Ok (FAssigned a) /\
    (forall k, k <> n -> getattr k (setattr n a o) = getattr k o).
  Proof.
    unfold field. intros P. assert (E : setattr n a o = Obj (o_fields o) (dict_set string_dec n a (o_assigned o))).
    { unfold setattr. destruct (dict_get string_dec n (o_fields o)) as [m|] eqn:F; [rewrite (P m eq_refl)|]; reflexivity. }
    rewrite E. split; [reflexivity|]. unfold getattr. cbn [o_fields o_assigned]. split.
    - rewrite dict_get_set. destruct (string_dec n n); congruence.
    - intros k N. rewrite dict_get_set. destruct (string_dec k n); [contradiction|reflexivity].
  Qed.
  (** C90 (defect): a field named like an attribute of every record is assigned but never read *)
  Theorem attr_builtin n o m a : field n o = Some m -> primitive m = true -> builtin n = true -> untouched n o ->
    getattr n o = Ok (FBuiltin n) /\ getattr n (setattr n a o) = Ok (FBuiltin n) /\ field n (setattr n a o) = Some (put a m).
  Proof.
    intros F P B U. destruct (attr_assign n o m a F P) as (S1 & _ & S2). split; [|split; [|exact S1]]; unfold getattr; rewrite ?S2, U, B; reflexivity.
  Qed.
End Attributes.
Print Assumptions attr_read.
Print Assumptions attr_missing.
Print Assumptions attr_assign.
Print Assumptions attr_shadow.
Print Assumptions attr_builtin.
Example attr_case :
  let builtin n := if string_dec n "schema" then true else false in
  let get n o := getattr (M := Z * bool) builtin fst n o in
  let set n a o := setattr (M := Z * bool) snd (fun a m => (a, snd m)) n a o in
  let o := Obj [("x", (1%Z, true)); ("r", (2%Z, false)); ("schema", (3%Z, true))] [] in
  get "x" o = Ok (FValue 1%Z) /\ get "x_model" o = Ok (FModel (1%Z, true)) /\ get "x_mode" o = Err AttributeError /\
  get "x" (set "x" 5%Z o) = Ok (FValue 5%Z) /\
  get "r" (set "r" 5%Z o) = Ok (FAssigned 5%Z) /\ get "r_model" (set "r" 5%Z o) = Ok (FModel (2%Z, false)) /\
  get "schema" (set "schema" 5%Z o) = Ok (FBuiltin "schema") /\ get "schema_model" (set "schema" 5%Z o) = Ok (FModel (5%Z, true)).
Proof. repeat split. Qed.
