(** Properties C66 - C69 of StructuredModel.py. *)
From Coq Require Import String ZArith Bool List Lia Arith Permutation.
From Verif Require Import PyBase Struct_Model Struct_Spec Struct_Proofs.
Import ListNotations.

Section Props.
  Context {A : Type} (truthy : A -> bool).
  Notation pyval := (pyval A). Notation schema := (schema A). Notation model := (model A).

  (** C66: a model built from a conforming value gives that value back. *)
  Theorem struct_roundtrip (s : schema) (v : pyval) :
    good s -> conforms false s v ->
    exists m d, build_model truthy s VNone v = Ok m /\ to_dict m = Ok d /\ pyeq d v.
  Proof.
    intros G C. destruct (build_conf truthy false s G true v (or_introl eq_refl) C) as (m & d & B & _ & D & E). eauto.
  Qed.

  (** C66: a deep copy of a record or array model in any state has the same dict value. *)
  Theorem struct_deepcopy (s : schema) (m : model) :
    good s -> s <> SPrim -> typed s m ->
    exists c d d', deepcopy truthy m = Ok c /\ to_dict m = Ok d /\ to_dict c = Ok d' /\ pyeq d' d /\ typed s c.
  Proof.
    intros G NP T. destruct (typed_to_dict s G m T) as (d & D & C). destruct C as [C | [C _]]; [| congruence].
    destruct (build_conf truthy false s G false d (or_intror NP) C) as (c & d' & B & Tc & D' & E).
    exists c, d, d'. repeat split; auto. unfold deepcopy. rewrite D.
    destruct s as [| |fields|it]; [congruence | destruct G | |].
    - apply typed_record in T as (ms & -> & _). exact B.
    - apply typed_array in T as (ms & -> & _). exact B.
  Qed.

  (** C66: copying from a model whose primitive fields are all set makes the dict values equal, whatever the target. *)
  Theorem struct_copy_from (s : schema) (target source : model) (d : pyval) :
    good s -> typed s target -> to_dict source = Ok d -> conforms true s d ->
    exists t d', copy_from truthy target source = Ok t /\ to_dict t = Ok d' /\ pyeq d' d /\ typed s t.
  Proof.
    intros G T D C. destruct (from_dict_conf truthy s G d target T C) as (t & d' & F & Tt & D' & E).
    exists t, d'. unfold copy_from. rewrite D. auto.
  Qed.

  (** ** C67 *)
  Theorem struct_default_prim (d v : pyval) :
    (d <> VNone -> build_model truthy SPrim d v = Ok (MField d)) /\ build_model truthy SPrim VNone v = Ok (MField v).
  Proof. split; [intros N; cbn; apply is_none_false in N; now rewrite N | reflexivity]. Qed.

  Lemma build_fields_default values fields n d ms : NoDup (map field_name fields) -> In (n, SPrim, d) fields -> d <> VNone ->
    build_fields truthy values fields = Ok ms -> dict_get string_dec n ms = Some (MField d).
  Proof.
    intros N I ND. revert ms. induction fields as [|[[n' t'] d'] fs IH]; [destruct I |]. intros ms E. cbn in E.
    fold (build_fields truthy values) in E. inversion N as [|? ? Nn Nf]; subst.
    destruct (build truthy true t' d' (get_or_none n' values)) as [m|] eqn:Em; [| discriminate].
    destruct (build_fields truthy values fs) as [ms'|]; [| discriminate]. injection E as <-. cbn [dict_get].
    destruct I as [I | I].
    - injection I as -> -> ->. destruct (string_dec n n) as [_|X]; [| now destruct X].
      cbn in Em. apply is_none_false in ND. rewrite ND in Em. now injection Em as <-.
    - destruct (string_dec n n') as [->|]; [| now apply IH].
      exfalso. apply Nn. change (field_name (n', t', d')) with (field_name (n', SPrim, d)). now apply in_map.
  Qed.

  (** C67: a primitive field with a default has the default, whatever values the record is built from. *)
  Theorem struct_default_field (as_model : bool) (fields : list (string * schema * pyval)) (n : string) (d default value r : pyval) (m : model) :
    NoDup (map field_name fields) -> In (n, SPrim, d) fields -> d <> VNone ->
    build truthy as_model (SRecord fields) default value = Ok m -> to_dict m = Ok r ->
    exists e, r = VDict e /\ dict_get string_dec n e = Some d.
  Proof.
    intros N I ND B D. rewrite build_record in B.
    destruct (if as_model then merged truthy default value else as_dict truthy value) as [values|]; [| discriminate].
    destruct (build_fields truthy values fields) as [ms|] eqn:E; [| discriminate].
    assert (m = MRecord fields (of_pairs ms)) as -> by congruence. clear B.
    pose proof (build_fields_names truthy values fields ms E) as K.
    pose proof (build_fields_default values fields n d ms N I ND E) as X.
    rewrite of_pairs_id in D by now rewrite K. cbn [to_dict] in D. set (vals := map _ ms) in D.
    assert (V : sget n vals = Some (Ok d)) by (unfold vals; rewrite sget_map; unfold sget; now rewrite X).
    clearbody vals. clear -N I ND D V.
    assert (G : forall fs acc, NoDup (map field_name fs) -> collect fs vals acc = Ok r ->
              exists e, r = VDict e /\ (In n (map field_name fs) -> dict_get string_dec n e = Some d) /\
                        (~ In n (map field_name fs) -> dict_get string_dec n e = dict_get string_dec n acc)).
    { clear D I N fields. induction fs as [|[[n' t'] d'] fs IH]; intros acc N C; cbn [collect] in C.
      - injection C as <-. exists acc. split; [reflexivity |]. split; [intros [] | auto].
      - change (map field_name ((n', t', d') :: fs)) with (n' :: map field_name fs) in *. inversion N as [|? ? Nn Nf]; subst.
        destruct (string_dec n n') as [<-|NE].
        + rewrite V in C. apply is_none_false in ND. rewrite ND in C. destruct (IH _ Nf C) as (e & -> & _ & F).
          exists e. split; [reflexivity |]. split; [| intros H; exfalso; apply H; now left]. intros _. rewrite (F Nn), dict_get_set.
          destruct (string_dec n n); congruence.
        + destruct (sget n' vals) as [[v|]|]; try discriminate. destruct (IH _ Nf C) as (e & -> & F1 & F2). exists e. split; [reflexivity |].
          split; [intros [H | H]; [congruence | auto] |]. intros H. rewrite F2 by (intros H'; apply H; now right).
          destruct (is_none v); [reflexivity |]. rewrite dict_get_set. destruct (string_dec n n'); congruence. }
    destruct (G fields [] N D) as (e & -> & F & _). exists e. split; [reflexivity |]. apply F.
    change n with (field_name (n, @SPrim A, d)). now apply in_map.
  Qed.

  (** FINDING (C67): so a deep copy of a record in any state has the default again. *)
  Theorem struct_default_deepcopy_refuted (fields : list (string * schema * pyval)) (ms : list (string * model)) (n : string) (d r : pyval) (c : model) :
    NoDup (map field_name fields) -> In (n, SPrim, d) fields -> d <> VNone ->
    deepcopy truthy (MRecord fields ms) = Ok c -> to_dict c = Ok r ->
    exists e, r = VDict e /\ dict_get string_dec n e = Some d.
  Proof.
    intros N I ND B D. unfold deepcopy in B. destruct (to_dict (MRecord fields ms)) as [v|]; [| discriminate].
    exact (struct_default_field false fields n d VNone v r c N I ND B D).
  Qed.

  (** C67: for arrays the value takes precedence over the default. *)
  Theorem struct_default_array (it : schema) (d v : pyval) :
    build_model truthy (SArray it) d v = build_model truthy (SArray it) VNone (if is_none v then d else v).
  Proof. unfold build_model. rewrite !build_array. destruct v; cbn; auto. destruct d; reflexivity. Qed.

  Lemma build_fields_ext d1 d2 fields : (forall k, dict_get string_dec k d1 = dict_get string_dec k d2) ->
    build_fields truthy d1 fields = build_fields truthy d2 fields.
  Proof.
    intros H. induction fields as [|[[n t] d] fs IH]; [reflexivity |]. cbn. fold (build_fields truthy d1) (build_fields truthy d2).
    unfold get_or_none, sget. now rewrite H, IH.
  Qed.
  (** C67: for records each entry of the value takes precedence over that of the default. *)
  Theorem struct_default_record (fields : list (string * schema * pyval)) (dd dv both : list (string * pyval)) :
    NoDup (map fst dv) -> NoDup (map fst both) ->
    (forall k, dict_get string_dec k both = match dict_get string_dec k dv with Some v => Some v | None => dict_get string_dec k dd end) ->
    build_model truthy (SRecord fields) (VDict dd) (VDict dv) = build_model truthy (SRecord fields) VNone (VDict both).
  Proof.
    intros N1 N2 H. unfold build_model. rewrite !build_record. cbn [merged as_dict].
    rewrite (build_fields_ext _ both fields), (build_fields_ext (fold_left _ both []) both fields).
    - reflexivity.
    - intros k. rewrite fold_set_get, get_rev by exact N2. now destruct (dict_get string_dec k both).
    - intros k. now rewrite fold_set_get, get_rev, H by exact N1.
  Qed.

  (** ** C69 *)
  Theorem struct_float_raises (as_model : bool) (d v : pyval) : build truthy as_model SBad d v = Err AttributeError.
  Proof. reflexivity. Qed.

  (** FINDING (C69): no record schema with a field of such a type, at any depth, can be built from any value. *)
  Theorem struct_float_record_refuted (s : schema) : has_bad s ->
    forall as_model d v m, build truthy as_model s d v <> Ok m.
  Proof.
    induction 1 as [|fields n t df I _ IH]; intros b d v m.
    - discriminate.
    - rewrite build_record. destruct (if b then merged truthy d v else as_dict truthy v) as [values|]; [| discriminate].
      assert (E : forall ms, build_fields truthy values fields <> Ok ms).
      { clear -I IH. induction fields as [|[[n' t'] d'] fs IHf]; [destruct I |]. intros ms. cbn. fold (build_fields truthy values).
        destruct (build truthy true t' d' (get_or_none n' values)) as [m|] eqn:Em; [| discriminate].
        destruct I as [I | I].
        - injection I as -> -> ->. exfalso. eapply IH. exact Em.
        - specialize (IHf I). destruct (build_fields truthy values fs) as [ms'|]; [exfalso; now apply (IHf ms') | discriminate]. }
      destruct (build_fields truthy values fields) as [ms|]; [exfalso; now apply (E ms) | discriminate].
  Qed.

  (** FINDING (C69): a non-empty array of primitives has no dict value and no deep copy. *)
  Theorem struct_prim_array_refuted (d v : pyval) (l : list pyval) :
    exists m, build_model truthy (SArray SPrim) d (VList (v :: l)) = Ok m /\
      to_dict m = Err AttributeError /\ deepcopy truthy m = Err AttributeError.
  Proof.
    unfold build_model. rewrite build_array. cbn [is_none].
    assert (E : forall l, exists ms, build_items truthy SPrim l = Ok ms).
    { induction l0 as [|x l0 (ms & IH)]; [now exists [] |]. exists (MRaw x :: ms). cbn. fold (build_items truthy SPrim). now rewrite IH. }
    destruct (E l) as (ms & Es). cbn. fold (build_items truthy SPrim). rewrite Es. eexists. repeat split.
  Qed.
End Props.

(** FINDING (C66): copy_from does not clear a field that is None in the source. *)
Theorem struct_copy_from_none_refuted :
  ~ (forall (s : schema nat) (target source : model nat) d, good s -> typed s target -> typed s source -> to_dict source = Ok d ->
       exists t d', copy_from (fun _ => true) target source = Ok t /\ to_dict t = Ok d' /\ pyeq d' d).
Proof.
  set (fields := [("a", @SPrim nat, @VNone nat)]%string).
  intros H. destruct (H (SRecord fields) (MRecord fields [("a", MField (VAtom 1))]%string) (MRecord fields [("a", MField VNone)]%string) (VDict []))
    as (t & d' & C & D & E).
  - apply good_fields. split; repeat constructor. intros [].
  - apply typed_record. eexists. repeat split. constructor; [| constructor]. cbn. eauto.
  - apply typed_record. eexists. repeat split. constructor; [| constructor]. cbn. eauto.
  - reflexivity.
  - vm_compute in C. injection C as <-. vm_compute in D. injection D as <-. inversion E as [|? ?|? ? F _]; subst.
    destruct (F "a"%string (VAtom 1) eq_refl) as (? & X & _). discriminate X.
Qed.

(** FINDING (C66): a record field left out of the value comes back as an empty dict. *)
Theorem struct_absent_record_refuted :
  exists m, build_model (fun _ : nat => true) (SRecord [("r", SRecord [], VNone)]%string) VNone (VDict []) = Ok m /\
    to_dict m = Ok (VDict [("r", VDict [])]%string).
Proof. eexists. split; reflexivity. Qed.

(** ** C68 *)
Lemma count_perm (l1 l2 : list nat) r : Permutation l1 l2 -> count_occ Nat.eq_dec l1 r = count_occ Nat.eq_dec l2 r.
Proof. intros P. now apply (Permutation_count_occ Nat.eq_dec). Qed.

(** While records are only appended, and removed anywhere, the array's event fires once for each place a record is at
    when it changes: once for a record contained once, never for one not contained. *)
Theorem array_appends (items : list nat) (l : list top) (r : nat) :
  appends_only (length items) l ->
  let t := trun l (tramp_make items) in
  fires_on t r = count_occ Nat.eq_dec (t_items t) r.
Proof.
  intros W. cbv zeta.
  assert (G : forall l t, t_listen t = t_items t -> appends_only (length (t_items t)) l -> t_listen (trun l t) = t_items (trun l t)).
  { clear. induction l as [|o l IH]; intros t E W; [exact E |]. cbn [trun fold_left]. fold (trun l).
    apply IH; destruct o as [i x|i|n made]; cbn [appends_only] in W; cbn [tstep fst].
    - destruct W as [-> _]. cbn. rewrite E. unfold py_insert, insert_at. rewrite py_insert_pos_nat by lia.
      now rewrite firstn_all, skipn_all.
    - rewrite E. unfold py_del. destruct (py_index (length (t_items t)) i); auto.
    - destruct W.
    - destruct W as [-> W]. cbn. unfold py_insert. rewrite insert_at_length. exact W.
    - rewrite E. unfold py_del. destruct (py_index (length (t_items t)) i) as [k|] eqn:X; [| exact W].
      cbn. rewrite delete_at_length by now apply py_index_lt in X. exact W.
    - destruct W. }
  unfold fires_on. now rewrite (G l (tramp_make items) eq_refl W).
Qed.

(** The same holds for inserts anywhere as long as nothing has been removed. *)
Theorem array_inserts (items : list nat) (l : list top) (r : nat) :
  Forall insert_op l ->
  let t := trun l (tramp_make items) in
  fires_on t r = count_occ Nat.eq_dec (t_items t) r.
Proof.
  intros W. cbv zeta.
  assert (G : forall t, Permutation (t_listen t) (t_items t) -> Permutation (t_listen (trun l t)) (t_items (trun l t))).
  { induction W as [|o l Wo W IH]; intros t P; [exact P |]. cbn [trun fold_left]. fold (trun l). apply IH.
    destruct o as [i x|i|n made]; try destruct Wo. cbn. rewrite <- Permutation_cons_append. unfold py_insert, insert_at.
    rewrite <- Permutation_middle. constructor. now rewrite firstn_skipn. }
  unfold fires_on. apply count_perm, G. apply Permutation_refl.
Qed.

(** Removing an item that exists never fails as long as the items were not loaded from a dict value. *)
Theorem array_remove_ok (items : list nat) (l : list top) (i : Z) :
  (forall n made, ~ In (TLoad n made) l) ->
  let t := trun l (tramp_make items) in
  py_index (length (t_items t)) i <> None -> snd (tstep t (TRemove i)) = Ok tt.
Proof.
  intros W. cbv zeta.
  assert (G : forall l t, (forall n made, ~ In (TLoad n made) l) -> length (t_listen t) = length (t_items t) ->
            length (t_listen (trun l t)) = length (t_items (trun l t))).
  { clear. induction l as [|o l IH]; intros t W E; [exact E |]. cbn [trun fold_left]. fold (trun l). apply IH.
    - intros n made H. apply (W n made). now right.
    - destruct o as [i x|i|n made]; cbn [tstep fst].
      + cbn. unfold py_insert. rewrite insert_at_length, app_length. cbn. lia.
      + unfold py_del. rewrite E. destruct (py_index (length (t_items t)) i) as [k|] eqn:X; [| exact E].
        apply py_index_lt in X. cbn. rewrite !delete_at_length by lia. lia.
      + exfalso. apply (W n made). now left. }
  specialize (G l (tramp_make items) W eq_refl). revert G. generalize (trun l (tramp_make items)). intros t E H.
  cbn. unfold py_del. rewrite E. destruct (py_index (length (t_items t)) i); [reflexivity | congruence].
Qed.

(** FINDING: inserting before the end and then removing disconnects a record that is still contained and leaves a
    removed one connected. *)
Theorem array_insert_remove_refuted :
  let t := trun [TInsert 0 1; TRemove 0] (tramp_make [0]) in
  t_items t = [0] /\ fires_on t 0 = 0 /\ fires_on t 1 = 1.
Proof. repeat split. Qed.

(** FINDING: records that from_dict_value adds have no listener, and removing one raises IndexError after it is gone. *)
Theorem array_load_refuted (items : list nat) (r : nat) :
  let t := trun [TLoad (S (length items)) [r]] (tramp_make items) in
  t_items t = items ++ [r] /\ fires_on t r = count_occ Nat.eq_dec items r /\
  tstep t (TRemove (Z.of_nat (length items))) = (Tramp items items, Err IndexError).
Proof.
  cbv zeta. cbn [trun fold_left tstep fst tramp_make t_items t_listen].
  replace (Nat.leb (S (length items)) (length items)) with false by (symmetry; apply Nat.leb_gt; lia).
  replace (S (length items) - length items) with 1 by lia. cbn [firstn]. split; [reflexivity |]. split; [reflexivity |].
  unfold py_del. cbn [t_items t_listen]. rewrite app_length. cbn [length]. rewrite (py_index_nat (length items + 1) (length items)) by lia.
  rewrite (delete_at_app items [] r), app_nil_r.
  replace (py_index (length items) (Z.of_nat (length items))) with (@None nat); [reflexivity |].
  unfold py_index. destruct (Z.ltb_spec (Z.of_nat (length items)) 0); [lia |].
  rewrite Z.ltb_irrefl, andb_false_r. reflexivity.
Qed.

(** a record with a string, a nested record and an array of records *)
Definition inner_fields : list (string * schema nat * pyval nat) := [("x", SPrim, VNone); ("y", SPrim, VNone)]%string.
Definition outer_fields : list (string * schema nat * pyval nat) :=
  [("name", SPrim, VNone); ("r", SRecord inner_fields, VNone); ("l", SArray (SRecord inner_fields), VNone)]%string.
Definition outer_value : pyval nat :=
  VDict [("l", VList [VDict [("y", VAtom 3)]; VDict [("y", VAtom 5); ("x", VAtom 4)]]); ("r", VDict []); ("name", VAtom 1)]%string.
Example struct_case :
  exists m, build_model (fun _ => true) (SRecord outer_fields) VNone outer_value = Ok m /\ to_dict m = Ok (VDict [("name", VAtom 1); ("r", VDict []); ("l", VList [VDict [("y", VAtom 3)]; VDict [("x", VAtom 4); ("y", VAtom 5)]])]%string).
Proof. eexists. split; reflexivity. Qed.
Local Ltac nodup := cbn; repeat constructor; cbn; intuition discriminate.
Example struct_case_good : good (SRecord outer_fields) /\ conforms false (SRecord outer_fields) outer_value.
Proof.
  assert (G : good (SRecord inner_fields)) by (apply good_fields; split; [nodup | repeat constructor]).
  split.
  - apply good_fields. split; [nodup |]. 
    apply Forall_cons; [split; [reflexivity | exact I] |]. apply Forall_cons; [split; [reflexivity | exact G] |].
    apply Forall_cons; [split; [reflexivity | split; [discriminate | exact G]] | apply Forall_nil].
  - apply conforms_record. eexists. split; [reflexivity |]. split; [nodup |]. split; [cbn; intuition |].
    apply Forall_cons; [discriminate |]. apply Forall_cons; [| apply Forall_cons; [| apply Forall_nil]].
    + apply conforms_record. exists []. split; [reflexivity |]. split; [constructor |]. split; [intros k [] | repeat constructor].
    + apply conforms_array. eexists. split; [reflexivity |].
      repeat apply Forall_cons; try apply Forall_nil; apply conforms_record; eexists; (split; [reflexivity |]);
        (split; [nodup |]); (split; [cbn; intuition |]); repeat constructor; discriminate.
Qed.
Example struct_default_case :
  let fields := [("a", SPrim, VAtom 7); ("b", SPrim, VNone)]%string in
  exists m, build_model (fun _ => true) (SRecord fields) VNone (VDict [("a", VAtom 1); ("b", VAtom 2)]%string) = Ok m /\ to_dict m = Ok (VDict [("a", VAtom 7); ("b", VAtom 2)]%string).
Proof. eexists. split; reflexivity. Qed.
Example struct_copy_case :
  let m := MArray (SRecord inner_fields) [MRecord inner_fields [("x", MField (VAtom 1)); ("y", MField (VAtom 2))]]%string in
  exists t, copy_from (fun _ => true) (MArray (SRecord inner_fields) []) m = Ok t /\ to_dict t = to_dict m.
Proof. eexists. split; reflexivity. Qed.
Example array_case : let t := trun [TInsert 2 7; TInsert 3 8; TRemove 1; TRemove (-1)] (tramp_make [5; 6]) in
  t_items t = [5; 7] /\ map (fires_on t) [5; 6; 7; 8] = [1; 0; 1; 0].
Proof. repeat split. Qed.

Print Assumptions struct_roundtrip.
Print Assumptions struct_deepcopy.
Print Assumptions struct_copy_from.
Print Assumptions struct_default_prim.
Print Assumptions struct_default_field.
Print Assumptions struct_default_deepcopy_refuted.
Print Assumptions struct_default_array.
Print Assumptions struct_default_record.
Print Assumptions struct_float_raises.
Print Assumptions struct_float_record_refuted.
Print Assumptions struct_prim_array_refuted.
Print Assumptions struct_copy_from_none_refuted.
Print Assumptions struct_absent_record_refuted.
Print Assumptions array_appends.
Print Assumptions array_inserts.
Print Assumptions array_remove_ok.
Print Assumptions array_insert_remove_refuted.
Print Assumptions array_load_refuted.
