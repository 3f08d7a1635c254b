(** Proofs about structured models. *)
From Coq Require Import String ZArith Bool List Lia Arith.
From Verif Require Import PyBase Struct_Model Struct_Spec.
Import ListNotations.

Section Proofs.
  Context {A : Type} (truthy : A -> bool).
  Notation pyval := (pyval A). Notation schema := (schema A). Notation model := (model A).
  Notation build := (build truthy).
  Notation field := (string * schema * pyval)%type.

  Section Ind.
    Variable P : schema -> Prop.
    Hypothesis HPrim : P SPrim.
    Hypothesis HBad : P SBad.
    Hypothesis HRec : forall fields, Forall (fun f : field => P (snd (fst f))) fields -> P (SRecord fields).
    Hypothesis HArr : forall it, P it -> P (SArray it).
    Fixpoint schema_ind' (s : schema) : P s :=
      match s with
      | SPrim => HPrim
      | SBad => HBad
      | SRecord fields => HRec fields
          ((fix go (fs : list field) : Forall (fun f : field => P (snd (fst f))) fs :=
              match fs with
              | [] => Forall_nil _
              | f :: fs' => Forall_cons f (schema_ind' (snd (fst f))) (go fs')
              end) fields)
      | SArray it => HArr it (schema_ind' it)
      end.
  End Ind.

  (** the nested recursions, named *)
  Definition build_fields (values : list (string * pyval)) : list field -> res (list (string * model)) :=
    fix go (fs : list field) : res (list (string * model)) :=
    match fs with
    | [] => Ok []
    | (n, t, d) :: fs' =>
        match build true t d (get_or_none n values) with
        | Err e => Err e
        | Ok m => match go fs' with Err e => Err e | Ok ms => Ok ((n, m) :: ms) end
        end
    end.
  Definition build_items (it : schema) : list pyval -> res (list model) :=
    fix go (l : list pyval) : res (list model) :=
    match l with
    | [] => Ok []
    | v :: l' => match build false it VNone v with
                 | Err e => Err e
                 | Ok m => match go l' with Err e => Err e | Ok ms => Ok (m :: ms) end
                 end
    end.
  Lemma build_record b fields d v : build b (SRecord fields) d v =
    match (if b then merged truthy d v else as_dict truthy v) with
    | Err e => Err e
    | Ok values => match build_fields values fields with Err e => Err e | Ok ms => Ok (MRecord fields (of_pairs ms)) end
    end.
  Proof. destruct b; reflexivity. Qed.
  Lemma build_array b it d v : build b (SArray it) d v =
    match (if b then (if is_none v then d else v) else v) with
    | VNone => Ok (MArray it [])
    | VList l => match build_items it l with Err e => Err e | Ok ms => Ok (MArray it ms) end
    | _ => Err TypeError
    end.
  Proof. destruct b; reflexivity. Qed.
  Fixpoint to_dicts (l : list model) : res (list pyval) :=
    match l with
    | [] => Ok []
    | m :: l' => match to_dict m with
                 | Err e => Err e
                 | Ok v => match to_dicts l' with Err e => Err e | Ok vs => Ok (v :: vs) end
                 end
    end.
  Lemma to_dict_array it items : to_dict (MArray it items) = match to_dicts items with Err e => Err e | Ok vs => Ok (VList vs) end.
  Proof. reflexivity. Qed.

  Lemma good_fields (fields : list field) : good (SRecord fields) <->
    NoDup (map field_name fields) /\ Forall (fun f : field => snd f = VNone /\ good (snd (fst f))) fields.
  Proof.
    cbn [good]. split; intros [N H]; (split; [exact N |]); clear N; induction fields as [|[[n t] d] fs IH]; auto.
    - destruct H as [H1 H2]. constructor; [exact H1 | apply IH; exact H2].
    - inversion H; subst. split; [assumption | apply IH; assumption].
  Qed.
  Definition field_conforms (full : bool) (d : list (string * pyval)) (f : field) : Prop :=
    match dict_get string_dec (field_name f) d with Some x => conforms full (snd (fst f)) x | None => full = false /\ snd (fst f) = SPrim end.
  Lemma conforms_record full (fields : list field) v : conforms full (SRecord fields) v <->
    exists d, v = VDict d /\ NoDup (map fst d) /\ (forall k, In k (map fst d) -> In k (map field_name fields)) /\ Forall (field_conforms full d) fields.
  Proof.
    cbn [conforms]. split; intros (d & E & N & K & H); exists d; (split; [exact E |]); (split; [exact N |]); (split; [exact K |]); clear K;
      induction fields as [|[[n t] d'] fs IH]; auto.
    - destruct H as [H1 H2]. constructor; [exact H1 | apply IH; exact H2].
    - inversion H; subst. split; [assumption | apply IH; assumption].
  Qed.
  Lemma conforms_array full (it : schema) v : conforms full (SArray it) v <-> exists l, v = VList l /\ Forall (conforms full it) l.
  Proof.
    assert (G : forall l, (fix all (l : list pyval) : Prop := match l with [] => True | x :: l' => conforms full it x /\ all l' end) l <-> Forall (conforms full it) l).
    { induction l as [|x l IH]; [split; [constructor | trivial] |].
      split; [intros [H1 H2]; constructor; [exact H1 | now apply IH] | intros H; inversion H; subst; split; [assumption | now apply IH]]. }
    cbn [conforms]. split; intros (l & E & H); exists l; (split; [exact E |]); now apply G.
  Qed.
  Definition field_typed (ms : list (string * model)) (f : field) : Prop :=
    match dict_get string_dec (field_name f) ms with Some x => typed (snd (fst f)) x | None => False end.
  Lemma typed_record (fields : list field) m : typed (SRecord fields) m <->
    exists ms, m = MRecord fields ms /\ map fst ms = map field_name fields /\ Forall (field_typed ms) fields.
  Proof.
    assert (G : forall ms fs, (fix all (fs : list field) : Prop := match fs with [] => True | (n, t, _) :: fs' => match dict_get string_dec n ms with Some x => typed t x | None => False end /\ all fs' end) fs <-> Forall (field_typed ms) fs).
    { intros ms. induction fs as [|[[n t] d] fs IH]; [split; [constructor | trivial] |].
      split; [intros [H1 H2]; constructor; [exact H1 | now apply IH] | intros H; inversion H; subst; split; [assumption | now apply IH]]. }
    cbn [typed]. split; intros (ms & E & K & H); exists ms; (split; [exact E |]); (split; [exact K |]); now apply G.
  Qed.
  Lemma typed_array (it : schema) m : typed (SArray it) m <-> exists l, m = MArray it l /\ Forall (typed it) l.
  Proof.
    assert (G : forall l, (fix all (l : list model) : Prop := match l with [] => True | x :: l' => typed it x /\ all l' end) l <-> Forall (typed it) l).
    { induction l as [|x l IH]; [split; [constructor | trivial] |].
      split; [intros [H1 H2]; constructor; [exact H1 | now apply IH] | intros H; inversion H; subst; split; [assumption | now apply IH]]. }
    cbn [typed]. split; intros (l & E & H); exists l; (split; [exact E |]); now apply G.
  Qed.

  (** dicts *)
  Lemma fold_set_get {X} (l : list (string * X)) : forall d k,
    dict_get string_dec k (fold_left (fun d p => dict_set string_dec (fst p) (snd p) d) l d) =
    match dict_get string_dec k (rev l) with Some x => Some x | None => dict_get string_dec k d end.
  Proof.
    induction l as [|[n x] l IH] using rev_ind; intros d k; [reflexivity |].
    rewrite fold_left_app, rev_app_distr. cbn. rewrite dict_get_set, IH. now destruct (string_dec k n).
  Qed.
  Lemma get_rev {X} (l : list (string * X)) k : NoDup (map fst l) -> dict_get string_dec k (rev l) = dict_get string_dec k l.
  Proof.
    intros N. destruct (dict_get string_dec k l) as [x|] eqn:E.
    - apply dict_in_get; [rewrite map_rev; now apply NoDup_rev |]. rewrite <- in_rev. eapply dict_get_in; eauto.
    - apply dict_get_none. apply dict_get_none in E. rewrite map_rev, <- in_rev. exact E.
  Qed.
  Lemma of_pairs_get {X} (l : list (string * X)) k : NoDup (map fst l) -> dict_get string_dec k (of_pairs l) = dict_get string_dec k l.
  Proof. intros N. unfold of_pairs. rewrite fold_set_get, (get_rev l k N). now destruct (dict_get string_dec k l). Qed.
  Lemma of_pairs_id {X} (l : list (string * X)) : NoDup (map fst l) -> of_pairs l = l.
  Proof.
    intros N. unfold of_pairs.
    assert (S : forall (d : list (string * X)) k x, ~ In k (map fst d) -> dict_set string_dec k x d = d ++ [(k, x)]).
    { induction d as [|[k' x'] d IH]; intros k x H; [reflexivity |]. cbn in *. destruct (string_dec k k'); [subst; tauto |]. rewrite IH; tauto. }
    assert (G : forall (l d : list (string * X)), NoDup (map fst (d ++ l)) -> fold_left (fun d p => dict_set string_dec (fst p) (snd p) d) l d = d ++ l).
    { clear l N. induction l as [|[k x] l IH]; intros d N; [now rewrite app_nil_r |]. cbn.
      rewrite S. - rewrite IH; [now rewrite <- app_assoc | now rewrite <- app_assoc].
      - rewrite map_app in N. apply NoDup_remove_2 in N. rewrite in_app_iff in N. tauto. }
    apply (G l []). exact N.
  Qed.
  Lemma build_fields_names values fs ms : build_fields values fs = Ok ms -> map fst ms = map field_name fs.
  Proof.
    revert ms. induction fs as [|[[n t] d] fs IH]; intros ms E; cbn in E; [injection E as <-; reflexivity |].
    fold (build_fields values) in E.
    destruct (build true t d (get_or_none n values)); [| discriminate]. destruct (build_fields values fs); [| discriminate].
    injection E as <-. cbn. f_equal. now apply IH.
  Qed.

  (** the fields' values, collected *)
  Lemma collect_spec (fs : list field) : forall vals acc, NoDup (map field_name fs) ->
    (forall f, In f fs -> exists v, sget (field_name f) vals = Some (Ok v)) ->
    exists d, collect fs vals acc = Ok (VDict d) /\
      (NoDup (map fst acc) -> NoDup (map fst d)) /\
      (forall k, dict_get string_dec k d =
         if in_dec string_dec k (map field_name fs)
         then match sget k vals with Some (Ok v) => if is_none v then dict_get string_dec k acc else Some v | _ => None end
         else dict_get string_dec k acc).
  Proof.
    induction fs as [|[[n t] df] fs IH]; intros vals acc N H.
    { exists acc. split; [reflexivity |]. split; [auto |]. intros k. reflexivity. }
    inversion N as [|? ? Nn Nf]; subst. cbn [collect].
    destruct (H (n, t, df) (or_introl eq_refl)) as (v & V). unfold field_name at 1 in V. cbn in V. rewrite V.
    destruct (IH vals (if is_none v then acc else dict_set string_dec n v acc) Nf) as (d & E & ND & G).
    { intros f I. apply H. now right. }
    exists d. split; [exact E |]. split.
    { intros NA. apply ND. destruct (is_none v); [exact NA | now apply dict_set_nodup]. }
    intros k. rewrite G. change (map field_name ((n, t, df) :: fs)) with (n :: map field_name fs).
    destruct (in_dec string_dec k (map field_name fs)) as [I|I]; destruct (in_dec string_dec k (n :: map field_name fs)) as [J|J].
    - assert (k <> n) by (intros ->; tauto). destruct (sget k vals) as [[x|]|]; auto. destruct (is_none x); auto.
      destruct (is_none v); auto. rewrite dict_get_set. destruct (string_dec k n); [congruence | reflexivity].
    - exfalso. apply J. now right.
    - destruct J as [<- | J]; [| tauto]. rewrite V. destruct (is_none v) eqn:Z; [reflexivity |]. rewrite dict_get_set.
      destruct (string_dec n n); [reflexivity | congruence].
    - assert (k <> n) by (intros ->; apply J; now left). destruct (is_none v); auto. rewrite dict_get_set.
      destruct (string_dec k n); [congruence | reflexivity].
  Qed.
  Lemma sget_map {X Y} (f : X -> Y) (l : list (string * X)) k :
    sget k (map (fun p => (fst p, f (snd p))) l) = match sget k l with Some x => Some (f x) | None => None end.
  Proof. unfold sget. induction l as [|[n x] l IH]; [reflexivity |]. cbn. destruct (string_dec k n); auto. Qed.
  Lemma is_none_true (v : pyval) : is_none v = true <-> v = VNone.
  Proof. destruct v; cbn; split; congruence. Qed.
  Lemma is_none_false (v : pyval) : is_none v = false <-> v <> VNone.
  Proof. destruct v; cbn; split; congruence. Qed.

  (** to_dict of a typed model gives a value, which conforms unless it is the None of a primitive *)
  Lemma typed_to_dict (s : schema) : good s -> forall m, typed s m ->
    exists d, to_dict m = Ok d /\ (conforms false s d \/ (s = SPrim /\ d = VNone)).
  Proof.
    induction s as [| |fields IH|it IH] using schema_ind'; intros G m T.
    - destruct T as (v & ->). exists v. split; [reflexivity |]. destruct v; cbn; try (left; discriminate). now right.
    - destruct G.
    - apply good_fields in G as [N G]. apply typed_record in T as (ms & -> & K & T).
      rewrite Forall_forall in IH, G, T.
      assert (V : forall f, In f fields -> exists x v, sget (field_name f) ms = Some x /\ to_dict x = Ok v /\ (conforms false (snd (fst f)) v \/ (snd (fst f) = SPrim /\ v = VNone))).
      { intros f I. specialize (T f I). unfold field_typed in T. unfold sget. destruct (dict_get string_dec (field_name f) ms) as [x|]; [| destruct T].
        destruct (IH f I (proj2 (G f I)) x T) as (v & E & C). eauto. }
      destruct (collect_spec fields (map (fun p => (fst p, to_dict (snd p))) ms) [] N) as (d & E & ND & D).
      { intros f I. destruct (V f I) as (x & v & X & Y & _). exists v. rewrite sget_map, X. now rewrite Y. }
      exists (VDict d). split; [exact E |]. left. apply conforms_record. exists d. split; [reflexivity |]. split; [apply ND; constructor |]. split.
      + intros k I. destruct (in_dec string_dec k (map field_name fields)) as [J|J]; [exact J |]. exfalso.
        specialize (D k). destruct (in_dec string_dec k (map field_name fields)); [tauto |]. apply dict_get_none in D. tauto.
      + rewrite Forall_forall. intros f I. unfold field_conforms. rewrite D.
        destruct (in_dec string_dec (field_name f) (map field_name fields)) as [J|J]; [| exfalso; apply J; now apply in_map].
        destruct (V f I) as (x & v & X & Y & C). rewrite sget_map, X, Y. destruct (is_none v) eqn:Z.
        * apply is_none_true in Z. subst v. cbn. destruct C as [C | [C _]]; [| auto].
          destruct (snd (fst f)); cbn in C; try tauto; try (destruct C as (? & C & _); discriminate).
        * destruct C as [C | [_ C]]; [exact C | subst v; discriminate].
    - destruct G as [NP G]. apply typed_array in T as (l & -> & T). rewrite to_dict_array.
      assert (X : exists vs, to_dicts l = Ok vs /\ Forall (conforms false it) vs).
      { induction T as [|x l Tx T IHl]; [exists []; split; [reflexivity | constructor] |].
        destruct (IH G x Tx) as (v & E & C). destruct IHl as (vs & Es & Cs). cbn. rewrite E, Es. exists (v :: vs). split; [reflexivity |].
        constructor; [| exact Cs]. destruct C as [C | [C ->]]; [exact C |]. subst it. 
        congruence. }
      destruct X as (vs & E & C). rewrite E. exists (VList vs). split; [reflexivity |]. left. apply conforms_array. eauto.
  Qed.

  Lemma pyeq_none (d v : pyval) : pyeq d v -> v <> VNone -> is_none d = false.
  Proof. intros E N. apply is_none_false. intros ->. inversion E; subst; congruence. Qed.
  Lemma conforms_not_none full (s : schema) v : conforms full s v -> v <> VNone.
  Proof. destruct s; cbn; intros H E; subst; try tauto; destruct H as (? & H & _); discriminate. Qed.

  Lemma build_fields_ok values (Q : field -> model -> Prop) fields : NoDup (map field_name fields) ->
    Forall (fun f : field => exists m, build true (snd (fst f)) (snd f) (get_or_none (field_name f) values) = Ok m /\ Q f m) fields ->
    exists ms, build_fields values fields = Ok ms /\ map fst ms = map field_name fields /\
      forall f, In f fields -> exists m, dict_get string_dec (field_name f) ms = Some m /\ Q f m.
  Proof.
    intros N H. induction H as [|[[n t] d] fs (m & E & q) H IH].
    { exists []. repeat split. intros f []. }
    inversion N as [|? ? Nn Nf]; subst. destruct (IH Nf) as (ms & Es & K & G).
    exists ((n, m) :: ms). cbn in E |- *. rewrite E. fold (build_fields values). rewrite Es. split; [reflexivity |].
    split; [cbn; now rewrite K |]. intros f [<- | I]; cbn [dict_get].
    - exists m. change (field_name (n, t, d)) with n. destruct (string_dec n n) as [_|X]; [split; [reflexivity | exact q] | now destruct X].
    - destruct (string_dec (field_name f) n) as [X|X]; [| now apply G].
      exfalso. apply Nn. change (field_name (n, t, d)) with n. rewrite <- X. now apply in_map.
  Qed.

  (** a model built without a value *)
  Lemma build_none (s : schema) : good s -> forall b, (b = true \/ s <> SPrim) -> exists m, build b s VNone VNone = Ok m /\ typed s m.
  Proof.
    induction s as [| |fields IH|it IH] using schema_ind'; intros G b B.
    - destruct b; [| destruct B; congruence]. exists (MField VNone). split; [reflexivity | now exists VNone].
    - destruct G.
    - pose proof G as G0. apply good_fields in G as [N G]. rewrite build_record.
      replace (if b then merged truthy VNone VNone else as_dict truthy VNone) with (@Ok (list (string * pyval)) []) by now destruct b.
      destruct (build_fields_ok [] (fun f m => typed (snd (fst f)) m) fields N) as (ms & E & K & F).
      { rewrite Forall_forall in *. intros f I. destruct (G f I) as [D Gf]. rewrite D. apply (IH f I Gf true). now left. }
      rewrite E. exists (MRecord fields (of_pairs ms)). split; [reflexivity |].
      rewrite of_pairs_id by now rewrite K. apply typed_record. exists ms. repeat split; auto.
      rewrite Forall_forall. intros f I. destruct (F f I) as (m & X & T). unfold field_typed. now rewrite X.
    - rewrite build_array. exists (MArray it []). split; [now destruct b |]. apply typed_array. exists []. auto.
  Qed.

  (** the record's dict, from its fields' *)
  Lemma record_dict (fields : list field) (ms : list (string * model)) (dv : list (string * pyval)) : NoDup (map field_name fields) ->
    (forall k, In k (map fst dv) -> In k (map field_name fields)) ->
    (forall f, In f fields -> exists m, dict_get string_dec (field_name f) ms = Some m /\
       match dict_get string_dec (field_name f) dv with
       | Some x => x <> VNone /\ exists d, to_dict m = Ok d /\ pyeq d x
       | None => to_dict m = Ok VNone end) ->
    exists d, to_dict (MRecord fields ms) = Ok d /\ pyeq d (VDict dv).
  Proof.
    intros N K F.
    destruct (collect_spec fields (map (fun p => (fst p, to_dict (snd p))) ms) [] N) as (d & E & _ & D).
    { intros f I. destruct (F f I) as (m & X & Y). rewrite sget_map. unfold sget at 1. rewrite X.
      destruct (dict_get string_dec (field_name f) dv) as [x|]; [destruct Y as (_ & d & -> & _) | rewrite Y]; eauto. }
    exists (VDict d). split; [exact E |]. apply pyeq_dict.
    - intros k v1 H. rewrite D in H. destruct (in_dec string_dec k (map field_name fields)) as [I|I]; [| discriminate].
      apply in_map_iff in I as (f & <- & I). destruct (F f I) as (m & X & Y). rewrite sget_map in H. unfold sget in H. rewrite X in H.
      destruct (dict_get string_dec (field_name f) dv) as [x|].
      + destruct Y as (NX & dx & Y & Z). rewrite Y in H. rewrite (pyeq_none dx x Z NX) in H. injection H as <-. eauto.
      + rewrite Y in H. discriminate.
    - intros k H. rewrite D in H. destruct (in_dec string_dec k (map field_name fields)) as [I|I].
      + apply in_map_iff in I as (f & <- & I). destruct (F f I) as (m & X & Y). rewrite sget_map in H. unfold sget in H. rewrite X in H.
        destruct (dict_get string_dec (field_name f) dv) as [x|]; [| reflexivity].
        destruct Y as (NX & dx & Y & Z). rewrite Y in H. rewrite (pyeq_none dx x Z NX) in H. discriminate.
      + apply dict_get_none. intros J. apply I. now apply K.
  Qed.

  (** a model built from a conforming value *)
  Lemma build_conf full (s : schema) : good s -> forall b v, (b = true \/ s <> SPrim) -> conforms full s v ->
    exists m d, build b s VNone v = Ok m /\ typed s m /\ to_dict m = Ok d /\ pyeq d v.
  Proof.
    induction s as [| |fields IH|it IH] using schema_ind'; intros G b v B C.
    - destruct b; [| destruct B; congruence]. exists (MField v), v. repeat split; [now exists v | constructor].
    - destruct G.
    - apply good_fields in G as [N G]. apply conforms_record in C as (dv & -> & ND & K & C). rewrite build_record.
      replace (if b then merged truthy VNone (VDict dv) else as_dict truthy (VDict dv)) with (Ok dv)
        by (destruct b; [cbn; f_equal; symmetry; now apply of_pairs_id | reflexivity]).
      rewrite Forall_forall in IH, G, C.
      destruct (build_fields_ok dv (fun f m => typed (snd (fst f)) m /\
          match dict_get string_dec (field_name f) dv with
          | Some x => x <> VNone /\ exists d, to_dict m = Ok d /\ pyeq d x
          | None => to_dict m = Ok VNone end) fields N) as (ms & E & KK & F).
      { rewrite Forall_forall. intros f I. destruct (G f I) as [D Gf]. rewrite D. specialize (C f I). unfold field_conforms in C.
        unfold get_or_none, sget. destruct (dict_get string_dec (field_name f) dv) as [x|].
        - destruct (IH f I Gf true x (or_introl eq_refl) C) as (m & d & X & T & Y & Z). exists m. split; [exact X |]. split; [exact T |].
          split; [eapply conforms_not_none; exact C | eauto].
        - destruct C as [_ ->]. exists (MField VNone). repeat split. now exists VNone. }
      rewrite E. rewrite of_pairs_id by now rewrite KK.
      destruct (record_dict fields ms dv N K) as (d & X & Y).
      { intros f I. destruct (F f I) as (m & M & _ & R). eauto. }
      exists (MRecord fields ms), d. repeat split; auto. apply typed_record. exists ms. repeat split; auto.
      rewrite Forall_forall. intros f I. destruct (F f I) as (m & M & T & _). unfold field_typed. now rewrite M.
    - destruct G as [NP G]. apply conforms_array in C as (l & -> & C). rewrite build_array.
      replace (if b then if is_none (VList l) then VNone else VList l else VList l) with (VList l) by now destruct b.
      assert (X : exists ms ds, build_items it l = Ok ms /\ Forall (typed it) ms /\ to_dicts ms = Ok ds /\ Forall2 pyeq ds l).
      { induction C as [|v l Cv C IHl]; [exists [], []; repeat split; constructor |].
        destruct (IH G false v (or_intror NP) Cv) as (m & d & E & T & D & Q). destruct IHl as (ms & ds & Es & Ts & Ds & Qs).
        exists (m :: ms), (d :: ds). cbn. rewrite E. fold (build_items it). rewrite Es, D, Ds. repeat split; constructor; auto. }
      destruct X as (ms & ds & E & T & D & Q). rewrite E. exists (MArray it ms), (VList ds). rewrite to_dict_array, D. repeat split.
      + apply typed_array. eauto.
      + now constructor.
  Qed.

  (** from_dict *)
  Definition from_fields (fs : list (string * (model -> res model))) : list (string * model) -> res (list (string * model)) :=
    fix go (l : list (string * model)) : res (list (string * model)) :=
      match l with
      | [] => Ok []
      | (k, mk) :: l' =>
          match (match sget k fs with Some f => f mk | None => Ok mk end) with
          | Err e => Err e
          | Ok mk' => match go l' with Err e => Err e | Ok r => Ok ((k, mk') :: r) end
          end
      end.
  Fixpoint from_items (fs : list (model -> res model)) (ms : list model) : res (list model) :=
    match fs, ms with
    | f :: fs', m :: ms' =>
        match f m with
        | Err e => Err e
        | Ok m' => match from_items fs' ms' with Err e => Err e | Ok r => Ok (m' :: r) end
        end
    | _, _ => Ok ms
    end.
  Lemma from_dict_record d fields ms : from_dict truthy (VDict d) (MRecord fields ms) =
    match from_fields (map (fun p => (fst p, from_dict truthy (snd p))) d) ms with Err e => Err e | Ok r => Ok (MRecord fields r) end.
  Proof. reflexivity. Qed.
  Lemma from_dict_array l it ms : from_dict truthy (VList l) (MArray it ms) =
    match resize truthy it (length l) ms with
    | Err e => Err e
    | Ok ms' => match from_items (map (from_dict truthy) l) ms' with Err e => Err e | Ok r => Ok (MArray it r) end
    end.
  Proof. reflexivity. Qed.
  Lemma from_fields_ok fs (Q : string -> model -> Prop) ms :
    Forall (fun p => exists m', match sget (fst p) fs with Some f => f (snd p) | None => Ok (snd p) end = Ok m' /\ Q (fst p) m') ms ->
    exists r, from_fields fs ms = Ok r /\ map fst r = map fst ms /\
      forall k m, dict_get string_dec k r = Some m -> Q k m.
  Proof.
    induction 1 as [|[k m] ms (m' & E & q) H (r & Er & K & F)]; [exists []; repeat split; discriminate |].
    exists ((k, m') :: r). cbn in E |- *. rewrite E. fold (from_fields fs). rewrite Er. split; [reflexivity |]. cbn. rewrite K. split; [reflexivity |].
    intros k0 m0. destruct (string_dec k0 k) as [->|]; [intros [= <-]; exact q | apply F].
  Qed.

  Lemma from_dict_conf (s : schema) : good s -> forall v t, typed s t -> conforms true s v ->
    exists t' d, from_dict truthy v t = Ok t' /\ typed s t' /\ to_dict t' = Ok d /\ pyeq d v.
  Proof.
    induction s as [| |fields IH|it IH] using schema_ind'; intros G v t T C.
    - destruct T as (w & ->). exists (MField v), v. repeat split; [destruct v; reflexivity | now exists v | constructor].
    - destruct G.
    - apply good_fields in G as [N G]. apply conforms_record in C as (dv & -> & ND & K & C). apply typed_record in T as (ms & -> & KM & T).
      rewrite from_dict_record. rewrite Forall_forall in IH, G, C, T.
      destruct (from_fields_ok (map (fun p => (fst p, from_dict truthy (snd p))) dv)
         (fun k m' => forall f, In f fields -> field_name f = k -> typed (snd (fst f)) m' /\
            exists x d, dict_get string_dec k dv = Some x /\ x <> VNone /\ to_dict m' = Ok d /\ pyeq d x) ms) as (r & E & KR & F).
      { rewrite Forall_forall. intros [k m] I. cbn [fst snd].
        assert (J : In k (map field_name fields)) by (rewrite <- KM; apply (in_map fst) in I; exact I).
        apply in_map_iff in J as (f & <- & J).
        assert (M : dict_get string_dec (field_name f) ms = Some m) by (apply dict_in_get; [now rewrite KM | exact I]).
        specialize (T f J). unfold field_typed in T. rewrite M in T. specialize (C f J). unfold field_conforms in C.
        rewrite sget_map. unfold sget. destruct (dict_get string_dec (field_name f) dv) as [x|]; [| destruct C; discriminate].
        destruct (IH f J (proj2 (G f J)) x m T C) as (m' & d & X & T' & Y & Z). exists m'. split; [exact X |].
        intros f' J' EQ. assert (f' = f) as ->.
        { clear -N J J' EQ. induction fields as [|g fs IHf]; [destruct J |]. inversion N; subst.
          destruct J as [<- | J], J' as [<- | J']; auto.
          - exfalso. match goal with H : ~ In _ _ |- _ => apply H end. rewrite <- EQ. now apply in_map.
          - exfalso. match goal with H : ~ In _ _ |- _ => apply H end. rewrite EQ. now apply in_map. }
        split; [exact T' |]. exists x, d. split; [reflexivity |]. split; [eapply conforms_not_none; exact C | auto]. }
      rewrite E.
      assert (R : forall f, In f fields -> exists m, dict_get string_dec (field_name f) r = Some m).
      { intros f I. destruct (dict_get string_dec (field_name f) r) eqn:Z; [eauto |]. apply dict_get_none in Z.
        exfalso. apply Z. rewrite KR, KM. now apply in_map. }
      destruct (record_dict fields r dv N K) as (d & X & Y).
      { intros f I. destruct (R f I) as (m & M). exists m. split; [exact M |].
        destruct (F _ _ M f I eq_refl) as (_ & x & d & -> & NX & D & Q). eauto. }
      exists (MRecord fields r), d. repeat split; auto. apply typed_record. exists r. repeat split; [now rewrite KR |].
      rewrite Forall_forall. intros f I. destruct (R f I) as (m & M). unfold field_typed. rewrite M. apply (F _ _ M f I eq_refl).
    - destruct G as [NP G]. apply conforms_array in C as (l & -> & C). apply typed_array in T as (ms & -> & T).
      rewrite from_dict_array.
      assert (S : exists ms', resize truthy it (length l) ms = Ok ms' /\ length ms' = length l /\ Forall (typed it) ms').
      { unfold resize. destruct (Nat.leb_spec (length l) (length ms)) as [L|L].
        - exists (firstn (length l) ms). split; [reflexivity |]. split; [rewrite firstn_length; lia |].
          rewrite <- (firstn_skipn (length l) ms) in T. apply Forall_app in T. tauto.
        - unfold build_value. destruct (build_none it G false (or_intror NP)) as (m & -> & Tm). eexists. split; [reflexivity |].
          split; [rewrite app_length, repeat_length; lia |]. apply Forall_app. split; [exact T |].
          rewrite Forall_forall. intros x X. apply repeat_spec in X. now subst. }
      destruct S as (ms' & -> & L & T'). clear T ms.
      assert (X : exists r ds, from_items (map (from_dict truthy) l) ms' = Ok r /\ Forall (typed it) r /\ to_dicts r = Ok ds /\ Forall2 pyeq ds l).
      { revert ms' L T'. induction C as [|v l Cv C IHl]; intros [|m ms'] L T'; try discriminate L.
        - exists [], []. repeat split; constructor.
        - inversion T'; subst. destruct (IH G v m ltac:(assumption) Cv) as (m' & d & E & Tm & D & Q).
          destruct (IHl ms' ltac:(now injection L) ltac:(assumption)) as (r & ds & Er & Tr & Dr & Qr).
          exists (m' :: r), (d :: ds). cbn. rewrite E, Er, D, Dr. repeat split; constructor; auto. }
      destruct X as (r & ds & E & T & D & Q). rewrite E. exists (MArray it r), (VList ds). rewrite to_dict_array, D. repeat split.
      + apply typed_array. eauto.
      + now constructor.
  Qed.
End Proofs.
