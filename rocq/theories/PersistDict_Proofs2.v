(** Proofs for PersistDict_Props: reading back, copying, storing. *)
From Coq Require Import String ZArith Bool List Lia.
From Verif Require Import PyBase PersistDict_Model PersistDict_Spec PersistDict_Proofs.
Import ListNotations.

Section Trees.
  Context {V U M : Type}.
  Definition opt_all {X} (P : X -> Prop) (o : option X) : Prop := match o with Some x => P x | None => True end.
  Lemma obj_deep (P : obj V U M -> Prop) :
    (forall c u m ps is rs, all1 (opt_all P) is -> all1 (all1 P) rs -> P (Obj c u m ps is rs)) -> forall o, P o.
  Proof.
    intros H. fix IH 1. intros [c u m ps is rs]. apply H.
    - induction is as [|[x|] is IHis]; simpl; auto.
    - induction rs as [|l rs IHrs]; simpl; [exact I|]. split; [|exact IHrs]. clear IHrs.
      induction l as [|x l IHl]; simpl; auto.
  Qed.
End Trees.

Section Read.
  Context {A V U M : Type}.
  Variable truthy : A -> bool.
  Variable ustr : U -> json A.
  Variable uparse : json A -> res U.
  Variable mparse : json A -> res M.
  Variable fresh : U.
  Variable now : M.
  Variable class : nat -> classdef A V.
  Notation write := (@write A V U M ustr class).
  Notation read := (@read A V U M truthy uparse mparse fresh now class).
  Notation reader := (@reader A V U M).
  Hypothesis uuid_back : forall u, uparse (ustr u) = Ok u.

  Definition item_reader (j : json A) : reader := (j, read j).
  Definition list_reader (j : json A) : option (list reader) := match j with JList l => Some (map item_reader l) | _ => None end.
  Lemma read_eq d c :
    read (JDict d) c =
    match (match dget "uuid" d with Some x => uparse x | None => Ok fresh end) with
    | Err e => Err e
    | Ok u =>
        match (match dget "modified" d with Some x => mparse x | None => Ok now end) with
        | Err e => Err e
        | Ok m =>
            match read_items truthy (k_items (class c)) (map (fun x => (fst x, item_reader (snd x))) d) with
            | Err e => Err e
            | Ok is =>
                match read_rels (k_rels (class c)) (map (fun x => (fst x, list_reader (snd x))) d) with
                | Err e => Err e
                | Ok rs => Ok (Obj c u m (map (fun p => read_prop d p (p_default p)) (k_props (class c))) is rs)
                end
            end
        end
    end.
  Proof. reflexivity. Qed.

  Lemma read_items_ok items xs (sub : list (string * reader)) :
    all2 (fun i x => match x with
                     | None => dict_get string_dec (i_name i) sub = None
                     | Some o => exists r, dict_get string_dec (i_name i) sub = Some r /\ truth truthy (fst r) = true /\ read_with (i_factory i) r = Ok o
                     end) items xs ->
    read_items truthy items sub = Ok xs.
  Proof.
    revert xs. induction items as [|i items IH]; intros [|x xs]; simpl all2; try tauto. intros [Hx H]. cbn [read_items].
    rewrite (IH _ H). destruct x as [o|].
    - destruct Hx as (r & -> & -> & ->). reflexivity.
    - rewrite Hx. reflexivity.
  Qed.
  Lemma all_ok_all {X Y} (f : X -> res Y) l ys : all2 (fun x y => f x = Ok y) l ys -> all_ok (map f l) = Ok ys.
  Proof.
    revert ys. induction l as [|x l IH]; intros [|y ys]; simpl; try tauto. intros [-> H]. rewrite (IH _ H). reflexivity.
  Qed.
  Lemma read_rels_ok rels xs (sub : list (string * option (list reader))) :
    all2 (fun r x => exists rs, dict_get string_dec (r_key r) sub = Some (Some rs) /\ all2 (fun q o => read_with (r_factory r) q = Ok o) rs x) rels xs ->
    read_rels rels sub = Ok xs.
  Proof.
    revert xs. induction rels as [|i rels IH]; intros [|x xs]; simpl all2; try tauto. intros [(rs & Hg & Hx) H]. cbn [read_rels].
    rewrite Hg, (all_ok_all _ _ _ Hx), (IH _ H). reflexivity.
  Qed.

  Lemma prop_back (p : propdef A V) v d :
    prop_ok p v -> puts p v (dget (p_key p) d) -> comes_back p v (read_prop d p (p_default p)).
  Proof.
    unfold prop_ok, puts, comes_back, read_prop, unwritten, written, set_value. intros [Hv Hk] Hp.
    destruct (p_kind p) as [get set|wr rd|w r].
    - rewrite Hp. destruct (get v) eqn:E; [left; auto|right|right|right]; (split; [congruence|]); rewrite Hk by congruence; exact Hv.
    - rewrite Hp. destruct v as [x|]; simpl; [|left; auto]. right. split; [congruence|]. rewrite (Hk x eq_refl). exact Hv.
    - destruct Hk as (j & Hw & Hr). assert (Hrd : r d = v).
      { apply Hr. specialize (Hp []). rewrite Hw in Hp.
        destruct j as [j|], (dget (p_key p) d) as [j'|]; cbn in Hp; congruence. }
      rewrite Hrd. destruct v; [right|left]; auto. split; [congruence|]. exact Hv.
  Qed.
  Lemma prop_ok_puts (p : propdef A V) v : prop_ok p v -> exists j, puts p v j.
  Proof.
    unfold prop_ok, puts. intros [_ H]. destruct (p_kind p); [eauto|eauto|]. destruct H as (j & H & _). eauto.
  Qed.
  Definition maps_to (o : obj V U M) : Prop :=
    exists d o', write o = Ok d /\ holds ustr class d o /\ read (JDict d) (o_cls o) = Ok o' /\ like class eq comes_back o o' /\ o_modified o' = now.
  Lemma holds_type d (o : obj V U M) : holds ustr class d o -> dget "type" d = k_type (class (o_cls o)).
  Proof. destruct o. simpl. tauto. Qed.
  Lemma holds_true d (o : obj V U M) : holds ustr class d o -> truth truthy (JDict d) = true.
  Proof. destruct o. simpl. intros (_ & H & _). destruct d; [discriminate H|reflexivity]. Qed.
  (** what is below an object comes back *)
  Lemma read_with_back factory (x : obj V U M) d o' :
    makes class factory x -> holds ustr class d x -> read (JDict d) (o_cls x) = Ok o' ->
    read_with factory (item_reader (JDict d)) = Ok o'.
  Proof. intros Hm Hh Hr. unfold read_with, item_reader. cbn [fst snd]. rewrite (Hm d (holds_type _ _ Hh)). exact Hr. Qed.
  Lemma rel_back factory l :
    all1 (fun x => well class x -> maps_to x) l -> all1 (fun x => makes class factory x /\ well class x) l ->
    exists js, all_ok (map write l) = Ok js /\
      exists os, all2 (fun q o => read_with factory q = Ok o) (map item_reader (map JDict js)) os /\ all2 (like class eq comes_back) l os.
  Proof.
    induction l as [|x l IH]; simpl; [intros _ _; exists []; split; [reflexivity|]; exists []; simpl; auto|].
    intros [Hx Hl] [[Hmk Hw] Hl2]. destruct (Hx Hw) as (d & o' & W & Hh & R & L & _).
    destruct (IH Hl Hl2) as (js & Ejs & os & Hos & Hlike). exists (d :: js). rewrite W, Ejs. split; [reflexivity|].
    exists (o' :: os). split; [|split; assumption]. cbn [map]. split; [|exact Hos]. apply (read_with_back _ _ _ _ Hmk Hh R).
  Qed.
  Lemma rels_back rs rels :
    all1 (all1 (fun x => well class x -> maps_to x)) rs ->
    all2 (fun l r => all1 (fun x => makes class (r_factory r) x /\ well class x) l) rs rels ->
    all2 (fun l r => exists os, exists js, all_ok (map write l) = Ok js /\
       all2 (fun q o => read_with (r_factory r) q = Ok o) (map item_reader (map JDict js)) os /\ all2 (like class eq comes_back) l os) rs rels.
  Proof.
    revert rels. induction rs as [|l rs IH]; intros [|r rels]; simpl; try tauto. intros [H1 H2] [H3 H4]. split; [|auto].
    destruct (rel_back (r_factory r) l H1 H3) as (js & E & os & Ha & Hb). exists os, js. auto.
  Qed.
  Lemma items_back is items :
    all1 (opt_all (fun x => well class x -> maps_to x)) is ->
    all2 (fun x i => match x with Some x => makes class (i_factory i) x /\ well class x | None => True end) is items ->
    all2 (fun x i => exists y : option (obj V U M), match x, y with
       | Some x, Some y => exists d, write x = Ok d /\ holds ustr class d x /\ read_with (i_factory i) (item_reader (JDict d)) = Ok y /\ like class eq comes_back x y
       | None, None => True
       | _, _ => False
       end) is items.
  Proof.
    revert items. induction is as [|x is IH]; intros [|i items]; simpl; try tauto. intros [H1 H2] [H3 H4]. split; [|auto].
    destruct x as [x|]; [|exists None; exact I]. destruct H3 as [Hm Hw]. destruct (H1 Hw) as (d & o' & W & Hh & R & L & _).
    exists (Some o'). exists d. repeat split; auto. apply (read_with_back _ _ _ _ Hm Hh R).
  Qed.
  Lemma round_trip_all o : well class o -> maps_to o.
  Proof.
    induction o as [c u m ps is rs IHi IHr] using obj_deep. intros (Hok & Hps & His & Hrs).
    assert (Bi := items_back _ _ IHi His). assert (Br := rels_back _ _ IHr Hrs).
    destruct (write_holds ustr class c u m ps is rs Hok) as (d & W & Hh).
    { refine (all2_impl _ _ _ _ _ Hps). intros p v. apply prop_ok_puts. }
    { apply all2_flip in Bi. refine (all2_impl _ _ _ _ _ Bi). intros i [x|] [[y|] Hy]; try tauto. destruct Hy as (j & ? & _). eauto. }
    { apply all2_flip in Br. refine (all2_impl _ _ _ _ _ Br). intros r l (os & js & H & _). eauto. }
    apply all2_choose in Bi. destruct Bi as [is' Bi]. apply all2_choose in Br. destruct Br as [rs' Br].
    exists d, (Obj c u now (map (fun p => read_prop d p (p_default p)) (k_props (class c))) is' rs').
    split; [exact W|]. split; [exact Hh|].
    destruct Hh as (Ht & Hu & Hm & Hp & Hi & Hr).
    split; [|split; [|reflexivity]].
    - cbn [o_cls]. rewrite read_eq, Hu, Hm, uuid_back.
      rewrite (read_items_ok _ is').
      + rewrite (read_rels_ok _ rs'); [reflexivity|].
        clear - Br Hr. revert Br Hr. generalize (k_rels (class c)). intros rels. revert rs rs'.
        induction rels as [|r rels IH]; intros [|l rs] [|os rs']; simpl; try tauto.
        intros [(js & E & Ha & _) H] [(js' & E' & G) H']. split; [|apply (IH _ _ H H')].
        rewrite E in E'. injection E' as <-. exists (map item_reader (map JDict js)). split; [|exact Ha].
        rewrite dget_map, G. reflexivity.
      + clear - Bi Hi. revert Bi Hi. generalize (k_items (class c)). intros items. revert is is'.
        induction items as [|i items IH]; intros [|x is] [|y is']; simpl; try tauto.
        intros [Hy H] [Hx H']. split; [|apply (IH _ _ H H')].
        destruct x as [x|], y as [y|]; try tauto.
        * destruct Hy as (j & E & Hh & R & _). destruct Hx as (j' & E' & G). rewrite E in E'. injection E' as <-.
          exists (item_reader (JDict j)). rewrite dget_map, G. split; [reflexivity|]. split; [apply (holds_true _ _ Hh)|exact R].
        * rewrite dget_map, Hx. reflexivity.
    - cbn [like]. split; [reflexivity|]. split; [reflexivity|]. split; [|split].
      + assert (Hb := all2_and _ _ _ _ Hps Hp). clear - Hb. revert Hb. generalize (k_props (class c)). intros props. revert ps.
        induction props as [|p props IH]; intros [|v ps]; simpl; try tauto. intros [[H1 H2] H]. split; [|apply IH; exact H].
        apply prop_back; assumption.
      + refine (all3_13 _ _ _ _ _ _ Bi). intros [x|] i [y|]; try tauto. intros (j & _ & _ & _ & L). exact L.
      + refine (all3_13 _ _ _ _ _ _ Br). intros l r os (js & _ & _ & L). exact L.
  Qed.

  Lemma like_impl (Ru : U -> U -> Prop) (P : propdef A V -> option V -> Prop) (R R' : propdef A V -> option V -> option V -> Prop) :
    (forall p v v', P p v -> R p v v' -> R' p v v') ->
    forall o o' : obj V U M, every class P o -> like class Ru R o o' -> like class Ru R' o o'.
  Proof.
    intros HR. induction o as [c u m ps is rs IHi IHr] using obj_deep. intros [c' u' m' ps' is' rs'].
    intros (Ep & Ei & Er) (L1 & L2 & L3 & L4 & L5). cbn [like]. split; [exact L1|]. split; [exact L2|]. split; [|split].
    - revert L3 Ep. clear - HR. generalize (k_props (class c)). intros props. revert ps ps'.
      induction props as [|p props IH]; intros [|v ps] [|v' ps']; simpl; try tauto. intros [H1 H2] [H3 H4]. split; eauto.
    - revert IHi Ei L4. clear. revert is'. induction is as [|x is IH]; intros [|y is']; simpl; try tauto.
      intros [H1 H2] [H3 H4] [H5 H6]. split; [|auto]. destruct x as [x|], y as [y|]; try tauto. simpl in H1. auto.
    - revert IHr Er L5. clear. revert rs'. induction rs as [|l rs IH]; intros [|l' rs']; simpl; try tauto.
      intros [H1 H2] [H3 H4] [H5 H6]. split; [|auto]. clear - H1 H3 H5. revert l' H1 H3 H5.
      induction l as [|x l IH]; intros [|y l']; simpl; try tauto. intros [H1 H2] [H3 H4] [H5 H6]. split; auto.
  Qed.

  (** ** deep copies *)
  Variable renew : U -> U.
  Notation deepcopy := (@deepcopy A V U M now class renew).
  Definition copy_item (i : option (obj V U M)) : res (option (obj V U M)) :=
    match i with Some x => match deepcopy x with Ok y => Ok (Some y) | Err e => Err e end | None => Ok None end.
  Lemma deepcopy_eq c u m ps is rs :
    deepcopy (Obj c u m ps is rs) =
    if existsb i_hidden (k_items (class c)) then Err AttributeError
    else match all_ok (map copy_item is) with
         | Err e => Err e
         | Ok is' =>
             match all_ok (map (fun l => all_ok (map deepcopy l)) rs) with
             | Err e => Err e
             | Ok rs' => Ok (Obj c (renew u) now (map (fun x => set_value (fst x) (snd x)) (combine (k_props (class c)) ps)) is' rs')
             end
         end.
  Proof. reflexivity. Qed.
  Definition copied (o : obj V U M) : Prop :=
    exists o', deepcopy o = Ok o' /\ like class (fun u u' => u' = renew u) (fun p v v' => v' = p_validate p v) o o' /\ o_modified o' = now.
  Definition has_props (o : obj V U M) : Prop := every class (fun _ _ => True) o.
  Lemma deepcopy_copied o : has_props o -> no_hidden class o -> copied o.
  Proof.
    unfold has_props. induction o as [c u m ps is rs IHi IHr] using obj_deep. intros (Ep & Ei & Er) (Nh & Ni & Nr).
    assert (Hi : exists is', all_ok (map copy_item is) = Ok is' /\
      all2 (fun x y => match x, y with Some x, Some y => like class (fun u u' => u' = renew u) (fun p v v' => v' = p_validate p v) x y | None, None => True | _, _ => False end) is is').
    { apply all_ok_map. revert IHi Ei Ni. clear. induction is as [|x is IH]; simpl; [auto|]. intros [H1 H2] [H3 H4] [H5 H6]. split; [|auto].
      destruct x as [x|]; [|exists None; auto]. destruct (H1 H3 H5) as (y & E & L & _). exists (Some y). simpl. rewrite E. auto. }
    assert (Hr : exists rs', all_ok (map (fun l => all_ok (map deepcopy l)) rs) = Ok rs' /\
      all2 (all2 (like class (fun u u' => u' = renew u) (fun p v v' => v' = p_validate p v))) rs rs').
    { apply all_ok_map. revert IHr Er Nr. clear. induction rs as [|l rs IH]; simpl; [auto|]. intros [H1 H2] [H3 H4] [H5 H6]. split; [|auto].
      apply all_ok_map. revert H1 H3 H5. clear. induction l as [|x l IH]; simpl; [auto|]. intros [H1 H2] [H3 H4] [H5 H6]. split; [|auto].
      destruct (H1 H3 H5) as (y & E & L & _). eauto. }
    destruct Hi as (is' & Ei' & Li). destruct Hr as (rs' & Er' & Lr).
    unfold copied. rewrite deepcopy_eq.
    assert (existsb i_hidden (k_items (class c)) = false) as ->.
    { destruct (existsb i_hidden (k_items (class c))) eqn:E; [|reflexivity]. apply existsb_exists in E. destruct E as (i & Hin & Hh).
      rewrite (Nh i Hin) in Hh. discriminate. }
    rewrite Ei', Er'. eexists. split; [reflexivity|]. split; [|reflexivity]. cbn [like]. repeat split; auto.
    clear - Ep. revert Ep. generalize (k_props (class c)). intros props. revert ps.
    induction props as [|p props IH]; intros [|v ps]; simpl; try tauto. intros [_ H]. split; [reflexivity|auto].
  Qed.
End Read.

Section Store.
  Context {A V : Type}.
  Lemma set_nth_get {X} n (x : X) l m :
    nth_error (set_nth n x l) m = if Nat.eqb m n then match nth_error l n with Some _ => Some x | None => None end else nth_error l m.
  Proof.
    unfold set_nth. destruct (nth_error l n) eqn:E.
    - assert (Hn : n < length l) by (apply nth_error_Some; congruence).
      assert (Hl : length (firstn n l) = n) by (rewrite firstn_length; lia).
      destruct (Nat.eqb_spec m n) as [->|Hne].
      + rewrite nth_error_app2 by lia. rewrite Hl, Nat.sub_diag. reflexivity.
      + destruct (Nat.lt_ge_cases m n) as [Hlt|Hge].
        * rewrite nth_error_app1 by lia. rewrite <- (firstn_skipn n l) at 2. rewrite nth_error_app1 by lia. reflexivity.
        * rewrite nth_error_app2 by lia. rewrite Hl. destruct (m - n) as [|q] eqn:Em; [lia|]. simpl.
          rewrite <- (firstn_skipn (S n) l) at 2. rewrite nth_error_app2 by (rewrite firstn_length; lia).
          f_equal. rewrite firstn_length. lia.
    - destruct (Nat.eqb_spec m n) as [->|]; [exact E|reflexivity].
  Qed.
  Lemma set_nth_length {X} n (x : X) l : length (set_nth n x l) = length l.
  Proof.
    unfold set_nth. destruct (nth_error l n) eqn:E; [|reflexivity]. assert (Hn : n < length l) by (apply nth_error_Some; congruence).
    rewrite app_length. cbn [length]. rewrite firstn_length, skipn_length. lia.
  Qed.
  Lemma write_prop_empty (p : propdef A V) v :
    ~ is_custom p -> write_prop [] (p, v) = match written p v with Some j => [(p_key p, j)] | None => [] end.
  Proof.
    unfold is_custom, write_prop, written. destruct (p_kind p) as [get set|wr rd|w r]; [| |tauto]; intros _.
    - destruct (get v); reflexivity.
    - destruct v; reflexivity.
  Qed.
  Lemma set_prop_dict (k : classdef A V) n p v s :
    nth_error (k_props k) n = Some p -> ~ is_custom p ->
    st_dict (set_prop k n v s) = match written p (p_validate p v) with Some j => dset (p_key p) j (st_dict s) | None => pop (p_name p) (st_dict s) end.
  Proof.
    intros Hn Hc. unfold set_prop. rewrite Hn. cbn [st_dict]. rewrite write_prop_empty by exact Hc. unfold set_value.
    destruct (written p (p_validate p v)); reflexivity.
  Qed.
  Lemma set_prop_nodup (k : classdef A V) n v s :
    (forall p, In p (k_props k) -> ~ is_custom p) ->
    NoDup (map fst (st_dict s)) -> NoDup (map fst (st_dict (set_prop k n v s))).
  Proof.
    intros Hc Hd. destruct (nth_error (k_props k) n) as [p|] eqn:E.
    - rewrite (set_prop_dict k n p v s E) by (apply Hc; apply nth_error_In with n; exact E).
      destruct (written p (p_validate p v)); [apply nodup_dset|apply nodup_pop]; exact Hd.
    - unfold set_prop. rewrite E. exact Hd.
  Qed.
  Lemma NoDup_map_nth {X Y} (f : X -> Y) l n m x y :
    NoDup (map f l) -> nth_error l n = Some x -> nth_error l m = Some y -> f x = f y -> n = m.
  Proof.
    intros Hnd Hx Hy Hf. apply (proj1 (NoDup_nth_error (map f l)) Hnd).
    - rewrite map_length. apply nth_error_Some. congruence.
    - rewrite !nth_error_map, Hx, Hy. simpl. congruence.
  Qed.
  Lemma set_prop_stores (k : classdef A V) n v s :
    NoDup (map p_key (k_props k)) -> (forall p, In p (k_props k) -> p_key p = p_name p /\ ~ is_custom p) ->
    NoDup (map fst (st_dict s)) -> stores k s -> stores k (set_prop k n v s).
  Proof.
    intros Hnd Hk Hd [Hlen Hs].
    destruct (nth_error (k_props k) n) as [p|] eqn:E; [|unfold set_prop; rewrite E; split; assumption].
    assert (Hin : In p (k_props k)) by (apply nth_error_In with n; exact E).
    destruct (Hk p Hin) as [Hpk Hc].
    split; [unfold set_prop; rewrite E; cbn [st_props]; rewrite set_nth_length; exact Hlen|].
    intros m q w Hq Hw. rewrite (set_prop_dict k n p v s E Hc).
    unfold set_prop in Hw. rewrite E in Hw. cbn [st_props] in Hw. rewrite set_nth_get in Hw.
    destruct (Nat.eqb_spec m n) as [->|Hne].
    - rewrite E in Hq. injection Hq as <-. destruct (nth_error (st_props s) n); [|discriminate]. injection Hw as <-. unfold set_value.
      destruct (written p (p_validate p v)) as [j|].
      + rewrite dget_dset. destruct (string_dec (p_key p) (p_key p)); [reflexivity|congruence].
      + rewrite dget_pop by exact Hd. rewrite Hpk. destruct (string_dec (p_name p) (p_name p)); [reflexivity|congruence].
    - assert (Hkey : p_key q <> p_key p) by (intros C; apply Hne; exact (NoDup_map_nth _ _ _ _ _ _ Hnd Hq E C)).
      rewrite <- (Hs m q w Hq Hw). destruct (written p (p_validate p v)) as [j|].
      + rewrite dget_dset. destruct (string_dec (p_key q) (p_key p)); [congruence|reflexivity].
      + rewrite dget_pop by exact Hd. rewrite <- Hpk. destruct (string_dec (p_key q) (p_key p)); [congruence|reflexivity].
  Qed.
  Lemma set_props_stores (k : classdef A V) l s :
    NoDup (map p_key (k_props k)) -> (forall p, In p (k_props k) -> p_key p = p_name p /\ ~ is_custom p) ->
    NoDup (map fst (st_dict s)) -> stores k s -> stores k (set_props k l s).
  Proof.
    intros Hnd Hk. unfold set_props. revert s. induction l as [|[n v] l IH]; intros s Hd Hs; simpl; [exact Hs|].
    apply IH; [apply set_prop_nodup; [intros p Hp; apply Hk; exact Hp|exact Hd]|apply set_prop_stores; assumption].
  Qed.
  Lemma set_props_last (k : classdef A V) n p l s :
    nth_error (k_props k) n = Some p -> (forall q, In q (k_props k) -> p_name q <> p_key p /\ ~ is_custom q) ->
    NoDup (map p_key (k_props k)) -> NoDup (map fst (st_dict s)) ->
    dget (p_key p) (st_dict (set_props k l s)) = last_written n p l (dget (p_key p) (st_dict s)).
  Proof.
    intros E Hk Hnd. unfold set_props. revert s. induction l as [|[m v] l IH]; intros s Hd; [reflexivity|].
    cbn [fold_left fst snd last_written]. rewrite IH by (apply set_prop_nodup; [intros q Hq; apply Hk; exact Hq|exact Hd]). f_equal.
    destruct (nth_error (k_props k) m) as [q|] eqn:Em.
    - destruct (Hk q (nth_error_In _ _ Em)) as [Hname Hc]. rewrite (set_prop_dict k m q v s Em Hc).
      destruct (Nat.eqb_spec m n) as [->|Hne].
      + rewrite E in Em. injection Em as <-. destruct (written p (p_validate p v)) as [j|].
        * rewrite dget_dset. destruct (string_dec (p_key p) (p_key p)); [reflexivity|congruence].
        * rewrite dget_pop by exact Hd. destruct (string_dec (p_key p) (p_name p)); [congruence|reflexivity].
      + assert (Hkey : p_key p <> p_key q) by (intros C; apply Hne; symmetry; exact (NoDup_map_nth _ _ _ _ _ _ Hnd E Em C)).
        destruct (written q (p_validate q v)) as [j|].
        * rewrite dget_dset. destruct (string_dec (p_key p) (p_key q)); [congruence|reflexivity].
        * rewrite dget_pop by exact Hd. destruct (string_dec (p_key p) (p_name q)); [congruence|reflexivity].
    - unfold set_prop. rewrite Em. destruct (Nat.eqb_spec m n) as [->|]; [congruence|reflexivity].
  Qed.
End Store.

Section Mirror.
  Context {A V U M : Type}.
  Variable ustr : U -> json A.
  Variable class : nat -> classdef A V.
  Notation write := (@write A V U M ustr class).
  Lemma write_items_inv items ws d d' :
    length items = length ws -> write_items (combine items ws) d = Ok d' ->
    all2 (fun (i : itemdef A) w => match w with Some (Err _) => False | _ => True end) items ws.
  Proof.
    revert ws d. induction items as [|i items IH]; intros [|w ws] d; simpl; try discriminate; [auto|].
    intros [= Hl]. destruct w as [[j|e]|]; [|discriminate|]; intros H; (split; [exact I|]); eapply IH; eauto.
  Qed.
  Lemma write_rels_inv rels ws d d' :
    length rels = length ws -> write_rels (combine rels ws) d = Ok d' ->
    all2 (fun (r : reldef A) w => exists js, all_ok w = Ok js) rels ws.
  Proof.
    revert ws d. induction rels as [|i rels IH]; intros [|w ws] d; simpl; try discriminate; [auto|].
    intros [= Hl]. destruct (all_ok w) as [js|] eqn:E; [|discriminate]. intros H. split; [eauto|].
    destruct (dget (r_key i) d) as [[| |l|]|]; try (destruct js; [|discriminate H]); eapply IH; eauto.
  Qed.
  Lemma write_inv c u m ps is rs d :
    class_ok (class c) -> (forall p, In p (k_props (class c)) -> ~ is_custom p) ->
    length ps = length (k_props (class c)) -> length is = length (k_items (class c)) -> length rs = length (k_rels (class c)) ->
    write (Obj c u m ps is rs) = Ok d -> all2 (fun p v => dget (p_key p) d = written p v) (k_props (class c)) ps.
  Proof.
    intros Hok Hc Hlp Hli Hlr W.
    destruct (write_holds ustr class c u m ps is rs Hok) as (d' & W' & Hh).
    - clear W Hok. revert Hc Hlp. generalize (k_props (class c)). intros props. revert ps.
      induction props as [|p props IH]; intros [|v ps] Hc; simpl; try discriminate; [auto|]. intros [= Hl]. split; [|apply IH; auto; intros; apply Hc; right; assumption].
      assert (H : ~ is_custom p) by (apply Hc; left; reflexivity). unfold puts. unfold is_custom in H. destruct (p_kind p); eauto; tauto.
    - rewrite write_eq in W. match type of W with context [write_items ?x ?y] => destruct (write_items x y) as [d2|] eqn:E; [|discriminate W] end.
      apply write_items_inv in E; [|rewrite map_length; congruence]. apply all2_map_r in E. refine (all2_impl _ _ _ _ _ E).
      intros i [x|]; simpl; [|auto]. destruct (write x); [eauto|tauto].
    - rewrite write_eq in W. match type of W with context [write_items ?x ?y] => destruct (write_items x y) as [d2|] eqn:E; [|discriminate W] end.
      apply write_rels_inv in W; [|rewrite map_length; congruence]. apply all2_map_r in W. exact W.
    - rewrite W in W'. injection W' as <-. destruct Hh as (_ & _ & _ & H & _). refine (all2_impl_in _ _ _ _ _ H).
      intros p v Hp _. assert (Hx := Hc p Hp). unfold puts, is_custom in *. destruct (p_kind p); [auto|auto|tauto].
  Qed.
End Mirror.
  Lemma all2_ex {X Y} (P : X -> Y -> Prop) l l' n x : all2 P l l' -> nth_error l n = Some x -> exists y, nth_error l' n = Some y /\ P x y.
  Proof.
    revert l' n. induction l as [|x0 l IH]; intros [|y0 l'] [|n]; simpl; try discriminate; try tauto.
    - intros [H _] [= ->]. eauto.
    - intros [_ H]. apply IH. exact H.
  Qed.
