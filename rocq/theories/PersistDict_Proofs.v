(** Proofs for PersistDict_Props: writing. *)
From Coq Require Import String ZArith Bool List Lia.
From Verif Require Import PyBase PersistDict_Model PersistDict_Spec.
Import ListNotations.

Section Lists.
  Lemma all1_impl {X} (P Q : X -> Prop) l : (forall x, P x -> Q x) -> all1 P l -> all1 Q l.
  Proof. intros H. induction l as [|x l IH]; simpl; [auto|]. intros [? ?]. auto. Qed.
  Lemma all1_in {X} (P : X -> Prop) l : all1 P l <-> forall x, In x l -> P x.
  Proof.
    induction l as [|x l IH]; simpl; [tauto|]. rewrite IH. split; [intros [? ?] y [->|?]; auto|].
    intros H. split; [auto|]. intros; auto.
  Qed.
  Lemma all2_length {X Y} (P : X -> Y -> Prop) l l' : all2 P l l' -> length l = length l'.
  Proof. revert l'. induction l as [|x l IH]; intros [|y l']; simpl; try tauto. intros [_ H]. f_equal. auto. Qed.
  Lemma all2_impl {X Y} (P Q : X -> Y -> Prop) l l' : (forall x y, P x y -> Q x y) -> all2 P l l' -> all2 Q l l'.
  Proof. intros H. revert l'. induction l as [|x l IH]; intros [|y l']; simpl; try tauto. intros [? ?]. auto. Qed.
  Lemma all2_impl_in {X Y} (P Q : X -> Y -> Prop) l l' : (forall x y, In x l -> In y l' -> P x y -> Q x y) -> all2 P l l' -> all2 Q l l'.
  Proof.
    revert l'. induction l as [|x l IH]; intros [|y l']; simpl; try tauto. intros H [H1 H2]. split; [apply H; auto|].
    apply IH; [|exact H2]. intros; apply H; auto.
  Qed.
  Lemma all2_flip {X Y} (P : X -> Y -> Prop) l l' : all2 P l l' -> all2 (fun y x => P x y) l' l.
  Proof. revert l'. induction l as [|x l IH]; intros [|y l']; simpl; try tauto. intros [? ?]. auto. Qed.
  Lemma all2_and {X Y} (P Q : X -> Y -> Prop) l l' : all2 P l l' -> all2 Q l l' -> all2 (fun x y => P x y /\ Q x y) l l'.
  Proof. revert l'. induction l as [|x l IH]; intros [|y l']; simpl; try tauto. intros [? ?] [? ?]. auto. Qed.
  Lemma all2_nth {X Y} (P : X -> Y -> Prop) l l' n x y :
    all2 P l l' -> nth_error l n = Some x -> nth_error l' n = Some y -> P x y.
  Proof.
    revert l' n. induction l as [|x0 l IH]; intros [|y0 l'] [|n]; simpl; try discriminate; try tauto.
    - intros [H _] [= ->] [= ->]. exact H.
    - intros [_ H]. apply IH. exact H.
  Qed.
  Lemma all2_map_r {X Y Z} (P : X -> Y -> Prop) (f : Z -> Y) l l' : all2 P l (map f l') <-> all2 (fun x z => P x (f z)) l l'.
  Proof. revert l'. induction l as [|x l IH]; intros [|y l']; simpl; try tauto. rewrite IH. tauto. Qed.
  Lemma all2_choose {X Y Z} (Q : X -> Y -> Z -> Prop) l l' :
    all2 (fun x y => exists z, Q x y z) l l' -> exists zs, all3 Q l l' zs.
  Proof.
    revert l'. induction l as [|x l IH]; intros [|y l']; simpl; try tauto.
    - intros _. exists []. exact I.
    - intros [[z Hz] H]. destruct (IH _ H) as [zs Hzs]. exists (z :: zs). auto.
  Qed.
  Lemma all3_12 {X Y Z} (Q : X -> Y -> Z -> Prop) (P : X -> Y -> Prop) l l' l'' :
    (forall x y z, Q x y z -> P x y) -> all3 Q l l' l'' -> all2 P l l'.
  Proof. intros H. revert l' l''. induction l as [|x l IH]; intros [|y l'] [|z l'']; simpl; try tauto. intros [? ?]. eauto. Qed.
  Lemma all3_13 {X Y Z} (Q : X -> Y -> Z -> Prop) (P : X -> Z -> Prop) l l' l'' :
    (forall x y z, Q x y z -> P x z) -> all3 Q l l' l'' -> all2 P l l''.
  Proof. intros H. revert l' l''. induction l as [|x l IH]; intros [|y l'] [|z l'']; simpl; try tauto. intros [? ?]. eauto. Qed.
  Lemma all3_23 {X Y Z} (Q : X -> Y -> Z -> Prop) (P : Y -> Z -> Prop) l l' l'' :
    (forall x y z, Q x y z -> P y z) -> all3 Q l l' l'' -> all2 P l' l''.
  Proof. intros H. revert l' l''. induction l as [|x l IH]; intros [|y l'] [|z l'']; simpl; try tauto. intros [? ?]. eauto. Qed.
  Lemma all3_impl {X Y Z} (Q P : X -> Y -> Z -> Prop) l l' l'' :
    (forall x y z, Q x y z -> P x y z) -> all3 Q l l' l'' -> all3 P l l' l''.
  Proof. intros H. revert l' l''. induction l as [|x l IH]; intros [|y l'] [|z l'']; simpl; try tauto. intros [? ?]. eauto. Qed.
  Lemma all3_eq {X Y Z} (P : X -> Y -> Prop) (f : X -> Y -> Z) l l' :
    all2 P l l' -> all3 (fun x y z => z = f x y /\ P x y) l l' (map (fun q => f (fst q) (snd q)) (combine l l')).
  Proof. revert l'. induction l as [|x l IH]; intros [|y l']; simpl; try tauto. intros [? ?]. auto. Qed.
  Lemma all_ok_map {X Y} (P : X -> Y -> Prop) (f : X -> res Y) l :
    all1 (fun x => exists y, f x = Ok y /\ P x y) l -> exists ys, all_ok (map f l) = Ok ys /\ all2 P l ys.
  Proof.
    induction l as [|x l IH]; simpl; [intros _; exists []; auto|]. intros [(y & -> & Hy) H].
    destruct (IH H) as (ys & -> & Hys). exists (y :: ys). simpl. auto.
  Qed.
  Lemma all_ok_inv {X Y} (f : X -> res Y) l ys : all_ok (map f l) = Ok ys -> all2 (fun x y => f x = Ok y) l ys.
  Proof.
    revert ys. induction l as [|x l IH]; simpl; intros ys; [intros [= <-]; exact I|].
    destruct (f x) as [y|]; [|discriminate]. destruct (all_ok (map f l)) as [ys'|]; [|discriminate]. intros [= <-]. simpl. auto.
  Qed.
  Lemma NoDup_app_inv {X} (l l' : list X) : NoDup (l ++ l') -> NoDup l /\ NoDup l' /\ (forall x, In x l -> ~ In x l').
  Proof.
    induction l as [|x l IH]; simpl; intros H; [repeat split; [constructor|exact H|tauto]|].
    inversion H as [|? ? Hni Hnd]; subst. destruct (IH Hnd) as (H1 & H2 & H3). repeat split; [|exact H2|].
    - constructor; [|exact H1]. intros Hx. apply Hni. apply in_or_app. auto.
    - intros y [<-|Hy]; [|auto]. intros Hy. apply Hni. apply in_or_app. auto.
  Qed.
End Lists.

Section Dicts.
  Context {A : Type}.
  Lemma dget_dset q k (j : json A) d : dget q (dset k j d) = if string_dec q k then Some j else dget q d.
  Proof. unfold dget, dset. apply dict_get_set. Qed.
  Lemma dget_pop q k (d : dict A) : NoDup (map fst d) -> dget q (pop k d) = if string_dec q k then None else dget q d.
  Proof. unfold dget, pop. apply dict_get_del. Qed.
  Lemma nodup_dset k (j : json A) d : NoDup (map fst d) -> NoDup (map fst (dset k j d)).
  Proof. unfold dset. apply dict_set_nodup. Qed.
  Lemma nodup_pop k (d : dict A) : NoDup (map fst d) -> NoDup (map fst (pop k d)).
  Proof. unfold pop. apply dict_del_nodup. Qed.
  Lemma dget_map {X} (f : json A -> X) k (d : dict A) :
    dict_get string_dec k (map (fun x => (fst x, f (snd x))) d) = option_map f (dget k d).
  Proof. unfold dget. induction d as [|[k' j] d IH]; simpl; [reflexivity|]. destruct (string_dec k k'); [reflexivity|exact IH]. Qed.
  Lemma dget_nonempty k (j : json A) d : dget k d = Some j -> d <> [].
  Proof. intros H ->. discriminate H. Qed.
End Dicts.

Section Write.
  Context {A V U M : Type}.
  Variable ustr : U -> json A.
  Variable class : nat -> classdef A V.
  Notation write := (@write A V U M ustr class).

  (** what is put under the key of the property, with a well-behaved writer too *)
  Definition puts (p : propdef A V) (v : option V) (j : option (json A)) : Prop :=
    match p_kind p with
    | Custom writer _ => forall d, writer v d = match j with Some j => dset (p_key p) j d | None => d end
    | _ => j = written p v
    end.
  Lemma written_unwritten (p : propdef A V) v : ~ is_custom p -> (written p v = None <-> unwritten p v).
  Proof.
    unfold is_custom, written, unwritten. destruct (p_kind p) as [get set|wr rd|w r]; [| |tauto].
    - intros _. destruct (get v); split; congruence.
    - intros _. destruct v; simpl; split; congruence.
  Qed.
  Lemma write_prop_spec (p : propdef A V) v j d q :
    puts p v j -> NoDup (map fst d) -> dget (p_key p) d = None ->
    NoDup (map fst (write_prop d (p, v))) /\ dget q (write_prop d (p, v)) = if string_dec q (p_key p) then j else dget q d.
  Proof.
    intros Hj Hd Hn. unfold puts, written in Hj. unfold write_prop. destruct (p_kind p) as [get set|wr rd|w r].
    - destruct (get v) eqn:E; subst j; (split; [first [apply nodup_dset|apply nodup_pop]; exact Hd|]);
        first [apply dget_dset|apply dget_pop; exact Hd].
    - destruct v as [v|]; simpl in Hj; subst j; (split; [first [apply nodup_dset|apply nodup_pop]; exact Hd|]);
        first [apply dget_dset|apply dget_pop; exact Hd].
    - rewrite Hj. destruct j as [j|]; (split; [try apply nodup_dset; exact Hd|]); [apply dget_dset|].
      destruct (string_dec q (p_key p)) as [->|]; [exact Hn|reflexivity].
  Qed.
  Lemma write_props_spec (props : list (propdef A V)) ps d :
    NoDup (map p_key props) -> all2 (fun p v => exists j, puts p v j) props ps ->
    (forall p, In p props -> dget (p_key p) d = None) -> NoDup (map fst d) ->
    let d' := fold_left write_prop (combine props ps) d in
    NoDup (map fst d') /\ (forall q, ~ In q (map p_key props) -> dget q d' = dget q d) /\
    all2 (fun p v => puts p v (dget (p_key p) d')) props ps.
  Proof.
    revert ps d. induction props as [|p props IH]; intros [|v ps] d; simpl all2; try tauto; simpl map.
    - intros _ _ _ Hd. simpl. auto.
    - intros Hnd [[j Hj] Hps] Hfree Hd. inversion Hnd as [|? ? Hni Hnd']; subst.
      assert (Hp : dget (p_key p) d = None) by (apply Hfree; left; reflexivity).
      cbn [combine fold_left].
      assert (Hall := fun q => write_prop_spec p v j d q Hj Hd Hp).
      assert (Hd1 := proj1 (Hall ""%string)).
      assert (Hg := fun q => proj2 (Hall q)). clear Hall.
      remember (write_prop d (p, v)) as d1 eqn:E1. clear E1.
      destruct (IH ps d1 Hnd' Hps) as (H1 & H2 & H3).
      + intros p' Hp'. rewrite Hg. destruct (string_dec (p_key p') (p_key p)) as [e|]; [|apply Hfree; right; exact Hp'].
        exfalso. apply Hni. rewrite <- e. apply in_map. exact Hp'.
      + exact Hd1.
      + split; [exact H1|]. split.
        * intros q Hq. rewrite H2 by (intros C; apply Hq; right; exact C). rewrite Hg.
          destruct (string_dec q (p_key p)) as [e|]; [|reflexivity]. exfalso. apply Hq. left. auto.
        * split; [|exact H3]. rewrite H2 by exact Hni. rewrite Hg. destruct (string_dec (p_key p) (p_key p)); [exact Hj|congruence].
  Qed.
  Lemma write_items_spec items ws d :
    NoDup (map i_name items) -> all2 (fun (i : itemdef A) w => match w with Some (Err _) => False | _ => True end) items ws ->
    (forall i, In i items -> dget (i_name i) d = None) -> NoDup (map fst d) ->
    exists d', write_items (combine items ws) d = Ok d' /\ NoDup (map fst d') /\
    (forall q, ~ In q (map i_name items) -> dget q d' = dget q d) /\
    all2 (fun (i : itemdef A) w => match w with
                     | Some (Ok j) => dget (i_name i) d' = Some (JDict j)
                     | Some (Err _) => False
                     | None => dget (i_name i) d' = None
                     end) items ws.
  Proof.
    revert ws d. induction items as [|i items IH]; intros [|w ws] d; simpl all2; try tauto; simpl map.
    - intros _ _ _ Hd. exists d. simpl. auto.
    - intros Hnd [Hw Hws] Hfree Hd. inversion Hnd as [|? ? Hni Hnd']; subst. cbn [combine write_items].
      destruct w as [[j|]|]; [|tauto|].
      + destruct (IH ws (dset (i_name i) (JDict j) d) Hnd' Hws) as (d' & H0 & H1 & H2 & H3).
        * intros i' Hi'. rewrite dget_dset. destruct (string_dec (i_name i') (i_name i)) as [e|]; [|apply Hfree; right; exact Hi'].
          exfalso. apply Hni. rewrite <- e. apply in_map. exact Hi'.
        * apply nodup_dset. exact Hd.
        * exists d'. split; [exact H0|]. split; [exact H1|]. split.
          -- intros q Hq. rewrite H2 by (intros C; apply Hq; right; exact C). rewrite dget_dset.
             destruct (string_dec q (i_name i)) as [e|]; [|reflexivity]. exfalso. apply Hq. left. auto.
          -- split; [|exact H3]. rewrite H2 by exact Hni. rewrite dget_dset. destruct (string_dec (i_name i) (i_name i)); [reflexivity|congruence].
      + destruct (IH ws d Hnd' Hws) as (d' & H0 & H1 & H2 & H3); [intros; apply Hfree; right; assumption|exact Hd|].
        exists d'. split; [exact H0|]. split; [exact H1|]. split.
        * intros q Hq. apply H2. intros C; apply Hq; right; exact C.
        * split; [|exact H3]. rewrite H2 by exact Hni. apply Hfree. left. reflexivity.
  Qed.
  Lemma write_rels_spec rels ws d :
    NoDup (map r_key rels) -> all2 (fun (r : reldef A) w => exists js, all_ok w = Ok js) rels ws ->
    (forall r, In r rels -> dget (r_key r) d = None) -> NoDup (map fst d) ->
    exists d', write_rels (combine rels ws) d = Ok d' /\ NoDup (map fst d') /\
    (forall q, ~ In q (map r_key rels) -> dget q d' = dget q d) /\
    all2 (fun (r : reldef A) w => exists js, all_ok w = Ok js /\ dget (r_key r) d' = Some (JList (map JDict js))) rels ws.
  Proof.
    revert ws d. induction rels as [|r rels IH]; intros [|w ws] d; simpl all2; try tauto; simpl map.
    - intros _ _ _ Hd. exists d. simpl. auto.
    - intros Hnd [[js Hw] Hws] Hfree Hd. inversion Hnd as [|? ? Hni Hnd']; subst. cbn [combine write_rels].
      rewrite Hw. rewrite (Hfree r) by (left; reflexivity).
      destruct (IH ws (dset (r_key r) (JList (map JDict js)) d) Hnd' Hws) as (d' & H0 & H1 & H2 & H3).
      + intros r' Hr'. rewrite dget_dset. destruct (string_dec (r_key r') (r_key r)) as [e|]; [|apply Hfree; right; exact Hr'].
        exfalso. apply Hni. rewrite <- e. apply in_map. exact Hr'.
      + apply nodup_dset. exact Hd.
      + exists d'. split; [exact H0|]. split; [exact H1|]. split.
        * intros q Hq. rewrite H2 by (intros C; apply Hq; right; exact C). rewrite dget_dset.
          destruct (string_dec q (r_key r)) as [e|]; [|reflexivity]. exfalso. apply Hq. left. auto.
        * split; [|exact H3]. exists js. split; [exact Hw|]. rewrite H2 by exact Hni. rewrite dget_dset.
          destruct (string_dec (r_key r) (r_key r)); [reflexivity|congruence].
  Qed.

  Definition write_item (i : option (obj V U M)) : option (res (dict A)) := match i with Some x => Some (write x) | None => None end.
  Definition head (c : nat) (u : U) : dict A := dset "uuid" (ustr u) (match k_type (class c) with Some t => dset "type" t [] | None => [] end).
  Lemma write_eq c u m ps is rs :
    write (Obj c u m ps is rs) =
    match write_items (combine (k_items (class c)) (map write_item is)) (fold_left write_prop (combine (k_props (class c)) ps) (head c u)) with
    | Err e => Err e
    | Ok d2 => write_rels (combine (k_rels (class c)) (map (fun l => map write l) rs)) d2
    end.
  Proof. reflexivity. Qed.

  (** the dict that is written *)
  Definition holds (d : dict A) (o : obj V U M) : Prop :=
    match o with
    | Obj c u m ps is rs =>
        dget "type" d = k_type (class c) /\ dget "uuid" d = Some (ustr u) /\ dget "modified" d = None /\
        all2 (fun p v => puts p v (dget (p_key p) d)) (k_props (class c)) ps /\
        all2 (fun i x => match x with
                         | Some x => exists j, write x = Ok j /\ dget (i_name i) d = Some (JDict j)
                         | None => dget (i_name i) d = None
                         end) (k_items (class c)) is /\
        all2 (fun r l => exists js, all_ok (map write l) = Ok js /\ dget (r_key r) d = Some (JList (map JDict js))) (k_rels (class c)) rs
    end.
  Lemma write_holds_all c u m ps is rs :
    class_ok (class c) -> all2 (fun p v => exists j, puts p v j) (k_props (class c)) ps ->
    all2 (fun (_ : itemdef A) x => match x with Some x => exists j, write x = Ok j | None => True end) (k_items (class c)) is ->
    all2 (fun (_ : reldef A) l => exists js, all_ok (map write l) = Ok js) (k_rels (class c)) rs ->
    exists d, write (Obj c u m ps is rs) = Ok d /\ holds d (Obj c u m ps is rs) /\
      (forall q, ~ In q (storage_keys (class c)) -> dget q d = dget q (head c u)).
  Proof.
    intros Hok Hps His Hrs. unfold class_ok, storage_keys in Hok.
    inversion Hok as [|? ? Ht Hok1]; subst. inversion Hok1 as [|? ? Hu Hok2]; subst. inversion Hok2 as [|? ? Hm Hok3]; subst. clear Hok Hok1 Hok2.
    destruct (NoDup_app_inv _ _ Hok3) as (Np & Hok4 & Dp). destruct (NoDup_app_inv _ _ Hok4) as (Ni & Nr & Di).
    assert (Hh : NoDup (map fst (head c u))).
    { unfold head. apply nodup_dset. destruct (k_type (class c)); [apply nodup_dset|]; constructor. }
    assert (Hg : forall q, dget q (head c u) = if string_dec q "uuid" then Some (ustr u) else if string_dec q "type" then k_type (class c) else None).
    { intros q. unfold head. rewrite dget_dset. destruct (string_dec q "uuid"); [reflexivity|]. destruct (k_type (class c)).
      - rewrite dget_dset. destruct (string_dec q "type"); reflexivity.
      - destruct (string_dec q "type"); reflexivity. }
    assert (Hfree : forall q, In q (storage_keys (class c)) -> dget q (head c u) = None).
    { intros q Hq. rewrite Hg. destruct (string_dec q "uuid") as [->|]; [exfalso; apply Hu; right; exact Hq|].
      destruct (string_dec q "type") as [->|]; [exfalso; apply Ht; right; right; exact Hq|reflexivity]. }
    rewrite write_eq.
    destruct (write_props_spec (k_props (class c)) ps (head c u) Np Hps) as (P1 & P2 & P3); [|exact Hh|].
    { intros p Hp. apply Hfree. unfold storage_keys. apply in_or_app. left. apply in_map. exact Hp. }
    set (d1 := fold_left write_prop (combine (k_props (class c)) ps) (head c u)) in *.
    match goal with |- context [write_items _ ?x] => change x with d1 end. clearbody d1.
    destruct (write_items_spec (k_items (class c)) (map write_item is) d1 Ni) as (d2 & E2 & I1 & I2 & I3).
    { apply all2_map_r. refine (all2_impl _ _ _ _ _ His). intros i [x|]; simpl; [|auto]. intros [j ->]. exact I. }
    { intros i Hi. assert (In (i_name i) (map i_name (k_items (class c)))) by (apply in_map; exact Hi).
      rewrite P2.
      - apply Hfree. unfold storage_keys. apply in_or_app. right. apply in_or_app. auto.
      - intros C. apply (Dp _ C). apply in_or_app. auto. }
    { exact P1. }
    rewrite E2. clear E2.
    destruct (write_rels_spec (k_rels (class c)) (map (fun l => map write l) rs) d2 Nr) as (d3 & E3 & R1 & R2 & R3).
    { apply all2_map_r. exact Hrs. }
    { intros r Hr. assert (In (r_key r) (map r_key (k_rels (class c)))) by (apply in_map; exact Hr).
      rewrite I2, P2.
      - apply Hfree. unfold storage_keys. apply in_or_app. right. apply in_or_app. auto.
      - intros C. apply (Dp _ C). apply in_or_app. auto.
      - intros C. apply (Di _ C). auto. }
    { exact I1. }
    exists d3. split; [exact E3|]. clear E3.
    assert (Hres : forall q, ~ In q (storage_keys (class c)) -> dget q d3 = dget q (head c u)).
    { intros q Hq. unfold storage_keys in Hq. rewrite R2, I2, P2; [reflexivity| | |]; intros C; apply Hq; apply in_or_app; auto; right; apply in_or_app; auto. }
    assert (Hp3 : forall q, In q (map p_key (k_props (class c))) -> dget q d3 = dget q d1).
    { intros q Hq. rewrite R2, I2; [reflexivity| |]; intros C; apply (Dp _ Hq); apply in_or_app; auto. }
    assert (Hi3 : forall q, In q (map i_name (k_items (class c))) -> dget q d3 = dget q d2).
    { intros q Hq. rewrite R2; [reflexivity|]. intros C; apply (Di _ Hq); auto. }
    split; [|exact Hres]. cbn [holds]. split; [|split; [|split; [|split; [|split]]]].
    - rewrite Hres by (intros C; apply Ht; right; right; exact C). rewrite Hg. reflexivity.
    - rewrite Hres by (intros C; apply Hu; right; exact C). rewrite Hg. reflexivity.
    - rewrite Hres by exact Hm. rewrite Hg. reflexivity.
    - refine (all2_impl_in _ _ _ _ _ P3). intros p v Hp _ H. rewrite Hp3 by (apply in_map; exact Hp). exact H.
    - apply all2_map_r in I3. refine (all2_impl_in _ _ _ _ _ I3). intros i x Hi _ H.
      destruct x as [x|]; simpl in H.
      + destruct (write x) as [j|]; [|tauto]. exists j. split; [reflexivity|]. rewrite Hi3 by (apply in_map; exact Hi). exact H.
      + rewrite Hi3 by (apply in_map; exact Hi). exact H.
    - apply all2_map_r in R3. exact R3.
  Qed.
  Lemma write_holds c u m ps is rs :
    class_ok (class c) -> all2 (fun p v => exists j, puts p v j) (k_props (class c)) ps ->
    all2 (fun (_ : itemdef A) x => match x with Some x => exists j, write x = Ok j | None => True end) (k_items (class c)) is ->
    all2 (fun (_ : reldef A) l => exists js, all_ok (map write l) = Ok js) (k_rels (class c)) rs ->
    exists d, write (Obj c u m ps is rs) = Ok d /\ holds d (Obj c u m ps is rs).
  Proof. intros H1 H2 H3 H4. destruct (write_holds_all c u m ps is rs H1 H2 H3 H4) as (d & E & H & _). eauto. Qed.
End Write.
