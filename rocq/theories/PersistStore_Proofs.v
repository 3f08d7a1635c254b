(** Proofs for PersistStore_Props: what is written, at each place, and changing it. *)
From Coq Require Import String ZArith Bool List Lia.
From Verif Require Import PyBase PersistDict_Model PersistDict_Spec PersistDict_Proofs PersistStore_Model PersistStore_Spec.
Import ListNotations.

Section Find.
  Context {X : Type} (name : X -> string).
  Lemma find_name_in l n : In n (map name l) <-> exists x, find (fun x => String.eqb (name x) n) l = Some x.
  Proof.
    induction l as [|x l IH]; simpl; [split; [tauto|intros [? H]; discriminate]|].
    destruct (String.eqb_spec (name x) n) as [E|E].
    - split; [eauto|auto].
    - rewrite <- IH. split; [intros [?|?]; [congruence|assumption]|auto].
  Qed.
  Lemma find_name_some l n x : find (fun x => String.eqb (name x) n) l = Some x -> In x l /\ name x = n.
  Proof. intros H. apply find_some in H. destruct H as [H E]. apply String.eqb_eq in E. auto. Qed.
  Lemma find_name_none l n : find (fun x => String.eqb (name x) n) l = None -> ~ In n (map name l).
  Proof. intros H C. apply find_name_in in C. destruct C as [x C]. congruence. Qed.
  Lemma find_name_self l x : NoDup (map name l) -> In x l -> find (fun y => String.eqb (name y) (name x)) l = Some x.
  Proof.
    induction l as [|y l IH]; simpl; [tauto|]. intros Hn [->|Hi]; [rewrite String.eqb_refl; reflexivity|].
    inversion Hn as [|? ? Hy Hn']; subst. destruct (String.eqb_spec (name y) (name x)) as [E|E]; [|auto].
    exfalso. apply Hy. rewrite E. apply in_map. exact Hi.
  Qed.
End Find.

Section View.
  Context {A V U M : Type}.
  Variable ustr : U -> json A.
  Variable class : nat -> classdef A V.
  Variable cls : nat -> nat.
  Variable uu : nat -> U.
  Variable m0 : M.
  Notation heap := (heap A V).
  Notation path := (list (string + nat)).
  Hypothesis all_plain : forall c, plain (class c).

  Definition olook (p : path) (j : option (json A)) : option (leaf A) := match j with Some j => look p j | None => None end.
  (** what is written for object [r] at each place *)
  Fixpoint view (h : heap) (p : path) (r : nat) : option (leaf A) :=
    match p with
    | [] => Some LDict
    | inr _ :: _ => None
    | inl k :: p' =>
        if string_dec k "uuid" then look p' (ustr (uu r))
        else if string_dec k "type" then olook p' (k_type (class (cls r)))
        else match prop_def class cls r k with
             | Some q => olook p' (written q (h_props h r k))
             | None =>
                 match item_def class cls r k with
                 | Some _ => match h_items h r k with Some x => view h p' x | None => None end
                 | None =>
                     match rel_def class cls r k with
                     | Some _ =>
                         match p' with
                         | [] => Some (LList (length (h_rels h r k)))
                         | inr i :: p'' => match nth_error (h_rels h r k) i with Some x => view h p'' x | None => None end
                         | inl _ :: _ => None
                         end
                     | None => None
                     end
                 end
             end
    end.
  (** the dict is the one that is written for [r] *)
  Definition shows (h : heap) (r : nat) (j : json A) : Prop := forall p, look p j = view h p r.

  Lemma class_parts c :
    let k := class c in
    NoDup (map p_name (k_props k)) /\ NoDup (map i_name (k_items k)) /\ NoDup (map r_name (k_rels k)) /\
    (forall n, In n (map p_name (k_props k)) -> ~ In n (map i_name (k_items k)) /\ ~ In n (map r_name (k_rels k))) /\
    (forall n, In n (map i_name (k_items k)) -> ~ In n (map r_name (k_rels k))) /\
    (forall n, n = "uuid"%string \/ n = "type"%string -> ~ In n (map p_name (k_props k)) /\ ~ In n (map i_name (k_items k)) /\ ~ In n (map r_name (k_rels k))) /\
    storage_keys k = map p_name (k_props k) ++ map i_name (k_items k) ++ map r_name (k_rels k).
  Proof.
    intros k. destruct (all_plain c) as (Hok & Hp & Hr). fold k in Hok, Hp, Hr.
    assert (E : storage_keys k = map p_name (k_props k) ++ map i_name (k_items k) ++ map r_name (k_rels k)).
    { unfold storage_keys. f_equal; [|f_equal]; apply map_ext_in; intros x Hx; [apply Hp|apply Hr]; exact Hx. }
    unfold class_ok in Hok. rewrite E in Hok.
    inversion Hok as [|? ? Ht Hok1]; subst. inversion Hok1 as [|? ? Hu Hok2]; subst. inversion Hok2 as [|? ? Hm Hok3]; subst.
    destruct (NoDup_app_inv _ _ Hok3) as (Np & Hok4 & Dp). destruct (NoDup_app_inv _ _ Hok4) as (Ni & Nr & Di).
    split; [exact Np|]. split; [exact Ni|]. split; [exact Nr|]. split; [|split; [exact Di|split; [|exact E]]].
    - intros n Hn. split; intros C; apply (Dp n Hn); apply in_or_app; auto.
    - intros n Hn.
      assert (Hno : ~ In n (map p_name (k_props k) ++ map i_name (k_items k) ++ map r_name (k_rels k))).
      { destruct Hn as [-> | ->]; intros C; [apply Hu; right; exact C|apply Ht; right; right; exact C]. }
      repeat split; intros C; apply Hno; apply in_or_app; auto; right; apply in_or_app; auto.
  Qed.

  (** ** the dict that write_to_dict gives *)
  Lemma all2_map_l {X Y Z} (P : Z -> Y -> Prop) (f : X -> Z) l l' : all2 P (map f l) l' <-> all2 (fun x y => P (f x) y) l l'.
  Proof. revert l'. induction l as [|x l IH]; intros [|y l']; simpl; try tauto. rewrite IH. tauto. Qed.
  Lemma all2_refl_map {X Y} (P : X -> Y -> Prop) (f : X -> Y) l : (forall x, In x l -> P x (f x)) -> all2 P l (map f l).
  Proof. induction l as [|x l IH]; simpl; auto. Qed.
  Lemma all2_in_l {X Y} (P : X -> Y -> Prop) l l' x : all2 P l l' -> In x l -> exists y, In y l' /\ P x y.
  Proof.
    revert l'. induction l as [|x0 l IH]; intros [|y l']; simpl; try tauto. intros [H1 H2] [->|Hi]; [eauto|].
    destruct (IH _ H2 Hi) as (z & ? & ?). eauto.
  Qed.
  Lemma look_dict k p (d : dict A) : look (inl k :: p) (JDict d) = olook p (dget k d).
  Proof. reflexivity. Qed.
  Lemma look_list_dicts (h : heap) l (js : list (dict A)) :
    all2 (fun x j => shows h x (JDict j)) l js ->
    forall p, look p (JList (map JDict js)) =
      match p with
      | [] => Some (LList (length l))
      | inr i :: p'' => match nth_error l i with Some x => view h p'' x | None => None end
      | inl _ :: _ => None
      end.
  Proof.
    intros H [|[k|i] p]; [|reflexivity|].
    - simpl. rewrite map_length. rewrite (all2_length _ _ _ H). reflexivity.
    - cbn [look]. revert l i H. induction js as [|j js IH]; intros [|x l] [|i]; simpl; try tauto.
      + intros [H _]. apply H.
      + intros [_ H]. apply IH. exact H.
  Qed.

  Lemma write_shows f h r o :
    unload class cls uu m0 f h r = Ok o -> exists d, write ustr class o = Ok d /\ shows h r (JDict d).
  Proof.
    revert r o. induction f as [|f IH]; intros r o; [discriminate|]. cbn [unload].
    destruct (all_ok (map _ (k_items (class (cls r))))) as [is|] eqn:Ei; [|discriminate].
    destruct (all_ok (map _ (k_rels (class (cls r))))) as [rs|] eqn:Er; [|discriminate]. intros [= <-].
    apply all_ok_inv in Ei. apply all_ok_inv in Er.
    assert (Hi : all2 (fun i x => match x with
                 | Some o => exists y j, h_items h r (i_name i) = Some y /\ write ustr class o = Ok j /\ shows h y (JDict j)
                 | None => h_items h r (i_name i) = None end) (k_items (class (cls r))) is).
    { refine (all2_impl _ _ _ _ _ Ei). intros i x. destruct (h_items h r (i_name i)) as [y|]; [|intros [= <-]; reflexivity].
      destruct (unload class cls uu m0 f h y) as [o|] eqn:E; [|discriminate]. intros [= <-].
      destruct (IH _ _ E) as (j & Hw & Hs). exists y, j. auto. }
    assert (Hr : all2 (fun d l => exists js, all_ok (map (write ustr class) l) = Ok js /\
                   all2 (fun x j => shows h x (JDict j)) (h_rels h r (r_name d)) js) (k_rels (class (cls r))) rs).
    { refine (all2_impl _ _ _ _ _ Er). intros d l. clear -IH. generalize (h_rels h r (r_name d)) as xs. intros xs.
      revert l. induction xs as [|x xs IHx]; simpl; intros l; [intros [= <-]; exists []; simpl; auto|].
      destruct (unload class cls uu m0 f h x) as [o|] eqn:E; [|discriminate].
      destruct (all_ok (map _ xs)) as [os|]; [|discriminate]. intros [= <-].
      destruct (IHx _ eq_refl) as (js & H1 & H2). destruct (IH _ _ E) as (j & H3 & H4).
      exists (j :: js). simpl. rewrite H3, H1. auto. }
    clear Ei Er IH. destruct (class_parts (cls r)) as (Np & Ni & Nr & Dp & Di & Dk & Ek).
    destruct (all_plain (cls r)) as (Hok & Hp & Hrn).
    destruct (write_holds_all ustr class (cls r) (uu r) m0 (map (fun p => h_props h r (p_name p)) (k_props (class (cls r)))) is rs Hok) as (d & Hw & Hh & Ho).
    - apply all2_refl_map. intros p Hin. exists (written p (h_props h r (p_name p))).
      unfold puts. destruct (Hp p Hin) as [_ Hc]. unfold is_custom in Hc. destruct (p_kind p); [reflexivity|reflexivity|tauto].
    - refine (all2_impl _ _ _ _ _ Hi). intros i [x|]; [|auto]. intros (y & j & _ & E & _). eauto.
    - refine (all2_impl _ _ _ _ _ Hr). intros i l (js & E & _). eauto.
    - exists d. split; [exact Hw|]. clear Hw.
      destruct Hh as (Ht & Hu & _ & Hps & His & Hrs).
      intros [|[k|i] p]; [reflexivity| |reflexivity]. rewrite look_dict. cbn [view].
      destruct (string_dec k "uuid") as [->|Nu]; [rewrite Hu; reflexivity|].
      destruct (string_dec k "type") as [->|Nt]; [rewrite Ht; reflexivity|].
      destruct (prop_def class cls r k) as [q|] eqn:Eq.
      + unfold prop_def in Eq. apply find_name_some in Eq. destruct Eq as [Hq <-].
        apply all2_map_r in Hps.
        assert (Hx : puts q (h_props h r (p_name q)) (dget (p_key q) d)).
        { clear -Hps Hq. revert Hps Hq. generalize (k_props (class (cls r))) as l. induction l as [|y l IH]; simpl; [tauto|].
          intros [H1 H2] [->|H]; auto. }
        destruct (Hp q Hq) as [Ekey Hc]. rewrite Ekey in Hx. unfold puts in Hx. unfold is_custom in Hc.
        destruct (p_kind q) eqn:Ekind; [| |tauto]; rewrite Hx; reflexivity.
      + destruct (item_def class cls r k) as [i|] eqn:Eii.
        * unfold item_def in Eii. apply find_name_some in Eii. destruct Eii as [Hin <-].
          destruct (all2_in_l _ _ _ i (all2_and _ _ _ _ Hi His) Hin) as (x & _ & H1 & H2).
          destruct x as [x|]; [|rewrite H1, H2; reflexivity].
          destruct H1 as (y & j & E1 & E2 & E3). destruct H2 as (j' & E2' & E4). rewrite E2 in E2'. injection E2' as <-.
          rewrite E1, E4. apply E3.
        * destruct (rel_def class cls r k) as [t|] eqn:Et.
          -- unfold rel_def in Et. apply find_name_some in Et. destruct Et as [Hin <-].
             destruct (all2_in_l _ _ _ t (all2_and _ _ _ _ Hr Hrs) Hin) as (x & _ & H1 & H2).
             destruct H1 as (js & E1 & E2). destruct H2 as (js' & E1' & E3). rewrite E1 in E1'. injection E1' as <-.
             rewrite (Hrn t Hin) in E3. rewrite E3. apply (look_list_dicts h _ _ E2).
          -- rewrite Ho.
             ++ unfold head. rewrite dget_dset. destruct (string_dec k "uuid"); [congruence|].
                destruct (k_type (class (cls r))); [rewrite dget_dset; destruct (string_dec k "type"); [congruence|]|]; reflexivity.
             ++ rewrite Ek. intros C. apply in_app_or in C. destruct C as [C|C].
                ** apply (find_name_none p_name _ _ Eq C).
                ** apply in_app_or in C. destruct C as [C|C]; [apply (find_name_none i_name _ _ Eii C)|apply (find_name_none r_name _ _ Et C)].
  Qed.
End View.
