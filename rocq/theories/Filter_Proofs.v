From Coq Require Import List ZArith Bool String Lia.
From Verif Require Import PyBase Filter_Model Filter_Spec.
Import ListNotations.

Section Ind.
  Context {K O V : Type}.
  Variable P : filter K O V -> Prop.
  Hypothesis HBase : forall b, P (FBase b).
  Hypothesis HAnd : forall fs, Forall P fs -> P (FAnd fs).
  Hypothesis HOr : forall fs, Forall P fs -> P (FOr fs).
  Hypothesis HNot : forall f, P f -> P (FNot f).
  Hypothesis HEq : forall k v c, P (FEq k v c).
  Hypothesis HNotEq : forall k v c, P (FNotEq k v c).
  Hypothesis HStarts : forall k v, P (FStartsWith k v).
  Hypothesis HText : forall k t l, P (FText k t l).
  Hypothesis HDate : forall k y m d, P (FDate k y m d).
  Hypothesis HPred : forall p, P (FPredicate p).
  Fixpoint filter_nested_ind (f : filter K O V) : P f :=
    match f with
    | FBase b => HBase b
    | FAnd fs => HAnd fs ((fix go l : Forall P l := match l with [] => Forall_nil P | g :: l' => Forall_cons g (filter_nested_ind g) (go l') end) fs)
    | FOr fs => HOr fs ((fix go l : Forall P l := match l with [] => Forall_nil P | g :: l' => Forall_cons g (filter_nested_ind g) (go l') end) fs)
    | FNot g => HNot g (filter_nested_ind g)
    | FEq k v c => HEq k v c
    | FNotEq k v c => HNotEq k v c
    | FStartsWith k v => HStarts k v
    | FText k t l => HText k t l
    | FDate k y m d => HDate k y m d
    | FPredicate p => HPred p
    end.
End Ind.

Section Filter.
  Context {K O V : Type}.
  Variables (attr : K -> O -> res V) (str_of : V -> string) (lower : string -> string)
            (as_string : V -> option string) (date_of : V -> option (Z * Z * Z)).
  Notation matches := (matches attr str_of lower as_string date_of).
  Implicit Types f g : filter K O V.

  Lemma py_all_lemma (r : filter K O V -> res bool) fs :
    (py_all r fs = Ok true <-> forall g, In g fs -> r g = Ok true) /\
    (forall x, x <> Ok true -> (py_all r fs = x <-> first_stop r true fs x)).
  Proof.
    induction fs as [|f fs [IH1 IH2]]; simpl.
    - split; [tauto|]. intros x Hx. split; [congruence|].
      intros (l1 & f & l2 & E & _). destruct l1; discriminate.
    - assert (Hcons : r f = Ok true -> forall x, x <> Ok true -> (first_stop r true fs x <-> first_stop r true (f :: fs) x)).
      { intros Hf x Hx. split.
        - intros (l1 & g & l2 & -> & H1 & H2). exists (f :: l1), g, l2. split; [reflexivity|]. split; [|exact H2].
          intros g' [<-|Hg']; auto.
        - intros (l1 & g & l2 & E & H1 & H2). destruct l1 as [|f' l1]; injection E as -> ->; [congruence|].
          exists l1, g, l2. split; [reflexivity|]. split; [|exact H2]. intros g' Hg'. apply H1. right. exact Hg'. }
      assert (Hstop : forall x0, r f = x0 -> x0 <> Ok true -> forall x, x <> Ok true -> (x0 = x <-> first_stop r true (f :: fs) x)).
      { intros x0 Hf Hx0 x Hx. split.
        - intros <-. exists [], f, fs. split; [reflexivity|]. split; [intros g []|exact Hf].
        - intros (l1 & g & l2 & E & H1 & H2). destruct l1 as [|f' l1]; injection E as -> ->; [congruence|].
          exfalso. apply Hx0. rewrite <- Hf. apply H1. left. reflexivity. }
      destruct (r f) as [[|]|e] eqn:Hf.
      + split.
        * rewrite IH1. split; [intros H g [<-|Hg]; auto|intros H g Hg; apply H; auto].
        * intros x Hx. rewrite IH2 by exact Hx. apply Hcons; auto.
      + split; [split; [discriminate|]|].
        * intros H. specialize (H f (or_introl eq_refl)). congruence.
        * intros x Hx. apply Hstop; auto; discriminate.
      + split; [split; [discriminate|]|].
        * intros H. specialize (H f (or_introl eq_refl)). congruence.
        * intros x Hx. apply Hstop; auto; discriminate.
  Qed.

  Lemma py_any_all (r : filter K O V -> res bool) fs :
    py_any r fs = py_not (py_all (fun g => py_not (r g)) fs).
  Proof. induction fs as [|f fs IH]; simpl; [reflexivity|]. destruct (r f) as [[|]|]; simpl; auto. Qed.

  Lemma py_not_inv r x : py_not r = x <-> r = py_not x.
  Proof. destruct r as [[|]|], x as [[|]|]; simpl; split; congruence. Qed.

  Lemma py_any_lemma (r : filter K O V -> res bool) fs :
    (py_any r fs = Ok false <-> forall g, In g fs -> r g = Ok false) /\
    (forall x, x <> Ok false -> (py_any r fs = x <-> first_stop r false fs x)).
  Proof.
    rewrite py_any_all. destruct (py_all_lemma (fun g => py_not (r g)) fs) as [H1 H2]. split.
    - rewrite py_not_inv. simpl. rewrite H1. split; intros H g Hg; specialize (H g Hg); [apply py_not_inv in H; exact H|rewrite H; reflexivity].
    - intros x Hx. rewrite py_not_inv. rewrite H2 by (destruct x as [[|]|]; simpl; congruence).
      unfold first_stop. split; intros (l1 & f & l2 & E & Ha & Hb); exists l1, f, l2; (split; [exact E|]).
      + split; [intros g Hg; apply (proj1 (py_not_inv _ _) (Ha g Hg))|]. apply (proj1 (py_not_inv _ _)) in Hb.
        rewrite Hb. destruct x as [[|]|]; reflexivity.
      + split; [intros g Hg; rewrite (Ha g Hg); reflexivity|]. rewrite Hb. reflexivity.
  Qed.

  Lemma prefix_spec pat s : prefix pat s = true <-> exists b, s = (pat ++ b)%string.
  Proof.
    revert s. induction pat as [|c pat IH]; intros s.
    - split; [intros _; exists s; reflexivity|intros _; destruct s; reflexivity].
    - destruct s as [|c' s]; [split; [discriminate|intros (b & [=])]|].
      change (prefix (String c pat) (String c' s)) with (if Ascii.ascii_dec c c' then prefix pat s else false).
      destruct (Ascii.ascii_dec c c') as [<-|Hne].
      + rewrite IH. split; intros (b & Hb); exists b; [rewrite Hb; reflexivity|injection Hb; auto].
      + split; [discriminate|]. intros (b & [= -> _]). congruence.
  Qed.

  Lemma contains_eq pat s :
    py_contains pat s = (prefix pat s || match s with EmptyString => false | String _ s' => py_contains pat s' end)%bool.
  Proof. destruct s; reflexivity. Qed.

  Lemma contains_spec pat s : py_contains pat s = true <-> substring pat s.
  Proof.
    unfold substring. induction s as [|c s IH]; rewrite contains_eq, orb_true_iff, prefix_spec.
    - split.
      + intros [(b & Hb)|]; [|discriminate]. exists EmptyString, b. exact Hb.
      + intros (a & b & Hab). left. destruct a; [|discriminate]. eauto.
    - rewrite IH. split.
      + intros [(b & Hb)|(a & b & ->)]; [exists EmptyString, b; exact Hb|]. exists (String c a), b. reflexivity.
      + intros ([|c' a] & b & Hab); [left; eauto|]. right. injection Hab as -> ->. eauto.
  Qed.

  Lemma text_filter_lemma k t d x :
    attr k d = Ok x ->
    (matches (text_filter lower k t) d = Ok true <-> substring (lower t) (lower (str_of x))) /\
    (exists b, matches (text_filter lower k t) d = Ok b).
  Proof.
    intros Hx. unfold text_filter. simpl. rewrite Hx. split; [|eauto]. rewrite <- contains_spec.
    split; congruence.
  Qed.

  Lemma date_filter_lemma k y m dd d x yy mm ddd :
    attr k d = Ok x -> date_of x = Some (yy, mm, ddd) ->
    exists b, matches (FDate k y m dd) d = Ok b /\
      (b = true <-> (forall v, y = Some v -> v = 0%Z \/ v = yy) /\ (forall v, m = Some v -> v = 0%Z \/ v = mm) /\
                    (forall v, dd = Some v -> v = 0%Z \/ v = ddd)).
  Proof.
    intros Hx Hd. simpl. rewrite Hx, Hd. simpl.
    assert (F : forall w h, exists b, date_field w (Some h) = Ok b /\ (b = true <-> forall v, w = Some v -> v = 0%Z \/ v = h)).
    { intros [w|] h; simpl.
      - destruct (Z.eqb_spec w 0) as [->|Hw].
        + exists true. split; [reflexivity|]. split; [intros _ v [= <-]; auto|reflexivity].
        + exists (h =? w)%Z. split; [reflexivity|]. rewrite Z.eqb_eq. split.
          * intros -> v [= <-]. auto.
          * intros H. destruct (H w eq_refl); congruence.
      - exists true. split; [reflexivity|]. split; [discriminate|reflexivity]. }
    destruct (F y yy) as (b1 & E1 & H1), (F m mm) as (b2 & E2 & H2), (F dd ddd) as (b3 & E3 & H3).
    rewrite E1, E2, E3.
    destruct b1; [|exists false; split; [reflexivity|]; split; [discriminate|]; intros (? & _); tauto].
    destruct b2; [|exists false; split; [reflexivity|]; split; [discriminate|]; intros (_ & ? & _); tauto].
    exists b3. split; [reflexivity|]. split; [intros ?|intros (_ & _ & ?)]; tauto.
  Qed.

  Lemma map_ext_forall {A B} (g h : A -> B) l : Forall (fun x => g x = h x) l -> map g l = map h l.
  Proof. induction 1; simpl; congruence. Qed.

  Lemma py_all_ext (r1 r2 : filter K O V -> res bool) l : Forall (fun g => r1 g = r2 g) l -> py_all r1 l = py_all r2 l.
  Proof. induction 1 as [|g l Hg _ IH]; simpl; [reflexivity|]. rewrite Hg, IH. reflexivity. Qed.
  Lemma py_any_ext (r1 r2 : filter K O V -> res bool) l : Forall (fun g => r1 g = r2 g) l -> py_any r1 l = py_any r2 l.
  Proof. induction 1 as [|g l Hg _ IH]; simpl; [reflexivity|]. rewrite Hg, IH. reflexivity. Qed.

  Lemma no_text_list (fs : list (filter K O V)) :
    (fix all l := match l with [] => True | g :: l' => no_text g /\ all l' end) fs -> Forall no_text fs.
  Proof. induction fs as [|g fs IH]; intros H; constructor; tauto. Qed.

  Lemma deepcopy_lemma f : no_text f -> deepcopy f = f.
  Proof.
    induction f using filter_nested_ind; intros Hn; simpl in Hn |- *; try reflexivity; try contradiction.
    - f_equal. rewrite <- (map_id fs) at 2. apply map_ext_forall. apply no_text_list in Hn.
      induction fs as [|g fs IHfs]; [constructor|]. inversion H; inversion Hn; subst. constructor; auto.
    - f_equal. rewrite <- (map_id fs) at 2. apply map_ext_forall. apply no_text_list in Hn.
      induction fs as [|g fs IHfs]; [constructor|]. inversion H; inversion Hn; subst. constructor; auto.
    - rewrite IHf; auto.
  Qed.

  Lemma deepcopy_matches_lemma f d : no_text f -> matches (deepcopy f) d = matches f d.
  Proof. intros H. rewrite deepcopy_lemma by exact H. reflexivity. Qed.

  Lemma truth_lemma leaf f d :
    (forall g, In g (leaves f) -> matches g d = Ok (leaf g)) -> matches f d = Ok (truth leaf f).
  Proof.
    induction f using filter_nested_ind; intros Hl; simpl in Hl |- *; auto.
    - induction fs as [|g fs IHfs]; simpl in *; [reflexivity|]. inversion H as [|? ? Hg Hfs]; subst.
      rewrite Hg by (intros; apply Hl, in_app_iff; auto). destruct (truth leaf g); simpl; [|reflexivity].
      apply IHfs; [exact Hfs|]. intros; apply Hl, in_app_iff; auto.
    - induction fs as [|g fs IHfs]; simpl in *; [reflexivity|]. inversion H as [|? ? Hg Hfs]; subst.
      rewrite Hg by (intros; apply Hl, in_app_iff; auto). destruct (truth leaf g); simpl; [reflexivity|].
      apply IHfs; [exact Hfs|]. intros; apply Hl, in_app_iff; auto.
    - rewrite IHf by exact Hl. reflexivity.
    - apply (Hl (FEq k v c)). auto.
    - apply (Hl (FNotEq k v c)). auto.
    - apply (Hl (FStartsWith k v)). auto.
    - apply (Hl (FText k t l)). auto.
    - apply (Hl (FDate k y m d0)). auto.
    - apply (Hl (FPredicate p)). auto.
  Qed.

  Lemma deepcopy_text_lemma k t d x :
    attr k d = Ok x -> matches (deepcopy (text_filter lower k t)) d = Err AttributeError.
  Proof. intros H. simpl. rewrite H. reflexivity. Qed.
End Filter.

Lemma prefix_app_iff t w : prefix t w = true <-> exists rest, w = (t ++ rest)%string.
Proof.
  revert w. induction t as [|a t IH]; intros w; simpl; [split; [intros _; exists w; reflexivity|intros _; destruct w; reflexivity]|].
  destruct w as [|b w]; [split; [discriminate|intros [r H]; discriminate]|].
  simpl. destruct (Ascii.ascii_dec a b) as [->|Hne].
  - rewrite IH. split; intros [r H]; exists r; [rewrite H; reflexivity|injection H as H; exact H].
  - split; [discriminate|]. intros [r H]. injection H as H1 H2. congruence.
Qed.
