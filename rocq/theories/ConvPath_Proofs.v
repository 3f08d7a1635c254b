(** Proofs about the converter of paths. *)
From Coq Require Import List Bool Arith Lia.
From Verif Require Import PyBase ConvPath_Model ConvPath_Spec.
Import ListNotations.

Section Proofs.
  Context {Ch : Type} (Ch_dec : forall x y : Ch, {x = y} + {x <> y}) (slash dot : Ch) (slash_dot : slash <> dot).
  Notation text := (list Ch).
  Notation split := (split Ch_dec slash).
  Notation lstrip := (lstrip Ch_dec slash).
  Notation counts := (counts Ch_dec dot).
  Notation parse := (parse Ch_dec slash dot).
  Notation show := (show slash dot).
  Notation join := (join slash).
  Notation name := (name slash dot).
  Notation names := (names slash dot).

  Lemma split_plain x : ~ In slash x -> split x = [x].
  Proof.
    induction x as [|c x IH]; intros H; [reflexivity|]. simpl. destruct (Ch_dec c slash) as [->|]; [exfalso; apply H; left; reflexivity|].
    rewrite IH; [reflexivity|]. intros N. apply H. right. exact N.
  Qed.
  Lemma split_app x t : ~ In slash x -> split (x ++ slash :: t) = x :: split t.
  Proof.
    induction x as [|c x IH]; intros H; simpl; [destruct (Ch_dec slash slash); [reflexivity|congruence]|].
    destruct (Ch_dec c slash) as [->|]; [exfalso; apply H; left; reflexivity|].
    rewrite IH; [reflexivity|]. intros N. apply H. right. exact N.
  Qed.
  Lemma split_nonempty t : split t <> [].
  Proof. destruct t as [|c t]; simpl; [discriminate|]. destruct (Ch_dec c slash); [discriminate|]. destruct (split t); discriminate. Qed.
  Lemma split_no_slash t : Forall (fun x => ~ In slash x) (split t).
  Proof.
    induction t as [|c t IH]; simpl; [repeat constructor; auto|]. destruct (Ch_dec c slash) as [|N]; [constructor; [intros []|exact IH]|].
    destruct (split t) as [|x l]; [repeat constructor; intros [E|[]]; congruence|]. inversion IH as [|? ? H1 H2]; subst. constructor; [intros [E|E]; [congruence|tauto]|exact H2].
  Qed.
  Lemma counts_spec x : counts x = true <-> x <> [] /\ x <> [dot].
  Proof.
    unfold ConvPath_Model.counts. destruct x as [|c [|d x]]; [split; [discriminate|intros [H _]; congruence]| |split; [split; discriminate|reflexivity]].
    destruct (Ch_dec c dot) as [->|N]; split; intros H; try discriminate; try reflexivity; [destruct H; congruence|split; [discriminate|congruence]].
  Qed.
  Lemma parse_proper t : proper slash dot (parse t).
  Proof.
    unfold proper, ConvPath_Model.parse. cbn [p_parts]. apply Forall_forall. intros x Hx. apply filter_In in Hx as [Hx Hc]. apply counts_spec in Hc as [H1 H2].
    split; [exact H1|]. split; [exact H2|]. pose proof (split_no_slash (lstrip t)) as F. rewrite Forall_forall in F. apply F, Hx.
  Qed.
  Lemma split_join l : l <> [] -> Forall name l -> split (join l) = l.
  Proof.
    induction l as [|x l IH]; intros N F; [congruence|]. inversion F as [|? ? (H1 & H2 & H3) F']; subst. destruct l as [|y l]; [apply split_plain; exact H3|].
    change (join (x :: y :: l)) with (x ++ slash :: join (y :: l)). rewrite split_app by exact H3. rewrite IH; [reflexivity|discriminate|exact F'].
  Qed.
  Lemma filter_all (l : list text) : Forall name l -> filter counts l = l.
  Proof.
    induction l as [|x l IH]; intros F; [reflexivity|]. inversion F as [|? ? (H1 & H2 & H3) F']; subst. simpl.
    replace (counts x) with true by (symmetry; apply counts_spec; auto). rewrite IH by exact F'. reflexivity.
  Qed.
  Lemma lstrip_other t : (forall c t', t = c :: t' -> c <> slash) -> lstrip t = t.
  Proof. intros H. destruct t as [|c t]; [reflexivity|]. simpl. destruct (Ch_dec c slash); [exfalso; eapply H; [reflexivity|assumption]|reflexivity]. Qed.
  Lemma join_head l : Forall name l -> forall c t', join l = c :: t' -> c <> slash.
  Proof.
    intros F c t' E. destruct l as [|x l]; [discriminate|]. inversion F as [|? ? (H1 & H2 & H3) F']; subst. destruct x as [|d x]; [congruence|].
    assert (c = d) by (destruct l; simpl in E; congruence). subst. intros ->. apply H3. left. reflexivity.
  Qed.
  Lemma join_nonempty l : l <> [] -> Forall name l -> join l <> [].
  Proof. intros N F. destruct l as [|x l]; [congruence|]. inversion F as [|? ? (H1 & H2 & H3) F']; subst. destruct x as [|d x]; [congruence|]. destruct l; discriminate. Qed.
  Lemma lstrip_root r t : lstrip (root_text slash r ++ t) = lstrip t.
  Proof. destruct r; simpl; [reflexivity|..]; (destruct (Ch_dec slash slash); [reflexivity|congruence]). Qed.
  Lemma lstrip_le t : length (lstrip t) <= length t.
  Proof. induction t as [|c t IH]; simpl; [lia|]. destruct (Ch_dec c slash); simpl; lia. Qed.
  Lemma show_eq p : proper slash dot p -> show p = (if match p_root p with NoRoot => true | _ => false end && match p_parts p with [] => true | _ => false end then [dot] else root_text slash (p_root p) ++ join (p_parts p)).
  Proof.
    intros F. destruct p as [r l]. unfold ConvPath_Model.show. cbn [p_root p_parts] in *. destruct r; try reflexivity. cbn [andb root_text app].
    destruct l as [|x l]; [reflexivity|]. pose proof (join_nonempty (x :: l) ltac:(discriminate) F). destruct (join (x :: l)); [congruence|reflexivity].
  Qed.
  Lemma parse_dot : parse [dot] = Pa NoRoot [].
  Proof.
    unfold ConvPath_Model.parse. simpl. destruct (Ch_dec dot slash); [congruence|]. simpl. destruct (Ch_dec dot slash); [congruence|]. simpl. destruct (Ch_dec dot dot); [reflexivity|congruence].
  Qed.
  Lemma parse_show p : proper slash dot p -> parse (show p) = p.
  Proof.
    intros F. rewrite (show_eq p F). destruct p as [r l]. cbn [p_root p_parts] in *. unfold proper in F. cbn [p_parts] in F. destruct (match r with NoRoot => true | _ => false end && match l with [] => true | _ => false end) eqn:E.
    - destruct r, l; try discriminate. apply parse_dot.
    - unfold ConvPath_Model.parse. rewrite lstrip_root, (lstrip_other (join l)) by (apply join_head; exact F). f_equal.
      + rewrite app_length, Nat.add_sub. destruct r; reflexivity.
      + destruct l as [|x l]; [reflexivity|]. rewrite split_join by (try discriminate; exact F). apply filter_all, F.
  Qed.

  (** * Normal text *)
  Lemma names_join t : names t <-> exists l, l <> [] /\ Forall name l /\ t = join l.
  Proof.
    split.
    - induction 1 as [x H|x t H Ht (l & N & F & E)].
      + exists [x]. split; [discriminate|]. split; [repeat constructor; apply H|reflexivity].
      + exists (x :: l). split; [discriminate|]. split; [constructor; assumption|]. destruct l; [congruence|]. rewrite E. reflexivity.
    - intros (l & N & F & ->). induction l as [|x l IH]; [congruence|]. inversion F as [|? ? H F']; subst. destruct l as [|y l]; [constructor; exact H|].
      change (join (x :: y :: l)) with (x ++ slash :: join (y :: l)). apply names_more; [exact H|]. apply IH; [discriminate|exact F'].
  Qed.
  Lemma normal_shown t : normal slash dot t <-> exists p, proper slash dot p /\ t = show p.
  Proof.
    split.
    - intros H. assert (G : exists r l, Forall name l /\ t = (if match r with NoRoot => true | _ => false end && match l with [] => true | _ => false end then [dot] else root_text slash r ++ join l)).
      { destruct H as [->|[->|[->|[H|(t' & H & [->| ->])]]]].
        - exists NoRoot, []. auto.
        - exists OneRoot, []. auto.
        - exists TwoRoots, []. auto.
        - apply names_join in H as (l & N & F & ->). exists NoRoot, l. split; [exact F|]. destruct l; [congruence|reflexivity].
        - apply names_join in H as (l & N & F & ->). exists OneRoot, l. auto.
        - apply names_join in H as (l & N & F & ->). exists TwoRoots, l. auto. }
      destruct G as (r & l & F & ->). exists (Pa r l). split; [exact F|]. rewrite (show_eq (Pa r l)) by exact F. reflexivity.
    - intros (p & F & ->). rewrite (show_eq p F). destruct p as [r l]. unfold proper in F. cbn [p_root p_parts] in *. unfold normal.
      destruct l as [|x l].
      + destruct r; simpl; auto.
      + assert (Nm : names (join (x :: l))) by (apply names_join; exists (x :: l); split; [discriminate|auto]).
        rewrite andb_false_r. destruct r; cbn [root_text app]; [right; right; right; left; exact Nm|..]; right; right; right; right; exists (join (x :: l)); auto.
  Qed.

  (** * Places *)
  Context {Node : Type} (dir : Node -> bool) (down : Node -> text -> option Node) (start : root -> Node).
  Notation enter := (enter Ch_dec dot dir down).
  Notation walk := (walk Ch_dec slash dot dir down).
  Fixpoint go (n : Node) (l : list text) : option Node :=
    match l with [] => Some n | x :: l' => match enter n x with Some m => go m l' | None => None end end.
  Lemma walk_go t : forall n x, walk n x t = match split t with y :: l => go n ((x ++ y) :: l) | [] => None end.
  Proof.
    induction t as [|c t IH]; intros n x; simpl.
    - rewrite app_nil_r. destruct (enter n x); reflexivity.
    - destruct (Ch_dec c slash).
      + rewrite app_nil_r. destruct (enter n x) as [m|]; [|reflexivity]. rewrite IH. pose proof (split_nonempty t). destruct (split t) as [|y l]; [congruence|]. reflexivity.
      + rewrite IH. pose proof (split_nonempty t). destruct (split t) as [|y l]; [congruence|]. rewrite <- app_assoc. reflexivity.
  Qed.
  Lemma walk_split n t : walk n [] t = go n (split t).
  Proof. rewrite walk_go. pose proof (split_nonempty t). destruct (split t); [congruence|reflexivity]. Qed.
  Lemma enter_skip n x : counts x = false -> enter n x = if dir n then Some n else None.
  Proof.
    unfold ConvPath_Model.counts, ConvPath_Spec.enter. destruct x as [|c [|d x]]; try discriminate; [reflexivity|]. destruct (Ch_dec c dot); [reflexivity|discriminate].
  Qed.
  Lemma enter_dir n x m : enter n x = Some m -> dir n = true.
  Proof. unfold ConvPath_Spec.enter. destruct (dir n); [reflexivity|discriminate]. Qed.
  Lemma last_in (y : text) l d : In (last (y :: l) d) (y :: l).
  Proof. revert y. induction l as [|z l IH]; intros y; [left; reflexivity|]. right. apply IH. Qed.
  Lemma go_filter l : forall n m, go n l = Some m <-> go n (filter counts l) = Some m /\ (counts (last l [dot]) = false -> l <> [] -> dir m = true).
  Proof.
    induction l as [|x l IH]; intros n m; simpl; [split; [intros H; split; [exact H|congruence]|intros [H _]; exact H]|].
    destruct (counts x) eqn:E.
    - simpl. destruct (enter n x) as [n'|]; [|split; [discriminate|intros [H _]; exact H]]. rewrite IH. destruct l as [|y l].
      + split; intros [H1 H2]; (split; [exact H1|]); intros; [congruence|congruence].
      + split; intros [H1 H2]; (split; [exact H1|]); intros; apply H2; auto; discriminate.
    - rewrite enter_skip by exact E. destruct (dir n) eqn:D.
      + rewrite IH. destruct l as [|y l].
        * simpl. split; intros [H1 H2]; (split; [exact H1|]); intros; [congruence|congruence].
        * split; intros [H1 H2]; (split; [exact H1|]); intros; apply H2; auto; discriminate.
      + split; [discriminate|]. intros [H1 H2]. exfalso. destruct (filter counts l) as [|y fl] eqn:Ef.
        * simpl in H1. injection H1 as <-. rewrite D in H2. assert (X : false = true); [|discriminate]. apply H2; [|discriminate].
          destruct l as [|y l]; [exact E|]. destruct (counts (last (y :: l) [dot])) eqn:Z; [|reflexivity]. exfalso.
          assert (H : In (last (y :: l) [dot]) (filter counts (y :: l))) by (apply filter_In; split; [apply last_in|exact Z]).
          rewrite Ef in H. destruct H.
        * simpl in H1. destruct (enter n y) eqn:Ey; [apply enter_dir in Ey; congruence|discriminate].
  Qed.

  (** the last component *)
  Lemma split_last t : exists y, last (split t) [dot] = y /\ ~ In slash y /\ (t = y \/ exists t', t = t' ++ slash :: y).
  Proof.
    induction t as [|c t IH]; simpl; [exists []; auto|]. destruct IH as (y & E & N & H). pose proof (split_nonempty t) as Ne. destruct (Ch_dec c slash) as [->|Hc].
    - exists y. split; [|split; [exact N|]].
      + destruct (split t) eqn:Es; [congruence|exact E].
      + right. destruct H as [->|(t' & ->)]; [exists []; reflexivity|exists (slash :: t'); reflexivity].
    - destruct (split t) as [|x [|z l]] eqn:Es; [congruence| |].
      + simpl in E. subst y. exists (c :: x). split; [reflexivity|]. split; [intros [Q|Q]; [congruence|tauto]|]. left. f_equal. destruct H as [H|(t' & H)]; [exact H|].
        exfalso. rewrite H in Es. clear -Es Ch_dec. destruct (in_dec Ch_dec slash t') as [Hi|Hi].
        * apply in_split in Hi as (a & b & ->). revert Es. clear. rewrite <- app_assoc. simpl. induction a as [|d a IH]; simpl; destruct (Ch_dec _ slash) as [?|Q]; try congruence.
          -- intros Es. apply (f_equal (@tl _)) in Es. simpl in Es. apply (split_nonempty _) in Es. exact Es.
          -- intros Es. apply (f_equal (@tl _)) in Es. simpl in Es. apply (split_nonempty _) in Es. exact Es.
          -- destruct (split (a ++ slash :: b ++ slash :: x)) as [|w l] eqn:W; [intros Es; exact (split_nonempty _ W)|]. intros Es. injection Es as E1 ->.
             clear IH. apply (f_equal (@length _)) in W. revert W. clear. intros W. assert (G : forall t u, 2 <= length (split (t ++ slash :: u))).
             { induction t as [|e t IHt]; intros u; simpl; destruct (Ch_dec _ slash); try congruence; simpl.
               - pose proof (split_nonempty u). destruct (split u); [congruence|simpl; lia].
               - pose proof (split_nonempty (t ++ slash :: u)). destruct (split (t ++ slash :: u)); [congruence|simpl; lia].
               - specialize (IHt u). destruct (split (t ++ slash :: u)); simpl in *; lia. }
             specialize (G a (b ++ slash :: x)). simpl in W. lia.
        * rewrite split_app in Es by exact Hi. apply (f_equal (@tl _)) in Es. simpl in Es. exact (split_nonempty _ Es).
      + exists y. split; [exact E|]. split; [exact N|]. right. destruct H as [->|(t' & ->)].
        * rewrite (split_plain y N) in Es. discriminate.
        * exists (c :: t'). reflexivity.
  Qed.
  Lemma split_last_app t y : ~ In slash y -> last (split (t ++ slash :: y)) [dot] = y.
  Proof.
    intros N. induction t as [|c t IH]; simpl.
    - destruct (Ch_dec slash slash); [|congruence]. rewrite (split_plain y N). reflexivity.
    - pose proof (split_nonempty (t ++ slash :: y)) as Ne. destruct (Ch_dec c slash) as [->|Hc].
      + destruct (split (t ++ slash :: y)); [congruence|exact IH].
      + assert (L : forall u, split (u ++ slash :: y) <> [y] /\ exists a b l, split (u ++ slash :: y) = a :: b :: l).
        { induction u as [|e u (I1 & a & b & l & I2)]; simpl; destruct (Ch_dec _ slash); try congruence.
          - rewrite (split_plain y N). split; [discriminate|eauto].
          - rewrite I2. split; [discriminate|eauto].
          - rewrite I2. split; [discriminate|eauto]. }
        destruct (L t) as (_ & a & b & l & E). rewrite E in *. exact IH.
  Qed.
  Lemma ends_open_spec t : t <> [] -> ends_open slash dot t <-> counts (last (split t) [dot]) = false.
  Proof.
    intros Nt. assert (Sk : forall y, counts y = false <-> y = [] \/ y = [dot]).
    { intros y. destruct (counts y) eqn:E.
      - apply counts_spec in E as [E1 E2]. split; [discriminate|intros [H|H]; congruence].
      - split; [intros _|reflexivity]. unfold ConvPath_Model.counts in E. destruct y as [|c [|d y]]; [left; reflexivity| |discriminate]. destruct (Ch_dec c dot); [right; congruence|discriminate]. }
    rewrite Sk. split.
    - intros (t' & [->|[->|E]]).
      + left. apply (split_last_app t' []). intros [].
      + right. apply (split_last_app t' [dot]). intros [Q|[]]. congruence.
      + right. rewrite E. rewrite split_plain; [reflexivity|]. intros [Q|[]]. congruence.
    - destruct (split_last t) as (y & -> & N & H). intros [->| ->].
      + destruct H as [H|(t' & H)]; [congruence|]. exists t'. left. exact H.
      + destruct H as [H|(t' & H)]; [exists []; right; right; exact H|]. exists t'. right. left. exact H.
  Qed.
  Lemma root_parse t : p_root (parse t) = root_of Ch_dec slash t.
  Proof.
    assert (L1 : forall u, lstrip (slash :: u) = lstrip u) by (intros u; simpl; destruct (Ch_dec slash slash); [reflexivity|congruence]).
    assert (L2 : forall c u, c <> slash -> lstrip (c :: u) = c :: u) by (intros c u Hc; simpl; destruct (Ch_dec c slash); [congruence|reflexivity]).
    unfold ConvPath_Model.parse. cbn [p_root]. unfold root_of. destruct t as [|a t]; [reflexivity|]. destruct (Ch_dec a slash) as [->|Ha].
    2:{ rewrite (L2 a t Ha), Nat.sub_diag. destruct t as [|b [|c t]]; reflexivity. }
    rewrite L1. destruct t as [|b t]; [reflexivity|]. destruct (Ch_dec b slash) as [->|Hb].
    2:{ rewrite (L2 b t Hb). replace (length (slash :: b :: t) - length (b :: t)) with 1 by (cbn [length]; lia). destruct t; reflexivity. }
    rewrite L1. destruct t as [|c t]; [reflexivity|]. destruct (Ch_dec c slash) as [->|Hc].
    - rewrite L1. pose proof (lstrip_le t). replace (length (slash :: slash :: slash :: t) - length (lstrip t)) with (S (S (S (length t - length (lstrip t))))) by (cbn [length]; lia). reflexivity.
    - rewrite (L2 c t Hc). replace (length (slash :: slash :: c :: t) - length (c :: t)) with 2 by (cbn [length]; lia). reflexivity.
  Qed.
  Lemma parts_parse t : p_parts (parse t) = filter counts (split t).
  Proof.
    unfold ConvPath_Model.parse. cbn [p_parts]. induction t as [|c t IH]; [reflexivity|]. simpl. destruct (Ch_dec c slash) as [->|N]; [exact IH|].
    simpl. destruct (Ch_dec c slash); [congruence|reflexivity].
  Qed.
  Lemma denotes_eq t m : t <> [] -> denotes Ch_dec slash dot dir down start t = Some m <->
    go (start (p_root (parse t))) (p_parts (parse t)) = Some m /\ (ends_open slash dot t -> dir m = true).
  Proof.
    intros N. unfold denotes. rewrite walk_split, go_filter, <- root_parse, <- parts_parse, <- ends_open_spec by exact N.
    pose proof (split_nonempty t). tauto.
  Qed.
  Lemma show_nonempty p : show p <> [].
  Proof. unfold ConvPath_Model.show. destruct (root_text slash (p_root p) ++ join (p_parts p)); discriminate. Qed.
  (** text in normal form ends open only for the beginning itself *)
  Lemma show_open p : proper slash dot p -> ends_open slash dot (show p) -> p_parts p = [].
  Proof.
    intros F H. apply ends_open_spec in H; [|apply show_nonempty]. destruct p as [r l]. cbn [p_parts]. destruct l as [|x l]; [reflexivity|]. exfalso.
    rewrite (show_eq _ F) in H. unfold proper in F. cbn [p_root p_parts] in *. rewrite andb_false_r in H.
    assert (G : last (split (root_text slash r ++ join (x :: l))) [dot] = last (x :: l) [dot]).
    { pose proof (split_join (x :: l) ltac:(discriminate) F) as E. set (j := join (x :: l)) in *. destruct r; simpl; [|destruct (Ch_dec slash slash); [|congruence]|destruct (Ch_dec slash slash); [|congruence]]; rewrite E; reflexivity. }
    rewrite G in H. pose proof (last_in x l [dot]) as Hi. rewrite Forall_forall in F. destruct (F _ Hi) as (N1 & N2 & _).
    assert (C : counts (last (x :: l) [dot]) = true) by (apply counts_spec; auto). congruence.
  Qed.
  Lemma denotes_show p m : (forall r, dir (start r) = true) -> proper slash dot p ->
    denotes Ch_dec slash dot dir down start (show p) = Some m <-> go (start (p_root p)) (p_parts p) = Some m.
  Proof.
    intros D F. rewrite denotes_eq by apply show_nonempty. rewrite (parse_show p F). split; [tauto|]. intros H. split; [exact H|]. intros O.
    rewrite (show_open p F O) in H. simpl in H. injection H as <-. apply D.
  Qed.
End Proofs.
