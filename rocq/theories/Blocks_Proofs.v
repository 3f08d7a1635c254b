(** The account of a list: what it counts and what is still to reach it, against what was done and told. *)
From Coq Require Import ZArith Bool List Arith Lia.
From Verif Require Import Blocks_Model Blocks_Spec.
Import ListNotations.
Open Scope Z_scope.

Lemma reg_eqb_refl r : reg_eqb r r = true.
Proof. unfold reg_eqb. now rewrite !Nat.eqb_refl. Qed.
Lemma reg_eqb_eq a b : reg_eqb a b = true -> a = b.
Proof.
  destruct a as [a1 a2 a3], b as [b1 b2 b3]. unfold reg_eqb. cbn. intros H.
  apply andb_true_iff in H as [H H3]. apply andb_true_iff in H as [H1 H2].
  apply Nat.eqb_eq in H1, H2, H3. congruence.
Qed.
Lemma open_in r s : open r s = true <-> In r (b_regs s).
Proof.
  unfold open. rewrite existsb_exists. split.
  - intros (x & Hx & E). apply reg_eqb_eq in E. now subst.
  - intros H. exists r. split; [exact H|apply reg_eqb_refl].
Qed.

Definition wf (s : blk) : Prop := NoDup (map r_who (b_regs s)).

Lemma find_who_in (l : list reg) r : NoDup (map r_who l) -> In r l -> find (fun x => Nat.eqb (r_who x) (r_who r)) l = Some r.
Proof.
  induction l as [|x l IH]; cbn; [easy|]. intros H Hin. inversion H as [|? ? Hx Hl]; subst.
  destruct (Nat.eqb_spec (r_who x) (r_who r)) as [E|E].
  - destruct Hin as [->|Hin]; [reflexivity|]. exfalso. apply Hx. rewrite E. now apply in_map.
  - destruct Hin as [->|Hin]; [easy|]. now apply IH.
Qed.
Lemma container_in s r : wf s -> In r (b_regs s) -> container s (r_who r) = Some (r_src r).
Proof. intros H Hr. unfold container. now rewrite (find_who_in _ _ H Hr). Qed.
Lemma container_some s j k : container s j = Some k -> exists r, In r (b_regs s) /\ r_who r = j /\ r_src r = k.
Proof.
  unfold container. destruct (find _ _) as [r|] eqn:E; cbn; [|easy]. intros [= <-]. apply find_some in E as [E1 E2].
  apply Nat.eqb_eq in E2. now exists r.
Qed.

Section Account.
  Variable mapped : nat -> bool.
  Notation turn := (turn mapped).
  Notation go_on := (go_on mapped).
  Notation b_step := (b_step mapped).
  Notation b_run := (b_run mapped).

  (** what a task will add to the count of list [j] *)
  Definition due (j : nat) (s : blk) (t : task) : Z :=
    match t with
    | Notify r m => if Nat.eqb (r_who r) j && open r s then sign m else 0
    | Inc i => if Nat.eqb i j && mapped j then 1 else 0
    end.
  Fixpoint dues (j : nat) (s : blk) (l : list task) : Z :=
    match l with [] => 0 | t :: l' => due j s t + dues j s l' end.
  Lemma dues_app j s l l' : dues j s (l ++ l') = dues j s l + dues j s l'.
  Proof. induction l as [|t l IH]; cbn [dues app]; [lia|rewrite IH; lia]. Qed.
  Lemma dues_regs j s s' l : b_regs s = b_regs s' -> dues j s l = dues j s' l.
  Proof.
    intros E. induction l as [|t l IH]; cbn [dues]; [reflexivity|]. rewrite IH. f_equal.
    destruct t as [r m|i]; cbn; [|reflexivity]. unfold open. now rewrite E.
  Qed.

  Definition count (j : nat) (s : blk) : Z := if mapped j then b_level s j else told j (b_out s).
  Definition account (j : nat) (s : blk) : Z :=
    count j s + dues j s (b_stack s) - told_by (container s j) (b_out s).

  Lemma container_regs s s' j : b_regs s = b_regs s' -> container s j = container s' j.
  Proof. intros E. unfold container. now rewrite E. Qed.

  (** the listeners of [k] that belong to [j] *)
  Lemma pushed_none (l : list reg) s j k m : ~ In j (map r_who l) ->
    dues j s (map (fun r => Notify r m) (filter (fun r => Nat.eqb (r_src r) k) l)) = 0.
  Proof.
    induction l as [|x l IH]; cbn [filter map dues]; [reflexivity|]. intros H.
    assert (Hl : ~ In j (map r_who l)) by (intros Hl; apply H; now right).
    destruct (Nat.eqb (r_src x) k); cbn [map dues due]; rewrite ?(IH Hl); [|reflexivity].
    destruct (Nat.eqb_spec (r_who x) j) as [E|E]; cbn; [exfalso; apply H; now left|lia].
  Qed.
  Lemma pushed (l : list reg) s j k m : NoDup (map r_who l) -> incl l (b_regs s) ->
    dues j s (map (fun r => Notify r m) (filter (fun r => Nat.eqb (r_src r) k) l)) =
    match option_map r_src (find (fun r => Nat.eqb (r_who r) j) l) with
    | Some k' => if Nat.eqb k' k then sign m else 0
    | None => 0
    end.
  Proof.
    induction l as [|x l IH]; intros Hn Hi; [reflexivity|]. cbn [map] in Hn. inversion Hn as [|? ? Hx Hl]; subst.
    assert (Hi' : incl l (b_regs s)) by (intros y Hy; apply Hi; now right).
    assert (Ho : open x s = true) by (apply open_in, Hi; now left).
    cbn [filter find]. destruct (Nat.eqb_spec (r_who x) j) as [E|E].
    - cbn [option_map]. pose proof (pushed_none l s j k m) as Hz. rewrite E in Hx. specialize (Hz Hx).
      destruct (Nat.eqb (r_src x) k); cbn [map dues due]; rewrite Hz; [|reflexivity].
      rewrite E, Nat.eqb_refl, Ho. cbn. lia.
    - rewrite <- (IH Hl Hi'). destruct (Nat.eqb (r_src x) k); cbn [map dues due]; [|reflexivity].
      destruct (Nat.eqb_spec (r_who x) j) as [E'|_]; [easy|]. cbn. lia.
  Qed.
  Lemma pushed_all s j k m : wf s ->
    dues j s (map (fun r => Notify r m) (filter (fun r => Nat.eqb (r_src r) k) (b_regs s))) =
    match container s j with Some k' => if Nat.eqb k' k then sign m else 0 | None => 0 end.
  Proof. intros H. apply pushed; [exact H|apply incl_refl]. Qed.

  Lemma account_emit s i j m after : wf s ->
    account i (emit j m after s) =
    account i s + (if negb (mapped i) && Nat.eqb j i then sign m else 0) + dues i s after.
  Proof.
    intros H. unfold account, count. rewrite (container_regs (emit j m after s) s) by reflexivity.
    rewrite (dues_regs i (emit j m after s) s) by reflexivity. unfold emit. cbn [b_stack b_out b_level].
    rewrite !dues_app, (pushed_all s i j m H).
    destruct (container s i) as [k|]; cbn [told_by told].
    - rewrite (Nat.eqb_sym k j). destruct (mapped i); cbn [negb andb]; destruct (Nat.eqb j k); try destruct (Nat.eqb j i); lia.
    - destruct (mapped i); cbn [negb andb]; try destruct (Nat.eqb j i); lia.
  Qed.
  Lemma account_put s i j z : mapped j = true ->
    account i (put_level j z s) = account i s + (if Nat.eqb j i then z - b_level s j else 0).
  Proof.
    intros Hm. unfold account, count. rewrite (container_regs (put_level j z s) s) by reflexivity.
    rewrite (dues_regs i (put_level j z s) s) by reflexivity. unfold put_level, set_level. cbn [b_stack b_out b_level].
    rewrite (Nat.eqb_sym j i). destruct (Nat.eqb_spec i j) as [->|E]; [rewrite Hm; lia|].
    destruct (mapped i); lia.
  Qed.
  Lemma account_turn s i j m : wf s ->
    account i (turn j m s) = account i s + (if Nat.eqb j i then sign m else 0).
  Proof.
    intros H. unfold Blocks_Model.turn. destruct (mapped j) eqn:Ej.
    - assert (Hno : forall b : bool, negb (mapped i) && Nat.eqb j i = false).
      { intros _. destruct (Nat.eqb_spec j i) as [<-|]; [now rewrite Ej|apply andb_false_r]. }
      destruct m.
      + unfold begin_change. destruct (Z.eqb_spec (b_level s j) 0) as [E|E].
        * rewrite (account_emit s i j Begin [Inc j] H), (Hno true). cbn [dues due].
          destruct (Nat.eqb_spec j i) as [<-|]; [rewrite Ej|]; cbn; lia.
        * rewrite account_put by exact Ej. destruct (Nat.eqb j i); cbn; lia.
      + unfold end_change. destruct (Z.eqb_spec (b_level (put_level j (b_level s j - 1) s) j) 0) as [E|E].
        * rewrite account_emit by exact H. rewrite (Hno true). cbn [dues]. rewrite account_put by exact Ej.
          destruct (Nat.eqb j i); cbn; lia.
        * rewrite account_put by exact Ej. destruct (Nat.eqb j i); cbn; lia.
    - rewrite account_emit by exact H. cbn [dues]. destruct (Nat.eqb_spec j i) as [<-|]; [rewrite Ej|]; cbn; [lia|].
      rewrite andb_false_r. lia.
  Qed.

  Lemma turn_regs s j m : b_regs (turn j m s) = b_regs s /\ b_next (turn j m s) = b_next s.
  Proof.
    unfold Blocks_Model.turn, begin_change, end_change. destruct (mapped j), m; try (split; reflexivity).
    - destruct (b_level s j =? 0); split; reflexivity.
    - destruct (b_level _ j =? 0); split; reflexivity.
  Qed.
  Lemma go_on_regs s : b_regs (go_on s) = b_regs s.
  Proof.
    unfold Blocks_Model.go_on. destruct (b_stack s) as [|[r m|j] rest]; [reflexivity| |reflexivity].
    destruct (open r s); [|reflexivity]. now rewrite (proj1 (turn_regs _ _ _)).
  Qed.

  (** only lists that are mapped count later *)
  Definition incs_mapped (s : blk) : Prop := forall j, In (Inc j) (b_stack s) -> mapped j = true.

  Lemma turn_incs s j m : incs_mapped s -> incs_mapped (turn j m s).
  Proof.
    intros H i. unfold Blocks_Model.turn. destruct (mapped j) eqn:Ej.
    - destruct m.
      + unfold begin_change. destruct (b_level s j =? 0); [|apply H]. unfold emit. cbn [b_stack].
        rewrite !in_app_iff. intros [Hi|[Hi|Hi]]; [|cbn in Hi; destruct Hi as [[= <-]|[]]; exact Ej|now apply H].
        apply in_map_iff in Hi as (r & E & _). discriminate E.
      + unfold end_change. destruct (b_level _ j =? 0); [|apply H]. unfold emit. cbn [b_stack app].
        rewrite in_app_iff. intros [Hi|Hi]; [|now apply H]. apply in_map_iff in Hi as (r & E & _). discriminate E.
    - unfold emit. cbn [b_stack app]. rewrite in_app_iff. intros [Hi|Hi]; [|now apply H].
      apply in_map_iff in Hi as (r & E & _). discriminate E.
  Qed.

  Lemma account_go_on s i : wf s -> incs_mapped s -> account i (go_on s) = account i s.
  Proof.
    intros H Hm. unfold Blocks_Model.go_on. destruct (b_stack s) as [|t rest] eqn:Es; [reflexivity|].
    set (s1 := Blk (b_regs s) (b_next s) (b_level s) rest (b_out s)).
    assert (Hs : account i s = account i s1 + due i s t).
    { unfold account, count. rewrite (container_regs s1 s) by reflexivity. rewrite Es.
      rewrite (dues_regs i s1 s) by reflexivity. cbn [dues]. unfold s1. cbn [b_stack b_out b_level]. lia. }
    destruct t as [r m|j].
    - cbn [due] in Hs. destruct (open r s).
      + rewrite account_turn by exact H. rewrite andb_true_r in Hs. lia.
      + rewrite andb_false_r in Hs. lia.
    - assert (Hj : mapped j = true) by (apply Hm; rewrite Es; now left).
      rewrite account_put by exact Hj. cbn [due] in Hs.
      destruct (Nat.eqb_spec j i) as [<-|]; [rewrite Hj in Hs|]; cbn in Hs; lia.
  Qed.

  Lemma find_kept (l : list reg) j i : i <> j ->
    find (fun r => Nat.eqb (r_who r) i) (filter (fun r => negb (Nat.eqb (r_who r) j)) l) = find (fun r => Nat.eqb (r_who r) i) l.
  Proof.
    intros H. induction l as [|x l IH]; cbn; [reflexivity|]. destruct (Nat.eqb_spec (r_who x) j) as [E|E]; cbn.
    - destruct (Nat.eqb_spec (r_who x) i) as [E'|E']; [congruence|exact IH].
    - now rewrite IH.
  Qed.
  Lemma find_kept_self (l : list reg) j :
    find (fun r => Nat.eqb (r_who r) j) (filter (fun r => negb (Nat.eqb (r_who r) j)) l) = None.
  Proof.
    induction l as [|x l IH]; cbn; [reflexivity|]. destruct (Nat.eqb_spec (r_who x) j) as [E|E]; cbn; [exact IH|].
    destruct (Nat.eqb_spec (r_who x) j); [easy|exact IH].
  Qed.
  Lemma find_app (f : reg -> bool) l l' : find f (l ++ l') = match find f l with Some x => Some x | None => find f l' end.
  Proof. induction l as [|x l IH]; cbn; [reflexivity|]. now destruct (f x). Qed.
  Lemma container_move s j c i : container (move j c s) i = if Nat.eqb j i then c else container s i.
  Proof.
    unfold container, move. destruct (Nat.eqb_spec j i) as [<-|E].
    - destruct c as [k|]; cbn [b_regs]; rewrite ?find_app, find_kept_self; [|reflexivity].
      cbn. now rewrite Nat.eqb_refl.
    - assert (E' : i <> j) by congruence. destruct c as [k|]; cbn [b_regs]; rewrite ?find_app, (find_kept _ _ _ E'); [|reflexivity].
      destruct (find _ _); [reflexivity|]. cbn. now apply Nat.eqb_neq in E as ->.
  Qed.
  Lemma filter_who_nodup (l : list reg) f : NoDup (map r_who l) -> NoDup (map r_who (filter f l)).
  Proof.
    induction l as [|x l IH]; cbn; [easy|]. intros H. inversion H as [|? ? Hx Hl]; subst.
    destruct (f x); cbn; [|now apply IH]. constructor; [|now apply IH]. intros Hin. apply Hx.
    apply in_map_iff in Hin as (y & E & Hy). apply filter_In in Hy as [Hy _]. rewrite <- E. now apply in_map.
  Qed.
  Lemma nodup_snoc (l : list nat) x : NoDup l -> ~ In x l -> NoDup (l ++ [x]).
  Proof.
    induction l as [|y l IH]; cbn; intros H Hx; [constructor; [easy|constructor]|]. inversion H; subst.
    constructor; [|apply IH; tauto]. rewrite in_app_iff. cbn. intros [Hy|[->|[]]]; tauto.
  Qed.
  Lemma move_wf s j c : wf s -> wf (move j c s).
  Proof.
    unfold wf, move. intros H. pose proof (filter_who_nodup (b_regs s) (fun r => negb (Nat.eqb (r_who r) j)) H) as Hk.
    destruct c as [k|]; cbn [b_regs]; [|exact Hk]. rewrite map_app. cbn [map r_who]. apply nodup_snoc; [exact Hk|].
    intros Hin. apply in_map_iff in Hin as (y & E & Hy). apply filter_In in Hy as [_ Hy]. rewrite E, Nat.eqb_refl in Hy. discriminate.
  Qed.
  Lemma account_move s i j c : quiet s ->
    account i (move j c s) = account i s + (if Nat.eqb j i then told_by (container s i) (b_out s) - told_by c (b_out s) else 0).
  Proof.
    intros Hq. unfold account, count. rewrite container_move.
    assert (E1 : b_stack (move j c s) = []) by (destruct c; exact Hq).
    assert (E2 : b_out (move j c s) = b_out s) by now destruct c.
    assert (E3 : b_level (move j c s) = b_level s) by now destruct c.
    rewrite E1, E2, E3. unfold quiet in Hq. rewrite Hq. cbn [dues]. destruct (Nat.eqb j i); lia.
  Qed.
  Lemma move_incs s j c : incs_mapped s -> incs_mapped (move j c s).
  Proof. intros H. now destruct c. Qed.
  Lemma go_on_incs s : incs_mapped s -> incs_mapped (go_on s).
  Proof.
    intros H. unfold Blocks_Model.go_on. destruct (b_stack s) as [|t rest] eqn:Es; [exact H|].
    assert (H1 : incs_mapped (Blk (b_regs s) (b_next s) (b_level s) rest (b_out s))).
    { intros j Hj. apply H. rewrite Es. now right. }
    destruct t as [r m|j]; [|exact H1]. destruct (open r s); [now apply turn_incs|exact H1].
  Qed.

  Lemma step_wf s a : wf s -> wf (b_step s a).
  Proof.
    intros H. destruct a as [j m|j c|]; cbn [Blocks_Model.b_step].
    - unfold wf. now rewrite (proj1 (turn_regs s j m)).
    - now apply move_wf.
    - unfold wf. now rewrite go_on_regs.
  Qed.
  Lemma step_incs s a : incs_mapped s -> incs_mapped (b_step s a).
  Proof. intros H. destruct a; [now apply turn_incs|now apply move_incs|now apply go_on_incs]. Qed.

  Lemma account_run h : forall s i, wf s -> incs_mapped s -> at_each mapped moves_quiet s h ->
    account i (b_run s h) = account i s + own i h + debt mapped i s h.
  Proof.
    induction h as [|a h IH]; intros s i H Hm Ha; cbn [own debt]; [change (b_run s []) with s; lia|].
    destruct Ha as [Ha Hh]. change (b_run s (a :: h)) with (b_run (b_step s a) h).
    rewrite (IH _ _ (step_wf s a H) (step_incs s a Hm) Hh).
    destruct a as [j m|j c|]; cbn [Blocks_Model.b_step].
    - rewrite account_turn by exact H. lia.
    - rewrite account_move by exact Ha. lia.
    - rewrite account_go_on by assumption. lia.
  Qed.

  Lemma new_wf : wf b_new.
  Proof. constructor. Qed.
  Lemma new_incs : incs_mapped b_new.
  Proof. intros j []. Qed.
  Lemma account_quiet s i : quiet s -> account i s = count i s - told_by (container s i) (b_out s).
  Proof. unfold quiet, account. intros ->. cbn [dues]. lia. Qed.
  Lemma count_run h i : at_each mapped moves_quiet b_new h -> quiet (b_run b_new h) ->
    count i (b_run b_new h) =
    own i h + debt mapped i b_new h + told_by (container (b_run b_new h) i) (b_out (b_run b_new h)).
  Proof.
    intros Ha Hq. pose proof (account_run h b_new i new_wf new_incs Ha) as E.
    rewrite (account_quiet _ _ Hq) in E.
    assert (E0 : account i b_new = 0) by (unfold account, count; cbn; destruct (mapped i); lia). lia.
  Qed.
End Account.
