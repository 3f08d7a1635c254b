(** Properties C53-C56: bindings. *)
From Coq Require Import String ZArith Bool Lia List.
From Verif Require Import PyBase Bind_Model Bind_Spec.
Import ListNotations.

(** ** C53 *)
(** a batch of notifications writes the expected value once per notification of the bound property *)
Theorem bind_notified {V S} (c : config V S) names b t : b_open b = true -> b_target b = true ->
  match c_change c (b_src b) with Ok (Some v) => c_convert c v = Ok t | Ok None => t = c_fallback c | Err _ => False end ->
  notify c names b = BState (b_src b) true true (repeat t (count_occ string_dec names (c_name c)) ++ b_writes b).
Proof.
  intros Ho Ht Hc. unfold notify. rewrite <- (app_nil_l (b_writes b)). 
  assert (G : forall w, fold_left (fun b n => property_changed c n b) names (BState (b_src b) true true w) =
    BState (b_src b) true true (repeat t (count_occ string_dec names (c_name c)) ++ w)).
  { induction names as [|n names IH]; intros w; [reflexivity|]. cbn [fold_left count_occ].
    assert (P : property_changed c n (BState (b_src b) true true w) = BState (b_src b) true true (if string_dec n (c_name c) then t :: w else w)).
    { unfold property_changed. cbn [b_open b_src andb]. destruct (string_dec n (c_name c)) as [E|E].
      - rewrite (proj2 (String.eqb_eq _ _) E). destruct (c_change c (b_src b)) as [[v|]|]; [rewrite Hc|subst t|contradiction]; reflexivity.
      - rewrite (proj2 (String.eqb_neq _ _) E). reflexivity. }
    rewrite P, IH. destruct (string_dec n (c_name c)); [|reflexivity]. cbn [repeat].
    f_equal. rewrite <- app_comm_cons. change (t :: w) with ([t] ++ w). rewrite app_assoc, <- repeat_cons. reflexivity. }
  destruct b as [s o tg w]. cbn [b_open b_target b_src b_writes] in *. subst. apply G.
Qed.
(** ... and none otherwise *)
Theorem bind_other_notifications {V S} (c : config V S) names b : ~ In (c_name c) names -> notify c names b = b.
Proof.
  unfold notify. revert b. induction names as [|n names IH]; intros b H; [reflexivity|]. cbn [fold_left].
  assert (P : property_changed c n b = b).
  { unfold property_changed. rewrite (proj2 (String.eqb_neq n (c_name c))) by (intros E; apply H; left; exact E). rewrite andb_false_r. reflexivity. }
  rewrite P. apply IH. intros C. apply H. right. exact C.
Qed.
(** update_source stores the validated back-converted value, once *)
Theorem bind_update_source {V S} (sget : S -> pv V) sset name conv back valid fallback (b : bstate V S) v :
  let c := property_binding sget sset name conv back valid fallback in
  b_open b = true ->
  match back v with
  | Err e => update_source c v b = (b, Err e)
  | Ok v1 =>
      match valid v1 with
      | Err e => update_source c v b = (b, Err e)
      | Ok v2 => b_src (fst (update_source c v b)) = fst (sset (b_src b) v2) /\ snd (update_source c v b) = Ok tt
      end
  end.
Proof.
  intros c Ho. unfold update_source. rewrite Ho. cbn [c c_back c_validate c_setter property_binding].
  destruct (back v) as [v1|e]; [|reflexivity]. destruct (valid v1) as [v2|e]; [|reflexivity].
  destruct (sset (b_src b) v2) as [s' names] eqn:E. cbn [fst snd]. split; [|reflexivity].
  assert (G : forall names b, b_src (notify c names b) = b_src b).
  { clear. unfold notify. induction names as [|n names IH]; intros b; [reflexivity|]. cbn [fold_left]. rewrite IH.
    unfold property_changed. destruct (b_open b && String.eqb n (c_name c)); [|reflexivity].
    destruct (c_change c (b_src b)) as [[x|]|]; [destruct (c_convert c x)| |]; try reflexivity; unfold target_direct; destruct (b_target b); reflexivity. }
  rewrite G. reflexivity.
Qed.
Lemma notify_src {V S} (c : config V S) names b : b_src (notify c names b) = b_src b /\ b_open (notify c names b) = b_open b /\ b_target (notify c names b) = b_target b.
Proof.
  unfold notify. revert b. induction names as [|n names IH]; intros b; [auto|]. cbn [fold_left]. destruct (IH (property_changed c n b)) as (-> & -> & ->).
  unfold property_changed. destruct (b_open b && String.eqb n (c_name c)); [|auto].
  destruct (c_change c (b_src b)) as [[x|]|]; [destruct (c_convert c x)| |]; auto; unfold target_direct; destruct (b_target b) eqn:E; cbn [b_src b_open b_target]; auto.
Qed.
Section InStep.
  Context {V S : Type} (sget : S -> pv V) (sset : S -> pv V -> S * list string) (name : string).
  Context (conv back valid : pv V -> pv V) (fallback : pv V).
  Definition bind_c : config V S := property_binding sget sset name (fun v => Ok (conv v)) (fun v => Ok (back v)) (fun v => Ok (valid v)) fallback.
  Definition src_step (s : S) (o : op V S) : S :=
    match o with Change s' _ => s' | Update v => fst (sset s (valid (back v))) | _ => s end.
  Lemma change_expected s : match c_change bind_c s with
    Ok (Some v) => c_convert bind_c v = Ok (expected conv fallback (sget s)) | Ok None => expected conv fallback (sget s) = c_fallback bind_c | Err _ => False end.
  Proof. cbn [bind_c c_change property_binding c_convert c_fallback]. destruct (sget s); reflexivity. Qed.
  Lemma in_step_change init s' names (b : bstate V S) :
    shows init b = expected conv fallback (sget (b_src b)) -> (sget s' = sget (b_src b) \/ In name names) ->
    shows init (notify bind_c names (BState s' true true (b_writes b))) = expected conv fallback (sget s').
  Proof.
    intros Hs Hh. rewrite (bind_notified bind_c names (BState s' true true (b_writes b)) (expected conv fallback (sget s')) eq_refl eq_refl (change_expected s')).
    cbn [b_src b_writes]. unfold shows in *. cbn [b_writes]. change (c_name bind_c) with name.
    destruct (count_occ string_dec names name) eqn:C; [|reflexivity]. cbn [repeat app]. rewrite Hs.
    assert (N : ~ In name names) by (rewrite (count_occ_In string_dec); lia).
    destruct Hh as [->|Hh]; [reflexivity|contradiction].
  Qed.
  (** with an honest source an open binding's target is always in step, and the source is what was assigned *)
  Theorem bind_in_step l s0 : honest_set name sget sset -> honest_ops name sget src_step s0 l -> never_closed l ->
    let init := expected conv fallback (sget s0) in
    let b := run bind_c l (BState s0 true true []) in
    b_src b = fold_left src_step l s0 /\ shows init b = expected conv fallback (sget (b_src b)) /\
    get_target_value bind_c b = Ok (shows init b).
  Proof.
    intros Hset Hops Hcl init b.
    assert (G : forall l (b : bstate V S), honest_ops name sget src_step (b_src b) l -> never_closed l -> b_open b = true -> b_target b = true ->
      shows init b = expected conv fallback (sget (b_src b)) ->
      b_src (run bind_c l b) = fold_left src_step l (b_src b) /\ b_open (run bind_c l b) = true /\
      shows init (run bind_c l b) = expected conv fallback (sget (b_src (run bind_c l b)))).
    { clear b Hops Hcl l. induction l as [|o l IH]; intros b Hops Hcl Ho Ht Hs; [auto|]. destruct Hops as [Hop Hops].
      assert (Hcl' : never_closed l) by (intros C; apply Hcl; right; exact C).
      unfold run. cbn [fold_left]. fold (run bind_c l (fst (step bind_c b o))).
      assert (St : b_src (fst (step bind_c b o)) = src_step (b_src b) o /\ b_open (fst (step bind_c b o)) = true /\ b_target (fst (step bind_c b o)) = true /\
        shows init (fst (step bind_c b o)) = expected conv fallback (sget (b_src (fst (step bind_c b o))))).
      { destruct o as [s' names|v| |]; cbn [step fst].
        - rewrite Ho, Ht. destruct (notify_src bind_c names (BState s' true true (b_writes b))) as (E1 & E2 & E3). rewrite E1, E2, E3.
          repeat split. apply in_step_change; assumption.
        - unfold update_source. rewrite Ho. cbn [bind_c c_back c_validate c_setter property_binding].
          destruct (sset (b_src b) (valid (back v))) as [s' names] eqn:E. cbn [fst]. fold bind_c. rewrite Ht.
          destruct (notify_src bind_c names (BState s' true true (b_writes b))) as (E1 & E2 & E3). rewrite E1, E2, E3. cbn [b_src b_open b_target src_step]. rewrite E.
          repeat split. apply in_step_change; [exact Hs|]. pose proof (Hset (b_src b) (valid (back v))) as H. rewrite E in H. exact H.
        - cbn [b_src b_open b_target src_step]. repeat split; assumption.
        - exfalso. apply Hcl. left. reflexivity. }
      destruct St as (S1 & S2 & S3 & S4). rewrite S1 in *. rewrite <- S1 in S4.
      destruct (IH (fst (step bind_c b o))) as (R1 & R2 & R3); auto; [rewrite S1; exact Hops|].
      rewrite S1 in R1. auto. }
    destruct (G l (BState s0 true true []) Hops Hcl eq_refl eq_refl eq_refl) as (R1 & R2 & R3). fold b in R1, R2, R3.
    split; [exact R1|]. split; [exact R3|]. rewrite R3. unfold get_target_value. rewrite R2. cbn [bind_c c_getter property_binding c_convert c_fallback].
    unfold expected. destruct (sget (b_src b)); reflexivity.
  Qed.
End InStep.
(** after close nothing is written, to either side, and the source is not read *)
Theorem bind_closed {V S} (c : config V S) b l : b_open b = true ->
  let b' := fst (close b) in
  snd (close b) = Ok tt /\ snd (close b') = Err AttributeError /\
  b_writes (run c l b') = b_writes b /\ b_src (run c l b') = only_others l (b_src b) /\
  get_target_value c (run c l b') = Ok (c_fallback c).
Proof.
  intros Ho b'. subst b'. unfold close. rewrite Ho. cbn [fst snd b_open].
  assert (N : forall names b, b_open b = false -> notify c names b = b).
  { clear. unfold notify. induction names as [|n names IH]; intros b H; [reflexivity|]. cbn [fold_left].
    unfold property_changed at 2. rewrite H. cbn [andb]. apply IH, H. }
  assert (G : forall l (b : bstate V S), b_open b = false ->
    b_open (run c l b) = false /\ b_writes (run c l b) = b_writes b /\ b_src (run c l b) = only_others l (b_src b)).
  { clear b l Ho. induction l as [|o l IH]; intros b Hb; [auto|]. unfold run. cbn [fold_left]. fold (run c l (fst (step c b o))).
    destruct o as [s' names|v| |]; cbn [step fst only_others].
    - rewrite N by (cbn; exact Hb). destruct (IH (BState s' (b_open b) (b_target b) (b_writes b)) Hb) as (A & B & C). auto.
    - unfold update_source. rewrite Hb. cbn [fst]. apply IH, Hb.
    - destruct (IH (BState (b_src b) (b_open b) true (b_writes b)) Hb) as (A & B & C). auto.
    - unfold close. rewrite Hb. cbn [fst]. apply IH, Hb. }
  destruct (G l (BState (b_src b) false false (b_writes b)) eq_refl) as (A & B & C). repeat split; auto.
  unfold get_target_value. rewrite A. reflexivity.
Qed.

(** ** C54 *)
Lemma pad_to_nth {V} (i : Z) (l : list (pv V)) j : nth j (pad_to i l) None = nth j l None.
Proof.
  unfold pad_to. destruct (Nat.lt_ge_cases j (length l)) as [H|H]; [apply app_nth1, H|].
  rewrite app_nth2 by exact H. rewrite (nth_overflow l) by exact H. apply nth_repeat.
Qed.
Lemma pad_to_length {V} (i : Z) (l : list (pv V)) : Z.of_nat (length (pad_to i l)) = Z.max (Z.of_nat (length l)) (i + 1).
Proof. unfold pad_to. rewrite app_length, repeat_length. lia. Qed.
Lemma replace_nth {A} (d : A) k l v j : (k < length l)%nat -> nth j (firstn k l ++ v :: skipn (S k) l) d = if Nat.eq_dec j k then v else nth j l d.
Proof.
  intros H. assert (F : length (firstn k l) = k) by (rewrite firstn_length; lia). destruct (Nat.eq_dec j k) as [->|N].
  - rewrite app_nth2 by lia. rewrite F, Nat.sub_diag. reflexivity.
  - destruct (Nat.lt_ge_cases j k) as [L|L].
    + rewrite app_nth1 by lia. rewrite <- (firstn_skipn k l) at 2. rewrite app_nth1 by lia. reflexivity.
    + rewrite app_nth2 by lia. rewrite F. replace (j - k)%nat with (S (j - S k)) by lia. cbn [nth].
      rewrite <- (firstn_skipn (S k) l) at 2. rewrite app_nth2 by (rewrite firstn_length; lia). rewrite firstn_length, Nat.min_l by lia. reflexivity.
Qed.
(** element i is set, all others are kept, and the tuple is padded with None up to i *)
Theorem tuple_set_element {V} (t : option (list (pv V))) (i : nat) v :
  exists l, tuple_set t (Z.of_nat i) v = Ok (Some l) /\
    length l = Nat.max (match t with Some l0 => length l0 | None => 0 end) (S i) /\
    forall j, nth j l None = if Nat.eq_dec j i then v else element t j.
Proof.
  set (l0 := match t with Some l0 => l0 | None => [] end).
  assert (E : forall j, nth j l0 None = element t j) by (intros j; subst l0; destruct t; [reflexivity|destruct j; reflexivity]).
  pose proof (pad_to_length (Z.of_nat i) l0) as L. unfold tuple_set. fold l0. cbv zeta.
  set (l := pad_to (Z.of_nat i) l0) in *. rewrite py_index_nat by lia. eexists. split; [reflexivity|]. split.
  - rewrite app_length. cbn [length]. rewrite firstn_length, skipn_length. destruct t; subst l0; cbn [length] in *; lia.
  - intros j. rewrite replace_nth by lia. destruct (Nat.eq_dec j i); [reflexivity|]. rewrite <- E. apply pad_to_nth.
Qed.
(** a negative index counts from the end and raises beyond the start *)
Theorem tuple_set_negative {V} (t : option (list (pv V))) (i : Z) v : (i < 0)%Z ->
  let l0 := match t with Some l0 => l0 | None => [] end in
  match tuple_set t i v with
  | Ok t' => (0 <= i + Z.of_nat (length l0))%Z /\ exists l, t' = Some l /\ length l = length l0 /\
      forall j, nth j l None = if Nat.eq_dec j (Z.to_nat (i + Z.of_nat (length l0))) then v else element t j
  | Err e => e = IndexError /\ (i + Z.of_nat (length l0) < 0)%Z
  end.
Proof.
  intros Hi l0. assert (E : forall j, nth j l0 None = element t j) by (intros j; subst l0; destruct t; [reflexivity|destruct j; reflexivity]).
  assert (P : pad_to i l0 = l0) by (unfold pad_to; replace (Z.to_nat _) with 0%nat by lia; apply app_nil_r).
  unfold tuple_set. fold l0. rewrite P. cbv zeta. clearbody l0. unfold py_index. rewrite (proj2 (Z.ltb_lt i 0) Hi).
  destruct (0 <=? i + Z.of_nat (length l0))%Z eqn:C; cbn [andb].
  - apply Z.leb_le in C. destruct (i + Z.of_nat (length l0) <? Z.of_nat (length l0))%Z eqn:D; [|apply Z.ltb_ge in D; lia].
    split; [exact C|]. eexists. split; [reflexivity|]. split.
    + rewrite app_length. cbn [length]. rewrite firstn_length, skipn_length. lia.
    + intros j. rewrite replace_nth by lia. destruct (Nat.eq_dec j _); [reflexivity|apply E].
  - apply Z.leb_gt in C. split; [reflexivity|exact C].
Qed.
(** through the binding: the value can be read back, and a binding of another element does not see a difference *)
Lemma element_getter {V} (t : option (list (pv V))) (j : nat) :
  match tuple_element t (Z.of_nat j) with Ok (Some x) => x = element t j | Ok None => element t j = None | Err _ => False end.
Proof.
  unfold tuple_element, element. destruct t as [l|]; [|reflexivity]. destruct (Z.of_nat j <? Z.of_nat (length l))%Z eqn:E.
  - apply Z.ltb_lt in E. unfold py_get. rewrite py_index_nat by lia. destruct (nth_error l j) eqn:N; [symmetry; apply nth_error_nth, N|].
    apply nth_error_None in N. lia.
  - apply Z.ltb_ge in E. apply nth_overflow. lia.
Qed.
Theorem bind_tuple_update {V S} (sget : S -> option (list (pv V))) sset name (i j : nat) conv back fallback fallback' s v w tg ws :
  (forall s t, sget (fst (sset s t)) = t) -> back v = Ok w ->
  let ci := tuple_binding sget sset name (Z.of_nat i) conv back fallback in
  let cj := tuple_binding sget sset name (Z.of_nat j) conv back fallback' in
  let b := BState s true tg ws in
  let '(b', r) := update_source ci v b in
  r = Ok tt /\ element (sget (b_src b')) i = w /\
  get_target_value ci b' = match w with Some _ => conv w | None => Ok fallback end /\
  (i <> j -> element (sget (b_src b')) j = element (sget s) j /\ get_target_value cj b' = get_target_value cj b).
Proof.
  intros Hs Hb ci cj b.
  destruct (tuple_set_element (sget s) i w) as (l & E & _ & N). pose proof (Hs s (Some l)) as G. destruct (sset s (Some l)) as [s' names] eqn:Es. cbn [fst] in G.
  assert (U : update_source ci v b = (notify ci names (BState s' true tg ws), Ok tt)).
  { unfold update_source. subst ci b. cbn [b_open c_back c_validate c_setter tuple_binding b_src b_target b_writes]. rewrite Hb, E, Es. reflexivity. }
  rewrite U. destruct (notify_src ci names (BState s' true tg ws)) as (E1 & E2 & E3). cbn [b_src b_open] in E1, E2.
  assert (Ei : element (Some l) i = w) by (cbn [element]; rewrite N; destruct (Nat.eq_dec i i); congruence).
  assert (T : forall k (b : bstate V S) fb, b_open b = true ->
    get_target_value (tuple_binding sget sset name (Z.of_nat k) conv back fb) b = match element (sget (b_src b)) k with Some x => conv (Some x) | None => Ok fb end).
  { clear. intros k b fb Ho. unfold get_target_value. rewrite Ho. cbn [c_getter tuple_binding c_convert c_fallback].
    pose proof (element_getter (sget (b_src b)) k) as H. destruct (tuple_element (sget (b_src b)) (Z.of_nat k)) as [[x|]|]; [subst x|rewrite H|contradiction]; reflexivity. }
  split; [reflexivity|]. split; [rewrite E1, G; exact Ei|]. split.
  - subst ci. rewrite T by exact E2. rewrite E1, G, Ei. destruct w; reflexivity.
  - intros D. assert (Ej : element (Some l) j = element (sget s) j) by (cbn [element]; rewrite N; destruct (Nat.eq_dec j i); congruence).
    split; [rewrite E1, G; exact Ej|]. subst cj. rewrite !T by (reflexivity || exact E2). rewrite E1, G, Ej. subst b. reflexivity.
Qed.
(** finding: setting element 1 of an empty tuple makes the binding of element 0 show the converted None, not the fallback *)
Theorem bind_tuple_none_refuted :
  let sset (s : option (list (pv nat))) t : option (list (pv nat)) * list string := (t, ["p"%string]) in
  let c := tuple_binding (fun s => s) sset "p" 0 (fun v => Ok v) (fun v => Ok v) (Some 9) in
  let b := fst (step c (BState None true true []) (Change (Some [None; Some 5]) ["p"%string])) in
  b_writes b = [None] /\ get_target_value c b = Ok (Some 9).
Proof. vm_compute. auto. Qed.

(** ** C55 *)
(** the attribute is set in the object, which stays the value of the property; everything else is kept *)
Theorem bind_attribute_update {V} notifies name attr conv back fallback (s : asource V) r v w tg ws :
  a_prop s = Some r -> back v = Ok w ->
  let c := attribute_binding notifies name attr conv back fallback in
  let '(b', res) := update_source c v (BState s true tg ws) in
  res = Ok tt /\ a_prop (b_src b') = Some r /\ a_heap (b_src b') r attr = Some w /\
  (forall r' a, (r', a) <> (r, attr) -> a_heap (b_src b') r' a = a_heap s r' a) /\
  get_target_value c b' = match w with Some _ => conv w | None => Ok fallback end.
Proof.
  intros Hp Hb c. unfold update_source. cbn [c b_open c_back c_validate c_setter attribute_binding b_src b_target b_writes]. rewrite Hb.
  unfold attribute_set. rewrite Hp. unfold assign. cbn [set_attribute].
  match goal with |- context [notify ?c ?n ?b] => destruct (notify_src c n b) as (E1 & E2 & E3) end. cbn [b_src b_open] in E1, E2.
  assert (Hh : forall r' a, a_heap (set_attribute s r attr w) r' a = if Nat.eqb r' r && String.eqb a attr then Some w else a_heap s r' a) by reflexivity.
  assert (Hr : a_heap (set_attribute s r attr w) r attr = Some w) by (rewrite Hh, Nat.eqb_refl, String.eqb_refl; reflexivity).
  split; [reflexivity|]. split; [rewrite E1; reflexivity|]. split; [rewrite E1; exact Hr|]. split.
  - intros r' a D. rewrite E1. cbn [a_heap]. rewrite Hh. destruct (Nat.eqb r' r) eqn:A, (String.eqb a attr) eqn:B; cbn [andb]; [exfalso|reflexivity..].
     apply Nat.eqb_eq in A. apply String.eqb_eq in B. congruence.
  - unfold get_target_value. rewrite E2, E1. subst c. cbn [c_getter attribute_binding c_convert c_fallback]. unfold read_attribute. cbn [a_prop a_heap].
    rewrite Hr. destruct w; reflexivity.
Qed.
(** if the assignment notifies, the target receives the converted value *)
Theorem bind_attribute_target {V} notifies name attr conv back fallback (s : asource V) r v w t ws :
  a_prop s = Some r -> back v = Ok w -> conv w = Ok t -> (forall s1 s2, count_occ string_dec (notifies s1 s2) name = 1) ->
  let c := attribute_binding notifies name attr conv back fallback in
  b_writes (fst (update_source c v (BState s true true ws))) = t :: ws.
Proof.
  intros Hp Hb Hc Hn c. unfold update_source. cbn [c b_open c_back c_validate c_setter attribute_binding b_src b_target b_writes]. rewrite Hb.
  unfold attribute_set. rewrite Hp. unfold assign. cbn [fst].
  rewrite (bind_notified _ _ _ t); [|reflexivity|reflexivity|].
  - cbn [b_writes c_name]. rewrite Hn. reflexivity.
  - assert (Hr : a_heap (set_attribute s r attr w) r attr = Some w) by (cbn [set_attribute a_heap]; rewrite Nat.eqb_refl, String.eqb_refl; reflexivity).
    try subst c. cbn [c_change attribute_binding b_src c_convert]. unfold read_attribute. cbn [a_prop a_heap]. rewrite Hr. exact Hc.
Qed.
Theorem bind_attribute_none {V} notifies name attr conv back fallback (s : asource V) v w tg ws :
  a_prop s = None -> back v = Ok w ->
  let c := attribute_binding notifies name attr conv back fallback in
  update_source c v (BState s true tg ws) = (BState s true tg ws, Err AttributeError) /\ get_target_value c (BState s true tg ws) = Ok fallback.
Proof.
  intros Hp Hb c. unfold update_source, get_target_value. cbn [c b_open c_back c_validate c_setter attribute_binding b_src b_target b_writes c_getter c_fallback]. rewrite Hb.
  unfold attribute_set, read_attribute. rewrite Hp. auto.
Qed.
(** finding: the same object is assigned again, so a source that notifies only for a different object stays silent and
    the target keeps the old value *)
Theorem bind_attribute_silent_refuted :
  let notifies (s1 s2 : asource nat) := match a_prop s1, a_prop s2 with Some r1, Some r2 => if Nat.eqb r1 r2 then [] else ["p"%string] | _, _ => ["p"%string] end in
  let s := ASource (fun r a => if String.eqb a "x" then Some (Some 1) else None) (Some 0) in
  let c := attribute_binding notifies "p" "x" (fun v => Ok v) (fun v => Ok v) None in
  let b := fst (update_source c (Some 7) (BState s true true [Some 1])) in
  get_target_value c b = Ok (Some 7) /\ b_writes b = [Some 1].
Proof. vm_compute. auto. Qed.

(** ** C56 *)
Theorem bind_list_mirror {A} key l (lists : string -> list A) :
  let b := lrun key l (LState lists true (lists key)) in
  (forall k, l_lists b k = fold_left (edited k) l (lists k)) /\ (~ In LClose l -> l_target b = l_lists b key /\ l_open b = true).
Proof.
  assert (G : forall l (b : lstate A), (forall k, l_lists (lrun key l b) k = fold_left (edited k) l (l_lists b k)) /\
    (~ In LClose l -> l_open b = true -> l_target b = l_lists b key -> l_target (lrun key l b) = l_lists (lrun key l b) key /\ l_open (lrun key l b) = true)).
  { clear. induction l as [|o l IH]; intros b; [auto|]. unfold lrun. cbn [fold_left]. fold (lrun key l (fst (lstep key b o))).
    destruct (IH (fst (lstep key b o))) as [I1 I2]. split.
    - intros k. rewrite I1. f_equal. destruct o as [k' i x|k' i|]; cbn [lstep edited fst].
      + unfold item_inserted. cbn [l_open]. destruct (l_open b && String.eqb k' key); cbn [l_lists]; unfold set_list;
          destruct (String.eqb k k') eqn:E; try reflexivity; apply String.eqb_eq in E; subst; reflexivity.
      + destruct (py_del (l_lists b k') i) as [l'|e] eqn:D; cbn [fst].
        * unfold item_removed. cbn [l_open]. destruct (String.eqb k k') eqn:E; [apply String.eqb_eq in E; subst k'; rewrite D|];
            (destruct (l_open b && String.eqb _ key); cbn [l_target]; [destruct (py_del (l_target b) i)|]; cbn [l_lists]; unfold set_list; rewrite ?E, ?String.eqb_refl; reflexivity).
        * destruct (String.eqb k k') eqn:E; [apply String.eqb_eq in E; subst k'; rewrite D|]; reflexivity.
      + destruct (l_open b); reflexivity.
    - intros Hc Ho Ht. assert (Hc' : ~ In LClose l) by (intros C; apply Hc; right; exact C).
      apply I2; [exact Hc'| |]; destruct o as [k' i x|k' i|]; cbn [lstep fst]; try (exfalso; apply Hc; left; reflexivity).
      + unfold item_inserted. cbn [l_open]. rewrite Ho. cbn [andb]. destruct (String.eqb k' key); cbn [l_open]; congruence.
      + destruct (py_del (l_lists b k') i) as [l'|e]; [|exact Ho]. cbn [fst]. unfold item_removed. cbn [l_open]. rewrite Ho. cbn [andb].
        destruct (String.eqb k' key); cbn [l_target]; [destruct (py_del (l_target b) i)|]; reflexivity.
      + unfold item_inserted. cbn [l_open]. rewrite Ho. cbn [andb]. destruct (String.eqb k' key) eqn:E; cbn [l_target l_lists]; unfold set_list.
        * apply String.eqb_eq in E. subst k'. rewrite String.eqb_refl, Ht. reflexivity.
        * rewrite String.eqb_sym, E. exact Ht.
      + destruct (py_del (l_lists b k') i) as [l'|e] eqn:D; [|exact Ht]. cbn [fst]. unfold item_removed. cbn [l_open]. rewrite Ho. cbn [andb].
        destruct (String.eqb k' key) eqn:E; cbn [l_target l_lists].
        * apply String.eqb_eq in E. subst k'. rewrite Ht, D. cbn [l_target l_lists]. unfold set_list. rewrite String.eqb_refl. reflexivity.
        * unfold set_list. rewrite String.eqb_sym, E. exact Ht. }
  intros b. destruct (G l (LState lists true (lists key))) as [G1 G2]. split; [exact G1|]. intros H. apply G2; auto.
Qed.
Theorem bind_list_closed {A} key l (b : lstate A) :
  l_target (lrun key l (fst (lstep key b LClose))) = l_target b /\
  snd (lstep key (fst (lstep key b LClose)) LClose) = Err AttributeError.
Proof.
  assert (G : forall l (b : lstate A), l_open b = false -> l_target (lrun key l b) = l_target b).
  { clear. induction l as [|o l IH]; intros b Hb; [reflexivity|]. unfold lrun. cbn [fold_left]. fold (lrun key l (fst (lstep key b o))).
    destruct o as [k i x|k i|]; cbn [lstep fst].
    - unfold item_inserted. cbn [l_open]. rewrite Hb. cbn [andb]. rewrite IH; reflexivity.
    - destruct (py_del (l_lists b k) i); cbn [fst]; [|apply IH, Hb]. unfold item_removed. cbn [l_open]. rewrite Hb. cbn [andb]. rewrite IH; reflexivity.
    - rewrite Hb. apply IH, Hb. }
  cbn [lstep]. destruct (l_open b) eqn:E; cbn [fst snd l_open].
  - split; [rewrite G by reflexivity|]; reflexivity.
  - split; [rewrite G by exact E; reflexivity|rewrite E; reflexivity].
Qed.

Print Assumptions bind_notified.
Print Assumptions bind_other_notifications.
Print Assumptions bind_update_source.
Print Assumptions bind_in_step.
Print Assumptions bind_closed.
Print Assumptions tuple_set_element.
Print Assumptions tuple_set_negative.
Print Assumptions bind_tuple_update.
Print Assumptions bind_tuple_none_refuted.
Print Assumptions bind_attribute_update.
Print Assumptions bind_attribute_target.
Print Assumptions bind_attribute_none.
Print Assumptions bind_attribute_silent_refuted.
Print Assumptions bind_list_mirror.
Print Assumptions bind_list_closed.

Example bind_c53_case :
  let sset (s : pv nat) v : pv nat * list string := (v, ["p"%string]) in
  let c := property_binding (fun s => s) sset "p" (fun v => Ok (option_map S v)) (fun v => Ok (option_map pred v)) (fun v => Ok v) (Some 0) in
  let b := run c [Update (Some 5); Change None ["q"%string; "p"%string]; Update (Some 3)] (BState (Some 1) true true []) in
  b_writes b = [Some 3; Some 0; Some 5] /\ b_src b = Some 2 /\ get_target_value c b = Ok (Some 3).
Proof. vm_compute. auto. Qed.
Example bind_c54_case : tuple_set (Some [Some 1]) 2 (Some 7) = Ok (Some [Some 1; None; Some 7]) /\ tuple_set None (-1) (Some 7) = Err IndexError (A := option (list (pv nat))).
Proof. auto. Qed.
Example bind_c56_case :
  let b := lrun "a" [LInsert "a" 0 1; LInsert "b" 0 9; LInsert "a" (-1) 2; LRemove "a" 5; LRemove "a" (-1)] (LState (fun _ => []) true []) in
  l_target b = [2] /\ l_lists b "a"%string = [2] /\ l_lists b "b"%string = [9].
Proof. vm_compute. auto. Qed.
