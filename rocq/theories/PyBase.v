(** Python primitives shared by all models (language semantics, not code of the repository). *)
From Coq Require Import List ZArith Lia Bool Arith Permutation Sorted.
Import ListNotations.

(** Exceptions as values.  [HandlerError] stands for whatever a client callback raises. *)
Inductive exn :=
| AssertionError | KeyError | IndexError | ValueError | AttributeError | TypeError
| RecursionError | ZeroDivisionError | HandlerError.

Inductive res (A : Type) := Ok (a : A) | Err (e : exn).
Arguments Ok {A} a.
Arguments Err {A} e.

(** [list.insert(i, x)]: a negative index counts from the end, then clamp to [0, len]. *)
Definition py_insert_pos (n : nat) (i : Z) : nat :=
  let i' := if (i <? 0)%Z then (i + Z.of_nat n)%Z else i in
  Z.to_nat (Z.min (Z.of_nat n) (Z.max 0 i')).

Definition insert_at {A} (k : nat) (x : A) (l : list A) : list A := firstn k l ++ x :: skipn k l.

Definition py_insert {A} (i : Z) (x : A) (l : list A) : list A :=
  insert_at (py_insert_pos (length l) i) x l.

(** [l[i]] and [del l[i]]: a negative index counts from the end, out of range raises IndexError. *)
Definition py_index (n : nat) (i : Z) : option nat :=
  let i' := if (i <? 0)%Z then (i + Z.of_nat n)%Z else i in
  if ((0 <=? i') && (i' <? Z.of_nat n))%Z then Some (Z.to_nat i') else None.

Definition delete_at {A} (k : nat) (l : list A) : list A := firstn k l ++ skipn (S k) l.

Definition py_get {A} (l : list A) (i : Z) : res A :=
  match py_index (length l) i with
  | Some k => match nth_error l k with Some x => Ok x | None => Err IndexError end
  | None => Err IndexError
  end.

Definition py_del {A} (l : list A) (i : Z) : res (list A) :=
  match py_index (length l) i with
  | Some k => Ok (delete_at k l)
  | None => Err IndexError
  end.

(** Stable sort (Python's [sorted] / [list.sort]): insertion after equal elements, with [lt] the
    only comparison used. *)
Section Sort.
  Context {A : Type} (lt : A -> A -> bool).
  (* the sort goes from the right end, so inserting before the first element that is not smaller
     keeps equal elements in their original order *)
  Fixpoint sort_insert (x : A) (l : list A) : list A :=
    match l with
    | [] => [x]
    | y :: l' => if lt y x then y :: sort_insert x l' else x :: y :: l'
    end.
  Definition py_sorted (l : list A) : list A := fold_right sort_insert [] l.
  Lemma sort_insert_perm x l : Permutation (sort_insert x l) (x :: l).
  Proof.
    induction l as [|y l IH]; simpl; [reflexivity|].
    destruct (lt y x); [|reflexivity].
    rewrite IH. apply perm_swap.
  Qed.
  Lemma py_sorted_perm l : Permutation (py_sorted l) l.
  Proof.
    induction l as [|x l IH]; simpl; [reflexivity|].
    rewrite sort_insert_perm. constructor. exact IH.
  Qed.
End Sort.

Lemma insert_at_length {A} k (x : A) l : length (insert_at k x l) = S (length l).
Proof.
  unfold insert_at. rewrite app_length. simpl. rewrite firstn_length, skipn_length. lia.
Qed.

Lemma delete_at_length {A} k (l : list A) : k < length l -> length (delete_at k l) = length l - 1.
Proof.
  intros H. unfold delete_at. rewrite app_length, firstn_length, skipn_length. lia.
Qed.

Lemma py_insert_pos_le n i : py_insert_pos n i <= n.
Proof. unfold py_insert_pos. destruct (i <? 0)%Z; lia. Qed.

Lemma py_insert_pos_nat n k : k <= n -> py_insert_pos n (Z.of_nat k) = k.
Proof.
  intros H. unfold py_insert_pos. destruct (Z.ltb_spec (Z.of_nat k) 0); lia.
Qed.

Lemma py_index_nat n k : k < n -> py_index n (Z.of_nat k) = Some k.
Proof.
  intros H. unfold py_index. destruct (Z.ltb_spec (Z.of_nat k) 0); [lia|].
  destruct (Z.leb_spec 0 (Z.of_nat k)); [|lia].
  destruct (Z.ltb_spec (Z.of_nat k) (Z.of_nat n)); [|lia].
  simpl. f_equal. lia.
Qed.

Lemma py_index_lt n i k : py_index n i = Some k -> k < n.
Proof.
  unfold py_index. set (i' := if (i <? 0)%Z then _ else _).
  destruct (Z.leb_spec 0 i'); simpl; [|discriminate].
  destruct (Z.ltb_spec i' (Z.of_nat n)); simpl; [|discriminate].
  intros [= <-]. lia.
Qed.

Lemma nth_error_insert_at {A} k (x : A) l j :
  k <= length l ->
  nth_error (insert_at k x l) j =
    if Nat.ltb j k then nth_error l j else if Nat.eqb j k then Some x else nth_error l (j - 1).
Proof.
  intros Hk. unfold insert_at.
  assert (Hf : length (firstn k l) = k) by (rewrite firstn_length; lia).
  destruct (Nat.ltb_spec j k) as [Hj|Hj].
  - rewrite nth_error_app1 by lia.
    rewrite <- (firstn_skipn k l) at 2. rewrite nth_error_app1 by lia. reflexivity.
  - rewrite nth_error_app2 by lia. rewrite Hf.
    destruct (Nat.eqb_spec j k) as [->|Hne].
    + rewrite Nat.sub_diag. reflexivity.
    + replace (j - k) with (S (j - k - 1)) by lia. simpl.
      rewrite <- (firstn_skipn k l) at 2. rewrite nth_error_app2 by lia. rewrite Hf.
      f_equal. lia.
Qed.

Lemma nth_error_delete_at {A} k (l : list A) j :
  k < length l ->
  nth_error (delete_at k l) j = if Nat.ltb j k then nth_error l j else nth_error l (S j).
Proof.
  intros Hk. unfold delete_at.
  assert (Hf : length (firstn k l) = k) by (rewrite firstn_length; lia).
  destruct (Nat.ltb_spec j k) as [Hj|Hj].
  - rewrite nth_error_app1 by lia.
    rewrite <- (firstn_skipn k l) at 2. rewrite nth_error_app1 by lia. reflexivity.
  - rewrite nth_error_app2 by lia. rewrite Hf.
    rewrite <- (firstn_skipn (S k) l) at 2.
    assert (Hf2 : length (firstn (S k) l) = S k) by (rewrite firstn_length; lia).
    rewrite nth_error_app2 by lia. rewrite Hf2. f_equal. 
Qed.

Lemma delete_insert_at {A} k (x : A) l : k <= length l -> delete_at k (insert_at k x l) = l.
Proof.
  intros Hk. unfold delete_at, insert_at.
  assert (Hf : length (firstn k l) = k) by (rewrite firstn_length; lia).
  rewrite firstn_app, Hf, Nat.sub_diag. simpl firstn at 2. rewrite app_nil_r, firstn_firstn, Nat.min_id.
  rewrite skipn_app, Hf. rewrite skipn_all2 by lia.
  replace (S k - k) with 1 by lia. simpl. apply firstn_skipn.
Qed.

Lemma insert_at_app {A} (l1 l2 : list A) x : insert_at (length l1) x (l1 ++ l2) = l1 ++ x :: l2.
Proof.
  unfold insert_at. rewrite firstn_app, firstn_all, Nat.sub_diag, firstn_O, app_nil_r.
  rewrite skipn_app, skipn_all, Nat.sub_diag, skipn_O. reflexivity.
Qed.

Lemma delete_at_app {A} (l1 l2 : list A) x : delete_at (length l1) (l1 ++ x :: l2) = l1 ++ l2.
Proof.
  unfold delete_at. rewrite firstn_app, firstn_all, Nat.sub_diag, firstn_O, app_nil_r. f_equal.
  rewrite skipn_app, skipn_all2 by lia. replace (S (length l1) - length l1) with 1 by lia. reflexivity.
Qed.

Lemma split_at {A} (l : list A) k : k <= length l -> exists l1 l2, l = l1 ++ l2 /\ length l1 = k.
Proof.
  intros H. exists (firstn k l), (skipn k l). split; [symmetry; apply firstn_skipn|]. rewrite firstn_length. lia.
Qed.

(** Insertion ordered dictionaries ([dict]): assigning to an existing key keeps its position. *)
Section Dict.
  Context {K V : Type} (K_dec : forall a b : K, {a = b} + {a <> b}).
  Fixpoint dict_get (k : K) (d : list (K * V)) : option V :=
    match d with
    | [] => None
    | (k', v) :: d' => if K_dec k k' then Some v else dict_get k d'
    end.
  Fixpoint dict_set (k : K) (v : V) (d : list (K * V)) : list (K * V) :=
    match d with
    | [] => [(k, v)]
    | (k', v') :: d' => if K_dec k k' then (k', v) :: d' else (k', v') :: dict_set k v d'
    end.
  Fixpoint dict_del (k : K) (d : list (K * V)) : list (K * V) :=
    match d with
    | [] => []
    | (k', v') :: d' => if K_dec k k' then d' else (k', v') :: dict_del k d'
    end.

  Lemma dict_get_set k v d j : dict_get j (dict_set k v d) = if K_dec j k then Some v else dict_get j d.
  Proof.
    induction d as [|[k' v'] d IH]; simpl.
    - destruct (K_dec j k); reflexivity.
    - destruct (K_dec k k') as [->|Hne]; simpl.
      + destruct (K_dec j k'); reflexivity.
      + rewrite IH. destruct (K_dec j k') as [->|]; [|reflexivity].
        destruct (K_dec k' k); [congruence|reflexivity].
  Qed.
  Lemma dict_set_keys k v d :
    map fst (dict_set k v d) = if in_dec K_dec k (map fst d) then map fst d else map fst d ++ [k].
  Proof.
    induction d as [|[k' v'] d IH]; simpl; [reflexivity|].
    destruct (K_dec k k') as [->|Hne]; simpl.
    - destruct (K_dec k' k'); [reflexivity|congruence].
    - rewrite IH. destruct (in_dec K_dec k (map fst d)) as [Hi|Hi]; destruct (K_dec k' k); try congruence; reflexivity.
  Qed.
  Lemma dict_get_in k v d : dict_get k d = Some v -> In (k, v) d.
  Proof.
    induction d as [|[k' v'] d IH]; simpl; [discriminate|].
    destruct (K_dec k k') as [->|]; [intros [= ->]; auto|auto].
  Qed.
  Lemma dict_get_none k d : dict_get k d = None <-> ~ In k (map fst d).
  Proof.
    induction d as [|[k' v'] d IH]; simpl; [tauto|].
    destruct (K_dec k k') as [->|]; [split; [discriminate|tauto]|]. rewrite IH. intuition congruence.
  Qed.
  Lemma dict_in_get k v d : NoDup (map fst d) -> In (k, v) d -> dict_get k d = Some v.
  Proof.
    induction d as [|[k' v'] d IH]; simpl; [tauto|].
    intros Hnd Hin. inversion Hnd as [|? ? Hni Hnd']; subst.
    destruct (K_dec k k') as [->|Hne].
    - destruct Hin as [[= ->]|Hin]; [reflexivity|]. exfalso. apply Hni. apply (in_map fst) in Hin. exact Hin.
    - destruct Hin as [[= -> ->]|Hin]; [congruence|auto].
  Qed.
  Lemma dict_set_nodup k v d : NoDup (map fst d) -> NoDup (map fst (dict_set k v d)).
  Proof.
    intros H. rewrite dict_set_keys. destruct (in_dec K_dec k (map fst d)); [exact H|].
    apply NoDup_rev in H. rewrite <- (rev_involutive (map fst d ++ [k])). apply NoDup_rev.
    rewrite rev_app_distr. simpl. constructor; [|exact H]. rewrite <- in_rev. assumption.
  Qed.
  Lemma dict_del_incl k d x : In x (map fst (dict_del k d)) -> In x (map fst d).
  Proof.
    induction d as [|[k' v'] d IH]; simpl; [tauto|]. destruct (K_dec k k'); simpl; tauto.
  Qed.
  Lemma dict_del_nodup k d : NoDup (map fst d) -> NoDup (map fst (dict_del k d)).
  Proof.
    induction d as [|[k' v'] d IH]; simpl; intros H; [constructor|].
    inversion H as [|? ? Hni Hnd]; subst. destruct (K_dec k k'); simpl; [exact Hnd|].
    constructor; [|auto]. intros Hin. apply Hni. eapply dict_del_incl. exact Hin.
  Qed.
  Lemma dict_get_del k d j :
    NoDup (map fst d) -> dict_get j (dict_del k d) = if K_dec j k then None else dict_get j d.
  Proof.
    induction d as [|[k' v'] d IH]; simpl; intros H.
    - destruct (K_dec j k); reflexivity.
    - inversion H as [|? ? Hni Hnd]; subst. destruct (K_dec k k') as [->|Hne].
      + destruct (K_dec j k') as [->|]; [apply dict_get_none; exact Hni|reflexivity].
      + simpl. rewrite (IH Hnd). destruct (K_dec j k') as [->|]; destruct (K_dec _ k); congruence.
  Qed.
End Dict.
