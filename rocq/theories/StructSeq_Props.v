(** Property C88: the sequence that an array field reads as. *)
From Coq Require Import ZArith Bool List Lia Arith.
From Verif Require Import PyBase Struct_Model StructSeq_Model StructSeq_Spec StructSeq_Proofs.
Import ListNotations.

(** the states an array gets to from any items by operations on the sequence *)
Inductive reached : tramp -> Prop :=
  | R_made items : reached (tramp_make items)
  | R_step t o t' n r : reached t -> seq_step t o = (t', n, r) -> reached t'.
Lemma unlike_step t o t' n r : unlike_list o -> seq_step t o = (t', n, r) -> t' = t /\ n = [].
Proof. destruct o; cbn; intros []; intros H; injection H as <- <- _; auto. Qed.
Lemma reached_synced t : reached t -> synced t.
Proof.
  induction 1 as [items|t o t' n r _ IH H]; [reflexivity|].
  assert (D : unlike_list o \/ ~ unlike_list o) by (destruct o; cbn; auto). destruct D as [D|D].
  - destruct (unlike_step t o t' n r D H) as [-> _]. exact IH.
  - apply (step_list t o IH D t' n r H).
Qed.
(** C88: in every reachable state the operations are those of a Python list, and the notifications say what happened *)
Theorem seq_as_list t o t' n r : reached t -> ~ unlike_list o -> seq_step t o = (t', n, r) ->
  list_op o (t_items t) r (t_items t') /\ follows (t_items t) n (t_items t').
Proof. intros R U H. destruct (step_list t o (reached_synced t R) U t' n r H) as (A & _ & B). auto. Qed.
(** C88: the exceptions: membership raises AttributeError, assignment IndexError, reversal IndexError from two items on *)
Theorem seq_unlike_list t o t' n r : unlike_list o -> seq_step t o = (t', n, r) ->
  t' = t /\ n = [] /\
  match o with
  | QIn _ => r = Err AttributeError
  | QSet _ _ => r = Err IndexError
  | _ => r = if Nat.leb (length (t_items t)) 1 then Ok RNone else Err IndexError
  end.
Proof.
  intros U H. destruct (unlike_step t o t' n r U H) as [-> ->]. split; [reflexivity|]. split; [reflexivity|].
  destruct o; cbn in U; try contradiction; cbn [seq_step] in H; injection H as H; subst r; try reflexivity.
  destruct (Nat.ltb_spec 1 (length (t_items t))); destruct (Nat.leb_spec (length (t_items t)) 1); try reflexivity; lia.
Qed.
(** C88: clear of an array in any state, also with too few trampolines: it stops after the first item without one *)
Theorem seq_clear_any t t' n r : seq_step t QClear = (t', n, r) ->
  r = Ok RNone /\ t_items t' = firstn (length (t_items t) - length (t_listen t) - 1) (t_items t) /\ follows (t_items t) n (t_items t').
Proof.
  intros H. cbn [seq_step] in H. destruct (clear_general (S (length (t_items t))) t ltac:(lia)) as (t1 & n1 & E1 & I1 & L1 & F1).
  rewrite E1 in H. injection H as <- <- <-. auto.
Qed.
(** FINDING: items loaded from a dict value have no trampoline, so clearing an array of n > 0 loaded items takes away one
    item only, without an error *)
Theorem seq_clear_refuted made : made <> [] ->
  let t := trun [TLoad (length made) made] (tramp_make []) in
  t_items t = made /\
  exists t' n, seq_step t QClear = (t', n, Ok RNone) /\ t_items t' = removelast made.
Proof.
  intros N. cbv zeta. cbn [trun fold_left tstep fst tramp_make t_items t_listen].
  destruct made as [|x made]; [contradiction|]. change (Nat.leb (length (x :: made)) (length (@nil nat))) with false.
  rewrite Nat.sub_0_r, app_nil_l, firstn_all. split; [reflexivity|].
  destruct (seq_step (Tramp (x :: made) []) QClear) as [[t' n] r] eqn:E. exists t', n.
  destruct (seq_clear_any _ _ _ _ E) as (-> & I & _). split; [reflexivity|]. rewrite I. cbn [t_items t_listen].
  rewrite removelast_firstn_len. f_equal. cbn [length]. lia.
Qed.
Print Assumptions seq_as_list.
Print Assumptions seq_unlike_list.
Print Assumptions seq_clear_any.
Print Assumptions seq_clear_refuted.
Example seq_case :
  let t := tramp_make [4; 5; 6; 5] in
  seq_step t (QPop (-2)) = (Tramp [4; 5; 5] [4; 5; 5], [Removed 6 (-2)], Ok (RItem 6)) /\
  seq_step t (QRemove 5) = (Tramp [4; 6; 5] [4; 6; 5], [Removed 5 1], Ok RNone) /\
  seq_step t (QInsert (-1) 9) = (Tramp [4; 5; 6; 9; 5] [4; 5; 6; 5; 9], [Inserted 9 (-1)], Ok RNone) /\
  seq_step t (QIndex 7) = (t, [], Err ValueError) /\ snd (seq_step t QReverse) = Err IndexError /\
  fst (fst (seq_step t QClear)) = Tramp [] [] /\ snd (seq_step t (QIn 4)) = Err AttributeError.
Proof. repeat split. Qed.
Example seq_loaded_case :
  let t := trun [TLoad 3 [7; 8; 9]] (tramp_make []) in
  t = Tramp [7; 8; 9] [] /\ seq_step t QClear = (Tramp [7; 8] [], [Removed 9 (-1)], Ok RNone).
Proof. repeat split. Qed.
