(** Property C09 of the filter classes. *)
From Coq Require Import List ZArith Bool String.
From Verif Require Import PyBase Filter_Model Filter_Spec Filter_Proofs.
Import ListNotations.

Section Filter.
  Context {K O V : Type}.
  Variables (attr : K -> O -> res V) (str_of : V -> string) (lower : string -> string)
            (as_string : V -> option string) (date_of : V -> option (Z * Z * Z)).
  Notation matches := (matches attr str_of lower as_string date_of).

  (** AndFilter: true iff all sub-filters are; any other result is that of the first sub-filter that is
      not true, the later ones not being looked at. *)
  Theorem filter_and_is_conjunction (fs : list (filter K O V)) d :
    (matches (FAnd fs) d = Ok true <-> forall g, In g fs -> matches g d = Ok true) /\
    (forall x, x <> Ok true -> (matches (FAnd fs) d = x <-> first_stop (fun g => matches g d) true fs x)).
  Proof. exact (py_all_lemma (fun g => matches g d) fs). Qed.

  Theorem filter_or_is_disjunction (fs : list (filter K O V)) d :
    (matches (FOr fs) d = Ok false <-> forall g, In g fs -> matches g d = Ok false) /\
    (forall x, x <> Ok false -> (matches (FOr fs) d = x <-> first_stop (fun g => matches g d) false fs x)).
  Proof. exact (py_any_lemma (fun g => matches g d) fs). Qed.

  (** Any tree whose leaves do not raise is the Boolean combination of its leaves. *)
  Theorem filter_tree_is_boolean leaf (f : filter K O V) d :
    (forall g, In g (leaves f) -> matches g d = Ok (leaf g)) -> matches f d = Ok (truth leaf f).
  Proof. exact (truth_lemma attr str_of lower as_string date_of leaf f d). Qed.

  Theorem filter_text_is_substring k t d x :
    attr k d = Ok x ->
    (matches (text_filter lower k t) d = Ok true <-> substring (lower t) (lower (str_of x))) /\
    (exists b, matches (text_filter lower k t) d = Ok b).
  Proof. exact (text_filter_lemma attr str_of lower as_string date_of k t d x). Qed.

  Theorem filter_date_fields k y m dd d x yy mm ddd :
    attr k d = Ok x -> date_of x = Some (yy, mm, ddd) ->
    exists b, matches (FDate k y m dd) d = Ok b /\
      (b = true <-> (forall v, y = Some v -> v = 0%Z \/ v = yy) /\ (forall v, m = Some v -> v = 0%Z \/ v = mm) /\
                    (forall v, dd = Some v -> v = 0%Z \/ v = ddd)).
  Proof. exact (date_filter_lemma attr str_of lower as_string date_of k y m dd d x yy mm ddd). Qed.

  (** comparison leaves: equal, not equal (complementary, same comparison, same exceptions) and starts-with *)
  Theorem filter_comparison_leaves k v cmp t d x :
    attr k d = Ok x ->
    matches (FEq k v cmp) d = cmp x v /\
    (forall b, matches (FNotEq k v cmp) d = Ok b <-> matches (FEq k v cmp) d = Ok (negb b)) /\
    (forall e, matches (FNotEq k v cmp) d = Err e <-> matches (FEq k v cmp) d = Err e) /\
    (forall w, as_string x = Some w ->
       exists b, matches (FStartsWith k t) d = Ok b /\ (b = true <-> exists rest, w = (t ++ rest)%string)).
  Proof.
    intros Hx. cbn [Filter_Model.matches]. rewrite Hx. split; [reflexivity|].
    split; [|split].
    - intros b. destruct (cmp x v) as [[]|e]; simpl; destruct b; simpl; split; congruence.
    - intros e. destruct (cmp x v) as [[]|e']; simpl; split; congruence.
    - intros w ->. eexists. split; [reflexivity|]. apply prefix_app_iff.
  Qed.

  Theorem filter_missing_attribute_raises k v cmp t lt y m dd d e :
    attr k d = Err e ->
    matches (FEq k v cmp) d = Err e /\ matches (FNotEq k v cmp) d = Err e /\ matches (FStartsWith k t) d = Err e /\
    matches (FText k t (Some lt)) d = Err e /\ matches (FDate k y m dd) d = Err e.
  Proof. intros He. cbn [Filter_Model.matches]. rewrite He. repeat split. Qed.

  Theorem filter_deepcopy_matches (f : filter K O V) d : no_text f -> matches (deepcopy f) d = matches f d.
  Proof. exact (deepcopy_matches_lemma attr str_of lower as_string date_of f d). Qed.

  (** Finding: a deep copied text filter cannot be used. *)
  Theorem filter_deepcopy_text_raises k t d x :
    attr k d = Ok x -> matches (deepcopy (text_filter lower k t)) d = Err AttributeError.
  Proof. exact (deepcopy_text_lemma attr str_of lower as_string date_of k t d x). Qed.
End Filter.
Print Assumptions filter_and_is_conjunction.
Print Assumptions filter_or_is_disjunction.
Print Assumptions filter_tree_is_boolean.
Print Assumptions filter_text_is_substring.
Print Assumptions filter_date_fields.
Print Assumptions filter_comparison_leaves.
Print Assumptions filter_missing_attribute_raises.
Print Assumptions filter_deepcopy_matches.
Print Assumptions filter_deepcopy_text_raises.

(** Objects are strings under key 0; other keys raise. *)
Definition c09_matches : filter nat string string -> string -> res bool :=
  matches (fun k d => if Nat.eqb k 0 then Ok d else Err AttributeError) id id Some
          (fun s => if String.eqb s "xmas" then Some (2020, 12, 25)%Z else None).
Definition c09_tree : filter nat string string :=
  FOr [FAnd [FStartsWith 0%nat "ab"; FNot (FEq 0%nat "abc"%string (fun a b => Ok (String.eqb a b)))];
       FAnd [FBase false; FStartsWith 7%nat "never looked at"]; FDate 0%nat (Some 2020%Z) None (Some 0%Z)].
Example filter_c09_case :
  no_text c09_tree /\ map (c09_matches c09_tree) ["abd"; "abc"; "xmas"]%string = [Ok true; Err AttributeError; Ok true] /\
  c09_matches (text_filter id 0%nat "bc"%string) "abcd"%string = Ok true /\
  c09_matches (deepcopy (FAnd [c09_tree; text_filter id 0%nat "bd"%string])) "abd"%string = Err AttributeError.
Proof. vm_compute. auto 10. Qed.
