(** Dicts of persistent objects: properties C70, C72 and C83. *)
From Coq Require Import String ZArith Bool List Lia.
From Verif Require Import PyBase PersistDict_Model PersistDict_Spec PersistDict_Proofs PersistDict_Proofs2.
Import ListNotations.

Section Props.
  Context {A V U M : Type}.
  Variable truthy : A -> bool.
  Variable ustr : U -> json A.
  Variable uparse : json A -> res U.
  Variable mparse : json A -> res M.
  Variable fresh : U.
  Variable now : M.
  Variable class : nat -> classdef A V.
  Notation write := (@write A V U M ustr class).
  Notation read := (@read A V U M truthy uparse mparse fresh now class).

  (** C70: what write_to_dict gives is read back into a new object of the same class as a tree of the same shape, with the
      same classes and uuids; each property has its value, or its default if nothing was written for the value.  The
      time of modification is not written. *)
  Theorem pd_round_trip o :
    (forall u, uparse (ustr u) = Ok u) -> well class o ->
    exists d o', write o = Ok d /\ read (JDict d) (o_cls o) = Ok o' /\ like class eq comes_back o o' /\ o_modified o' = now.
  Proof.
    intros Hu Hw. destruct (round_trip_all truthy ustr uparse mparse fresh now class Hu o Hw) as (d & o' & H1 & _ & H2 & H3 & H4).
    exists d, o'. auto.
  Qed.
  (** so the trees are the same if nothing but a default is ever left unwritten *)
  Theorem pd_round_trip_same o :
    (forall u, uparse (ustr u) = Ok u) -> well class o ->
    every class (fun p v => unwritten p v -> v = p_default p) o ->
    exists d o', write o = Ok d /\ read (JDict d) (o_cls o) = Ok o' /\ like class eq same_value o o'.
  Proof.
    intros Hu Hw He. destruct (pd_round_trip o Hu Hw) as (d & o' & H1 & H2 & H3 & _). exists d, o'. split; [exact H1|]. split; [exact H2|].
    refine (like_impl class eq _ comes_back same_value _ o o' He H3). intros p v v' Hd [[Hn ->]|[_ ->]]; unfold same_value; [|reflexivity].
    symmetry. exact (Hd Hn).
  Qed.

  (** C83: a deep copy has the same shape and classes, new uuids and the validated values *)
  Theorem pd_deepcopy (renew : U -> U) o :
    every class (fun p v => p_validate p v = v) o -> no_hidden class o ->
    exists o', deepcopy now class renew o = Ok o' /\ like class (fun u u' => u' = renew u) same_value o o'.
  Proof.
    intros He Hn. destruct (deepcopy_copied now class renew o) as (o' & H1 & H2 & _); [|exact Hn|].
    - unfold has_props. revert He. clear. induction o as [c u m ps is rs IHi IHr] using obj_deep. intros (H1 & H2 & H3). cbn [every].
      split; [refine (all2_impl _ _ _ _ _ H1); auto|]. split.
      + revert IHi H2. clear. induction is as [|[x|] is IH]; simpl; tauto.
      + revert IHr H3. clear. induction rs as [|l rs IH]; simpl; [tauto|]. intros [H1 H2] [H3 H4]. split; [|auto].
        revert H1 H3. clear. induction l as [|x l IH]; simpl; tauto.
    - exists o'. split; [exact H1|]. refine (like_impl class _ _ _ same_value _ o o' He H2). intros p v v' Hv ->. exact Hv.
  Qed.
  (** but an object whose class has a hidden item cannot be copied, whether the item is set or not *)
  Theorem pd_deepcopy_hidden_refuted (renew : U -> U) o i :
    In i (k_items (class (o_cls o))) -> i_hidden i = true -> deepcopy now class renew o = Err AttributeError.
  Proof.
    destruct o as [c u m ps is rs]. simpl o_cls. intros Hin Hh. rewrite deepcopy_eq.
    assert (existsb i_hidden (k_items (class c)) = true) as -> by (apply existsb_exists; eauto). reflexivity.
  Qed.

  (** C72: the stored dict stays what write_to_dict would write, under the key of each property, whatever properties are
      set to whatever values, if each key is the name *)
  Theorem pd_stored c l (s : stored A V) :
    class_ok (class c) -> (forall p, In p (k_props (class c)) -> p_key p = p_name p /\ ~ is_custom p) ->
    NoDup (map fst (st_dict s)) -> stores (class c) s ->
    forall u (m : M) is rs d p,
      length is = length (k_items (class c)) -> length rs = length (k_rels (class c)) ->
      write (Obj c u m (st_props (set_props (class c) l s)) is rs) = Ok d -> In p (k_props (class c)) ->
      dget (p_key p) (st_dict (set_props (class c) l s)) = dget (p_key p) d.
  Proof.
    intros Hok Hk Hd Hs u m is rs d p Hli Hlr W Hp.
    assert (Hkeys : NoDup (map p_key (k_props (class c)))).
    { unfold class_ok, storage_keys in Hok. inversion Hok as [|? ? _ H1]; subst. inversion H1 as [|? ? _ H2]; subst. inversion H2 as [|? ? _ H3]; subst.
      apply NoDup_app_inv in H3. tauto. }
    destruct (set_props_stores (class c) l s Hkeys Hk Hd Hs) as [Hlen Hst].
    apply In_nth_error in Hp. destruct Hp as [n Hn].
    assert (Ha := write_inv ustr class c u m _ is rs d Hok (fun q Hq => proj2 (Hk q Hq)) Hlen Hli Hlr W).
    destruct (all2_ex _ _ _ n p Ha Hn) as (v & Hv & ->). exact (Hst n p v Hn Hv).
  Qed.
  (** a property whose key is not the name of any property keeps in the storage the last value for which something was
      written, also when it is None now *)
  Theorem pd_stored_key (k : classdef A V) n p l s :
    nth_error (k_props k) n = Some p -> (forall q, In q (k_props k) -> p_name q <> p_key p /\ ~ is_custom q) ->
    NoDup (map p_key (k_props k)) -> NoDup (map fst (st_dict s)) ->
    dget (p_key p) (st_dict (set_props k l s)) = last_written n p l (dget (p_key p) (st_dict s)).
  Proof. apply set_props_last. Qed.
End Props.
Print Assumptions pd_round_trip.
Print Assumptions pd_round_trip_same.
Print Assumptions pd_deepcopy.
Print Assumptions pd_deepcopy_hidden_refuted.
Print Assumptions pd_stored.
Print Assumptions pd_stored_key.

(** ** Examples.  Atoms, values and uuids are numbers; a uuid is written as itself plus 100.  Class 0 has a property
    "title" under the key "t" with the default 5, a property "size" kept with a converter that adds 1, an item "display"
    of class 1 and a relationship "layers" under "ls" of class 1; class 1 has the type 7 and a property "size". *)
Local Open Scope string_scope.
Definition ex_plain (name key : string) (d : option nat) : propdef nat nat :=
  PropDef name key d (Plain (fun v => match v with Some x => JAtom x | None => JNone end) (fun j => match j with JAtom a => Some a | _ => None end)) (fun v => v).
Definition ex_conv (name : string) : propdef nat nat :=
  PropDef name name None (Make (fun x => JAtom (x + 1)) (fun j => match j with JAtom a => a - 1 | _ => 0 end)) (fun v => v).
Definition ex_factory (d : dict nat) : option nat := match dget "type" d with Some (JAtom 7) => Some 1 | _ => None end.
Definition ex_class (c : nat) : classdef nat nat :=
  match c with
  | 0 => ClassDef None [ex_plain "title" "t" (Some 5); ex_conv "size"] [ItemDef "display" false ex_factory] [RelDef "layers" "ls" ex_factory]
  | 1 => ClassDef (Some (JAtom 7)) [ex_plain "size" "size" None] [] []
  | _ => ClassDef None [] [ItemDef "secret" true ex_factory] []
  end.
Definition ex_layer (u x : nat) : obj nat nat nat := Obj 1 u 3 [Some x] [] [].
Definition ex_obj : obj nat nat nat := Obj 0 1 3 [Some 8; Some 4] [Some (ex_layer 2 9)] [[ex_layer 3 10; Obj 1 4 3 [None] [] []]].
Definition ex_ustr (u : nat) : json nat := JAtom (u + 100).
Definition ex_uparse (j : json nat) : res nat := match j with JAtom a => Ok (a - 100) | _ => Err TypeError end.
Definition ex_read := @read nat nat nat nat (fun _ => true) ex_uparse (fun _ => Ok 0) 77 99 ex_class.

Example pd_example :
  let d := [("uuid", JAtom 101); ("t", JAtom 8); ("size", JAtom 5);
            ("display", JDict [("type", JAtom 7); ("uuid", JAtom 102); ("size", JAtom 9)]);
            ("ls", JList [JDict [("type", JAtom 7); ("uuid", JAtom 103); ("size", JAtom 10)]; JDict [("type", JAtom 7); ("uuid", JAtom 104)]])] in
  write ex_ustr ex_class ex_obj = Ok d /\
  ex_read (JDict d) 0 = Ok (Obj 0 1 99 [Some 8; Some 4] [Some (Obj 1 2 99 [Some 9] [] [])] [[Obj 1 3 99 [Some 10] [] []; Obj 1 4 99 [None] [] []]]).
Proof. split; reflexivity. Qed.
Example pd_example_well : well ex_class ex_obj /\ every ex_class (fun p v => unwritten p v -> v = p_default p) ex_obj.
Proof.
  assert (N : forall l : list string, (if (fix nd (l : list string) : bool := match l with [] => true | x :: l' => negb (existsb (String.eqb x) l') && nd l' end) l then True else False) -> NoDup l).
  { induction l as [|x l IH]; [constructor|]. simpl. destruct (existsb (String.eqb x) l) eqn:E; simpl; [tauto|]. intros H. constructor; [|auto].
    intros Hin. assert (existsb (String.eqb x) l = true); [|congruence]. apply existsb_exists. exists x. split; [exact Hin|apply String.eqb_refl]. }
  assert (W : forall u x, well ex_class (ex_layer u x)).
  { intros u x. split; [apply N; exact I|]. simpl. unfold prop_ok. simpl. auto. }
  assert (Mk : forall u ps, makes ex_class ex_factory (Obj 1 u 3 ps [] [] : obj nat nat nat)) by (intros u ps d H; unfold ex_factory; rewrite H; reflexivity).
  split.
  - split; [apply N; exact I|]. split.
    + simpl. repeat split. intros _ [= <-]. reflexivity.
    + simpl. repeat split; auto; try apply Mk; try (apply N; exact I); try (intros; congruence).
  - simpl. unfold unwritten; simpl. repeat split; auto; congruence.
Qed.
(** C70: with the default 5, None comes back as 5 *)
Theorem pd_default_refuted :
  exists d o',
    write ex_ustr ex_class (Obj 0 1 3 [None; None] [None] [[]] : obj nat nat nat) = Ok d /\ ex_read (JDict d) 0 = Ok o' /\ o_props o' = [Some 5; None].
Proof. do 2 eexists. split; [reflexivity|]. split; [reflexivity|reflexivity]. Qed.
Print Assumptions pd_default_refuted.
(** C72: "title" is stored under "t"; set to None, its old value stays there *)
Theorem pd_stored_none_refuted :
  let s := set_props (ex_class 0) [(0, Some 8); (1, Some 2); (0, None); (1, None)] (Stored [Some 5; None] []) in
  st_props s = [None; None] /\ dget "t" (st_dict s) = Some (JAtom 8) /\ dget "size" (st_dict s) = None.
Proof. repeat split. Qed.
Print Assumptions pd_stored_none_refuted.
Example pd_stored_example :
  let s := set_props (ex_class 1) [(0, Some 8); (0, None); (0, Some 4)] (Stored [None] []) in
  stores (ex_class 1) (Stored [None] []) /\ st_props s = [Some 4] /\ st_dict s = [("size", JAtom 4)].
Proof.
  split; [|split; reflexivity]. split; [reflexivity|]. intros [|[|n]] p v; simpl; try discriminate. intros [= <-] [= <-]. reflexivity.
Qed.
Example pd_deepcopy_example :
  deepcopy 99 ex_class (fun u => u + 1000) ex_obj =
    Ok (Obj 0 1001 99 [Some 8; Some 4] [Some (Obj 1 1002 99 [Some 9] [] [])] [[Obj 1 1003 99 [Some 10] [] []; Obj 1 1004 99 [None] [] []]]) /\
  deepcopy 99 ex_class (fun u => u + 1000) (Obj 2 1 3 [] [None] [] : obj nat nat nat) = Err AttributeError.
Proof. split; reflexivity. Qed.
