(** Documents kept in a storage handler while their objects are edited: property C107. *)
From Coq Require Import String ZArith Bool List Lia.
From Verif Require Import PyBase PersistDict_Model PersistDict_Spec PersistDict_Proofs PersistDict_Proofs2 PersistStore_Model PersistStore_Spec
  PersistStore_Proofs PersistStore_Proofs2 PersistStore_Proofs3 PersistStore_Proofs4.
Import ListNotations.

Section Props.
  Context {A V U M : Type}.
  Variable ustr : U -> json A.
  Variable class : nat -> classdef A V.
  Variable cls : nat -> nat.
  Variable uu : nat -> U.
  Variable m0 : M.
  Hypothesis all_plain : forall c, plain (class c).
  Notation heap := (PersistStore_Model.heap A V).
  Notation step := (PersistStore_Model.step ustr class cls uu m0).
  Notation runs := (PersistStore_Model.runs ustr class cls uu m0).
  Notation unload := (PersistStore_Model.unload class cls uu m0).

  (** whatever properties and items are set and whatever items are inserted and removed anywhere in the document, the
      dict that the handler keeps is the one that write_to_dict gives for the document, up to the order of keys *)
  Theorem persiststore_in_step (h : heap) s D f o :
    runs (legit class cls) h -> h_store h s = Some D -> unload f h s = Ok o -> exists d, write ustr class o = Ok d /\ same (JDict D) (JDict d).
  Proof.
    intros R Hs Hu. assert (HI := runs_inv ustr class cls uu m0 all_plain h R).
    destruct (write_shows ustr class cls uu m0 all_plain f h s o Hu) as (d & W & Hd). exists d. split; [exact W|].
    intros p. rewrite (Hd p). exact (i_correct _ _ _ _ _ HI s D Hs p).
  Qed.
  (** so the document that is read from the stored dict is the one that was edited, with the values that come back from
      their conversions *)
  Theorem persiststore_reload (truthy : A -> bool) (uparse : json A -> res U) (mparse : json A -> res M) (fresh : U) (now : M) (h : heap) s D f o :
    runs (legit class cls) h -> h_store h s = Some D -> unload f h s = Ok o ->
    (forall u, uparse (ustr u) = Ok u) -> order_free class uparse mparse -> well class o ->
    exists o', read truthy uparse mparse fresh now class (JDict D) (cls s) = Ok o' /\ like class eq comes_back o o'.
  Proof.
    intros R Hs Hu Hp Ho Hw. destruct (persiststore_in_step h s D f o R Hs Hu) as (d & W & Hsame).
    destruct (round_trip_all truthy ustr uparse mparse fresh now class Hp o Hw) as (d' & o' & W' & _ & Hr & Hl & _).
    rewrite W in W'. injection W' as <-. exists o'. split; [|exact Hl].
    rewrite (proj1 (read_same truthy uparse mparse fresh now class Ho (JDict D)) (JDict d) (cls s) Hsame).
    assert (Hc : o_cls o = cls s).
    { destruct f as [|f]; [discriminate|]. cbn [PersistStore_Model.unload] in Hu. destruct (all_ok _) as [is|]; [|discriminate].
      destruct (all_ok _) as [rs|]; [|discriminate]. injection Hu as <-. reflexivity. }
    rewrite <- Hc. exact Hr.
  Qed.
  (** no such edit raises, if Python allows the recursion depth, and neither does the reading of the whole document *)
  Theorem persiststore_no_raise (h : heap) o :
    runs (careful class cls) h -> careful class cls h o -> able class cls h o -> exists n, forall f, n <= f -> exists h', step f o h = Ok h'.
  Proof.
    intros R C Ab. exact (step_ok ustr class cls uu m0 all_plain o h (runs_inv ustr class cls uu m0 all_plain h (runs_legit ustr class cls uu m0 h R))
                            (runs_grounded ustr class cls uu m0 h R) C Ab).
  Qed.
  Theorem persiststore_tree (h : heap) r : runs (careful class cls) h -> exists n, forall f, n <= f -> exists o, unload f h r = Ok o.
  Proof. intros R. exact (unload_ok class cls uu m0 h r (runs_grounded ustr class cls uu m0 h R r)). Qed.
End Props.
Print Assumptions persiststore_in_step.
Print Assumptions persiststore_reload.
Print Assumptions persiststore_no_raise.
Print Assumptions persiststore_tree.

(** ** Examples.  Atoms, values and uuids are numbers; a uuid is written as itself plus 100.  Object 0 is a document with a
    property "title", an item "display" and a relationship "layers"; the others have the type 7 and a property "size".  In
    [ps_class "layers"] the key of the relationship is its name. *)
Local Open Scope string_scope.
Definition ps_prop (n : string) : propdef nat nat :=
  PropDef n n None (Plain (fun v => match v with Some x => JAtom x | None => JNone end) (fun j => match j with JAtom a => Some a | _ => None end)) (fun v => v).
Definition ps_factory (d : dict nat) : option nat := match dget "type" d with Some (JAtom 7) => Some 1 | _ => None end.
Definition ps_class (key : string) (c : nat) : classdef nat nat :=
  match c with
  | 0 => ClassDef None [ps_prop "title"] [ItemDef "display" false ps_factory] [RelDef "layers" key ps_factory]
  | _ => ClassDef (Some (JAtom 7)) [ps_prop "size"] [] []
  end.
Definition ps_cls (r : nat) : nat := match r with 0 => 0 | _ => 1 end.
Definition ps_ustr (u : nat) : json nat := JAtom (u + 100).
Definition ps_uparse (j : json nat) : res nat := match j with JAtom a => Ok (a - 100) | _ => Err TypeError end.
Fixpoint ps_do (key : string) (l : list (op nat)) (h : heap nat nat) : res (heap nat nat) :=
  match l with
  | [] => Ok h
  | o :: l' => match step ps_ustr (ps_class key) ps_cls (fun r => r) 3 20 o h with Ok h' => ps_do key l' h' | Err e => Err e end
  end.
Definition ps_go (key : string) (l : list (op nat)) : res (heap nat nat) := ps_do key l (heap_make (ps_class key) ps_cls).
Definition ps_stored (o : res (heap nat nat)) : res (option (dict nat)) := match o with Ok h => Ok (h_store h 0) | Err e => Err e end.
Definition ps_written (key : string) (o : res (heap nat nat)) : res (dict nat) :=
  match o with Ok h => write_to_dict ps_ustr (ps_class key) ps_cls (fun r => r) 3 20 h 0 | Err e => Err e end.
Definition ps_script : list (op nat) :=
  [InsertItem 0 "layers" 0 1; Open 0; SetItem 0 "display" (Some 2); InsertItem 0 "layers" 5 3; SetProperty 3 "size" (Some 9);
   SetProperty 2 "size" (Some 8); SetProperty 0 "title" (Some 4); RemoveItem 0 "layers" 1; SetProperty 2 "size" None].

Lemma ps_plain c : plain (ps_class "layers" c).
Proof.
  assert (N : forall l : list string, (if (fix nd (l : list string) : bool := match l with [] => true | x :: l' => negb (existsb (String.eqb x) l') && nd l' end) l then True else False) -> NoDup l).
  { induction l as [|x l IH]; [constructor|]. simpl. destruct (existsb (String.eqb x) l) eqn:E; simpl; [tauto|]. intros H. constructor; [|auto].
    intros Hin. assert (existsb (String.eqb x) l = true); [|congruence]. apply existsb_exists. exists x. split; [exact Hin|apply String.eqb_refl]. }
  destruct c as [|c]; (split; [apply N; exact I|]); (split; [intros p [<-|[]]; split; [reflexivity|intros []]|]).
  - intros r [<-|[]]. reflexivity.
  - intros r [].
Qed.
Example persiststore_example :
  ps_stored (ps_go "layers" ps_script) =
    Ok (Some [("uuid", JAtom 100); ("layers", JList [JDict [("type", JAtom 7); ("uuid", JAtom 103); ("size", JAtom 9)]]);
              ("display", JDict [("type", JAtom 7); ("uuid", JAtom 102)]); ("title", JAtom 4)]) /\
  ps_written "layers" (ps_go "layers" ps_script) =
    Ok [("uuid", JAtom 100); ("title", JAtom 4); ("display", JDict [("type", JAtom 7); ("uuid", JAtom 102)]);
        ("layers", JList [JDict [("type", JAtom 7); ("uuid", JAtom 103); ("size", JAtom 9)]])].
Proof. split; vm_compute; reflexivity. Qed.
Definition ps_at (l : list (op nat)) : heap nat nat := match ps_go "layers" l with Ok h => h | Err _ => heap_make (ps_class "layers") ps_cls end.
Notation ps_careful := (careful (ps_class "layers") ps_cls).
Notation ps_runs := (runs ps_ustr (ps_class "layers") ps_cls (fun r => r) 3).
Lemma ps_do_app l1 l2 h : ps_do "layers" (l1 ++ l2) h = match ps_do "layers" l1 h with Ok h' => ps_do "layers" l2 h' | Err e => Err e end.
Proof. revert h. induction l1 as [|o l1 IH]; intros h; [reflexivity|]. cbn [ps_do app]. destruct (step _ _ _ _ _ 20 o h); [apply IH|reflexivity]. Qed.
Lemma ps_next l o :
  match ps_go "layers" l with Ok _ => True | Err _ => False end -> match ps_go "layers" (l ++ [o]) with Ok _ => True | Err _ => False end ->
  ps_runs ps_careful (ps_at l) -> ps_careful (ps_at l) o -> ps_runs ps_careful (ps_at (l ++ [o])).
Proof.
  unfold ps_at, ps_go. rewrite ps_do_app. destruct (ps_do "layers" l _) as [h|]; [|tauto]. intros _. cbn [ps_do].
  destruct (step _ _ _ _ _ 20 o h) as [h'|] eqn:E; [|tauto]. intros _ R C. exact (runs_step _ _ _ _ _ _ 20 o h h' R C E).
Qed.
(** the script keeps to the rules *)
Example persiststore_example_runs : ps_go "layers" ps_script = Ok (ps_at ps_script) /\ ps_runs ps_careful (ps_at ps_script).
Proof.
  split; [unfold ps_at; destruct (ps_go "layers" ps_script) eqn:E; [reflexivity|vm_compute in E; discriminate]|].
  assert (Hh : forall l r pl x, held (ps_class "layers") ps_cls (ps_at l) r pl x ->
            r = 0 /\ (h_items (ps_at l) 0 "display" = Some x \/ In x (h_rels (ps_at l) 0 "layers"))).
  { intros l [|r] [n|n] x [Hn H]; simpl in Hn; try tauto; destruct Hn as [<-|[]]; auto. }
  assert (Hf : forall l x, h_items (ps_at l) 0 "display" <> Some x -> ~ In x (h_rels (ps_at l) 0 "layers") -> h_store (ps_at l) x = None ->
            free (ps_class "layers") ps_cls (ps_at l) x).
  { intros l x H1 H2 H3. split; [|exact H3]. intros r pl H. apply Hh in H. tauto. }
  assert (Hb : forall l x, ~ below (ps_class "layers") ps_cls (ps_at l) (S x) 0).
  { intros l x H. assert (forall y, below (ps_class "layers") ps_cls (ps_at l) (S x) y -> y <> 0).
    { intros y Hy. induction Hy as [|y pl z Hy IH Hz]; [discriminate|]. apply Hh in Hz. tauto. }
    exact (H0 0 H eq_refl). }
  assert (Hu : forall l x, (x = 0 \/ h_items (ps_at l) 0 "display" = Some x \/ In x (h_rels (ps_at l) 0 "layers")) -> h_store (ps_at l) 0 <> None ->
            usable (ps_class "layers") ps_cls (ps_at l) x).
  { intros l x H Hs _. exists 0. split; [exact Hs|]. destruct H as [->|[H|H]]; [apply below_refl| |].
    - apply (below_held _ _ _ _ 0 (AtItem "display")); [apply below_refl|]. split; [left; reflexivity|exact H].
    - apply (below_held _ _ _ _ 0 (InRel "layers")); [apply below_refl|]. split; [left; reflexivity|exact H]. }
  assert (R0 : ps_runs ps_careful (ps_at [])) by apply runs_new.
  assert (R1 := ps_next [] (InsertItem 0 "layers" 0 1) ltac:(vm_compute; exact I) ltac:(vm_compute; exact I) R0).
  specialize (R1 ltac:(split; [split; [discriminate|apply Hf; vm_compute; intuition congruence]|apply Hb])).
  assert (R2 := ps_next [InsertItem 0 "layers" 0 1] (Open 0) ltac:(vm_compute; exact I) ltac:(vm_compute; exact I) R1).
  specialize (R2 ltac:(split; [apply Hf; vm_compute; intuition congruence|exact I])).
  assert (R3 := ps_next [InsertItem 0 "layers" 0 1; Open 0] (SetItem 0 "display" (Some 2)) ltac:(vm_compute; exact I) ltac:(vm_compute; exact I) R2).
  specialize (R3 ltac:(split; [split; [apply Hu; [vm_compute; tauto|vm_compute; discriminate]|apply Hf; vm_compute; intuition congruence]|apply Hb])).
  assert (R4 := ps_next [InsertItem 0 "layers" 0 1; Open 0; SetItem 0 "display" (Some 2)] (InsertItem 0 "layers" 5 3) ltac:(vm_compute; exact I) ltac:(vm_compute; exact I) R3).
  specialize (R4 ltac:(split; [split; [apply Hu; [vm_compute; tauto|vm_compute; discriminate]|apply Hf; vm_compute; intuition congruence]|apply Hb])).
  assert (R5 := ps_next [InsertItem 0 "layers" 0 1; Open 0; SetItem 0 "display" (Some 2); InsertItem 0 "layers" 5 3] (SetProperty 3 "size" (Some 9)) ltac:(vm_compute; exact I) ltac:(vm_compute; exact I) R4).
  specialize (R5 ltac:(split; [apply Hu; [vm_compute; tauto|vm_compute; discriminate]|exact I])).
  assert (R6 := ps_next [InsertItem 0 "layers" 0 1; Open 0; SetItem 0 "display" (Some 2); InsertItem 0 "layers" 5 3; SetProperty 3 "size" (Some 9)] (SetProperty 2 "size" (Some 8)) ltac:(vm_compute; exact I) ltac:(vm_compute; exact I) R5).
  specialize (R6 ltac:(split; [apply Hu; [vm_compute; tauto|vm_compute; discriminate]|exact I])).
  assert (R7 := ps_next [InsertItem 0 "layers" 0 1; Open 0; SetItem 0 "display" (Some 2); InsertItem 0 "layers" 5 3; SetProperty 3 "size" (Some 9); SetProperty 2 "size" (Some 8)] (SetProperty 0 "title" (Some 4)) ltac:(vm_compute; exact I) ltac:(vm_compute; exact I) R6).
  specialize (R7 ltac:(split; [apply Hu; [vm_compute; tauto|vm_compute; discriminate]|exact I])).
  assert (R8 := ps_next [InsertItem 0 "layers" 0 1; Open 0; SetItem 0 "display" (Some 2); InsertItem 0 "layers" 5 3; SetProperty 3 "size" (Some 9); SetProperty 2 "size" (Some 8); SetProperty 0 "title" (Some 4)] (RemoveItem 0 "layers" 1) ltac:(vm_compute; exact I) ltac:(vm_compute; exact I) R7).
  specialize (R8 ltac:(split; [apply Hu; [vm_compute; tauto|vm_compute; discriminate]|exact I])).
  assert (R9 := ps_next [InsertItem 0 "layers" 0 1; Open 0; SetItem 0 "display" (Some 2); InsertItem 0 "layers" 5 3; SetProperty 3 "size" (Some 9); SetProperty 2 "size" (Some 8); SetProperty 0 "title" (Some 4); RemoveItem 0 "layers" 1] (SetProperty 2 "size" None) ltac:(vm_compute; exact I) ltac:(vm_compute; exact I) R8).
  specialize (R9 ltac:(split; [apply Hu; [vm_compute; tauto|vm_compute; discriminate]|exact I])).
  exact R9.
Qed.

(** an item that is replaced keeps its parent and its context (679-692), so what is then set on it is stored in the
    dict of the item that replaced it *)
Theorem persiststore_replaced_refuted :
  let h := ps_go "layers" [Open 0; SetItem 0 "display" (Some 1); SetItem 0 "display" (Some 2); SetProperty 1 "size" (Some 9)] in
  ps_stored h = Ok (Some [("uuid", JAtom 100); ("layers", JList []); ("display", JDict [("type", JAtom 7); ("uuid", JAtom 102); ("size", JAtom 9)])]) /\
  ps_written "layers" h = Ok [("uuid", JAtom 100); ("display", JDict [("type", JAtom 7); ("uuid", JAtom 102)]); ("layers", JList [])].
Proof. split; vm_compute; reflexivity. Qed.
Print Assumptions persiststore_replaced_refuted.
(** and it cannot be put back: the assertion in the setter of the context fails (413), when the stored dict has the item already *)
Theorem persiststore_put_back_refuted :
  ps_stored (ps_go "layers" [Open 0; SetItem 0 "display" (Some 1); SetItem 0 "display" None]) = Ok (Some [("uuid", JAtom 100); ("layers", JList [])]) /\
  ps_go "layers" [Open 0; SetItem 0 "display" (Some 1); SetItem 0 "display" None; SetItem 0 "display" (Some 1)] = Err AssertionError.
Proof. split; vm_compute; reflexivity. Qed.
Print Assumptions persiststore_put_back_refuted.
(** a relationship with a key other than its name: write_to_dict and read_from_dict use the key (533-534, 576-577), but the handler is
    told the name (712), so an item that is inserted is not in the document that is read from the stored dict *)
Theorem persiststore_key_refuted :
  let h := ps_go "ls" [Open 0; InsertItem 0 "layers" 0 1] in
  let d := [("uuid", JAtom 100); ("ls", JList []); ("layers", JList [JDict [("type", JAtom 7); ("uuid", JAtom 101)]])] in
  ps_stored h = Ok (Some d) /\
  ps_written "ls" h = Ok [("uuid", JAtom 100); ("ls", JList [JDict [("type", JAtom 7); ("uuid", JAtom 101)]])] /\
  @read nat nat nat nat (fun _ => true) ps_uparse (fun _ => Ok 0) 77 99 (ps_class "ls") (JDict d) 0 = Ok (Obj 0 0 99 [None] [None] [[]]).
Proof. repeat split; vm_compute; reflexivity. Qed.
Print Assumptions persiststore_key_refuted.
(** and an item that was in the relationship when the document was opened cannot be edited or removed: the accessor uses the
    name (435-436) *)
Theorem persiststore_key_raises_refuted :
  (exists h, ps_go "ls" [InsertItem 0 "layers" 0 1; Open 0] = Ok h) /\
  ps_go "ls" [InsertItem 0 "layers" 0 1; Open 0; SetProperty 1 "size" (Some 9)] = Err KeyError /\
  ps_go "ls" [InsertItem 0 "layers" 0 1; Open 0; RemoveItem 0 "layers" 1] = Err KeyError.
Proof. split; [eexists; reflexivity|]. split; vm_compute; reflexivity. Qed.
Print Assumptions persiststore_key_raises_refuted.
