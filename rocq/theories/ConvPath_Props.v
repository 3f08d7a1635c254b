(** Properties of the converter of paths. *)
From Coq Require Import String Ascii List Bool Arith Lia.
From Verif Require Import PyBase ConvPath_Model ConvPath_Spec ConvPath_Proofs.
Import ListNotations.

Section Props.
  Context {Ch : Type} (Ch_dec : forall x y : Ch, {x = y} + {x <> y}) (slash dot : Ch) (slash_dot : slash <> dot).
  Notation text := (list Ch).
  Notation convert := (convert slash dot).
  Notation convert_back := (convert_back Ch_dec slash dot).

  (** Every path comes back from its text, and what comes back from any text is a path as there can be; different paths have
      different texts. *)
  Theorem convpath_path (v : option (path (Ch := Ch))) : (forall p, v = Some p -> proper slash dot p) -> convert_back (convert v) = v.
  Proof.
    intros H. destruct v as [p|]; [|reflexivity]. specialize (H p eq_refl). simpl. pose proof (show_nonempty slash dot p).
    rewrite <- (parse_show Ch_dec slash dot slash_dot p H) at 2. destruct (show slash dot p); [congruence|reflexivity].
  Qed.
  Theorem convpath_proper (t : text) p : convert_back (Some t) = Some p -> proper slash dot p.
  Proof. destruct t as [|c t]; [discriminate|]. intros E. injection E as <-. apply parse_proper. Qed.
  (** Exactly the texts in normal form stay as they are, and a text that was converted once is in normal form. *)
  Theorem convpath_text (t : text) : convert (convert_back (Some t)) = Some t <-> normal slash dot t.
  Proof.
    rewrite (normal_shown slash dot). split.
    - destruct t as [|c t]; [discriminate|]. intros E. injection E as E. exists (parse Ch_dec slash dot (c :: t)). split; [apply parse_proper|]. symmetry. exact E.
    - intros (p & F & ->). change (convert (convert_back (convert (Some p))) = convert (Some p)). rewrite convpath_path; [reflexivity|]. intros q Q. injection Q as <-. exact F.
  Qed.
  Theorem convpath_again (t : text) : t <> [] -> exists t', convert (convert_back (Some t)) = Some t' /\ normal slash dot t'.
  Proof.
    intros N. destruct t as [|c t]; [congruence|]. eexists. split; [reflexivity|]. apply normal_shown. eexists. split; [apply parse_proper|reflexivity].
  Qed.
  (** In every file system, with '..' and links as entries like others: a text denotes a place exactly if the text it becomes
      does, and if it ends with a slash or a dot, that place is a directory. *)
  Theorem convpath_place {Node : Type} (dir : Node -> bool) (down : Node -> text -> option Node) (start : root -> Node) (t t' : text) (m : Node) :
    (forall r, dir (start r) = true) -> convert (convert_back (Some t)) = Some t' ->
    denotes Ch_dec slash dot dir down start t = Some m <->
    denotes Ch_dec slash dot dir down start t' = Some m /\ (ends_open slash dot t -> dir m = true).
  Proof.
    intros D E. destruct t as [|c t]; [discriminate|]. injection E as <-. rewrite (denotes_show Ch_dec slash dot slash_dot dir down start _ m D (parse_proper Ch_dec slash dot _)).
    apply denotes_eq; [exact slash_dot|discriminate].
  Qed.
End Props.

(** * On ASCII text *)
Definition txt (s : string) : list ascii := list_ascii_of_string s.
Definition there (s : string) : option (list ascii) := convert "/"%char "."%char (convert_back ascii_dec "/"%char "."%char (Some (txt s))).
(** Findings *)
(** the empty text does not come back *)
Theorem convpath_empty_refuted : ~ forall s : string, exists t, there s = Some t.
Proof. intros H. destruct (H EmptyString) as (t & E). discriminate. Qed.
(** a text that denotes nothing, since it ends with a slash after the name of a file, becomes one that denotes the file *)
Theorem convpath_place_refuted : exists (dir : nat -> bool) down (start : root -> nat) (s : string) t, (forall r, dir (start r) = true) /\
  there s = Some t /\ denotes ascii_dec "/"%char "."%char dir down start (txt s) = None /\
  denotes ascii_dec "/"%char "."%char dir down start t = Some 1.
Proof.
  exists (fun n => n =? 0), (fun n x => if list_eq_dec ascii_dec x (txt "a.h5") then Some 1 else None), (fun _ => 0), "a.h5/"%string, (txt "a.h5").
  vm_compute. repeat split.
Qed.

(** * Examples *)
Example convpath_texts : map there ["a//b/./c"; "/a/"; "//x/y"; "///x"; "./"; "a/../b"; ".hidden/..."; "/"; "//"; "."]%string =
  map (fun s => Some (txt s)) ["a/b/c"; "/a"; "//x/y"; "/x"; "."; "a/../b"; ".hidden/..."; "/"; "//"; "."]%string.
Proof. vm_compute. reflexivity. Qed.
Example convpath_a_path : let p := Pa TwoRoots [txt "data"; txt ".."; txt "run 1"] in
  proper "/"%char "."%char p /\ convert "/"%char "."%char (Some p) = Some (txt "//data/../run 1") /\
  convert_back ascii_dec "/"%char "."%char (Some (txt "//data/../run 1")) = Some p.
Proof.
  split; [|split; vm_compute; reflexivity]. unfold proper. simpl. repeat constructor; try discriminate; simpl; intuition discriminate.
Qed.
Example convpath_normal : normal "/"%char "."%char (txt "/a/b.c").
Proof.
  right. right. right. right. exists (txt "a/b.c"). split; [|left; reflexivity].
  apply (names_more _ _ (txt "a") (txt "b.c")); [|apply names_one]; repeat split; try discriminate; simpl; intuition discriminate.
Qed.
(** a directory 0 with a directory 2 named d, in which '..' is 0 and f is a file 1 *)
Example convpath_a_place : let dir n := negb (n =? 1) in
  let down n x := if list_eq_dec ascii_dec x (txt "..") then Some 0 else if list_eq_dec ascii_dec x (txt "d") then Some 2 else if list_eq_dec ascii_dec x (txt "f") then Some 1 else None in
  map (fun s => denotes ascii_dec "/"%char "."%char dir down (fun _ => 0) (txt s)) ["d/./f"; "d//../d/"; "d/f/"; "/d/f"; "f/d"]%string = [Some 1; Some 2; None; Some 1; None] /\
  map (fun s => denotes ascii_dec "/"%char "."%char dir down (fun _ => 0) (txt s)) ["d/f"; "d/../d"; "d/f"; "/d/f"; "f/d"]%string = [Some 1; Some 2; Some 1; Some 1; None].
Proof. vm_compute. split; reflexivity. Qed.

Print Assumptions convpath_path.
Print Assumptions convpath_proper.
Print Assumptions convpath_text.
Print Assumptions convpath_again.
Print Assumptions convpath_place.
Print Assumptions convpath_empty_refuted.
Print Assumptions convpath_place_refuted.
