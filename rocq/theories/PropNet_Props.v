(** Properties of persistent properties whose callbacks use the object. *)
From Coq Require Import List Bool Arith Lia.
From Verif Require Import PyBase PropNet_Model PropNet_Spec PropNet_Proofs.
Import ListNotations.

Section Props.
  Context {N V J : Type} (N_dec : forall x y : N, {x = y} + {x <> y}).
  Variables (validate : N -> V -> option V) (json : N -> V -> option J) (parse : N -> J -> V) (names : list N).
  Notation state := (@state N V J).
  Notation act := (@act N V J).
  Notation run := (run N_dec validate json parse names).
  (** an object that nothing is done with: its values, its dict in the storage, its count *)
  Notation start v0 j0 c0 := (State v0 j0 c0 [] []).

  (** At every moment of every history a property is what its callback was last told. *)
  Theorem propnet_told v0 j0 c0 (h : list act) (n : N) :
    let s := run (start v0 j0 c0) h in value s n = last_told N_dec (v0 n) n (log s).
  Proof. apply told_inv. Qed.

  (** At every moment the storage holds what was last written; every setting that returns writes what its callback was last
      told, however settings are nested, and counts as a modification, as updates of custom properties do. *)
  Theorem propnet_stored v0 j0 c0 (h : list act) :
    let s := run (start v0 j0 c0) h in
    (forall n, stored s n = last_written N_dec (j0 n) n (log s)) /\
    (forall l1 n j l2, log s = l1 ++ Wrote n j :: l2 -> j = json n (last_told N_dec (v0 n) n l2)) /\
    count s = c0 + writes (log s).
  Proof. cbv zeta. repeat split; [intros n; apply stored_inv|apply (writes_inv N_dec validate json parse names v0 j0 c0 h)|apply count_inv]. Qed.

  (** A property whose callback is not running is stored as it is, if the last use of it that ended was a setting that
      returned; and it is as at the start, if there was none. *)
  Theorem propnet_in_step v0 j0 c0 (h : list act) (n : N) :
    let s := run (start v0 j0 c0) h in
    ~ In n (map frame_name (stack s)) ->
    match last_end N_dec n (log s) with
    | Well => in_step json s n
    | Never => value s n = v0 n /\ stored s n = j0 n
    | Badly => True
    end.
  Proof. cbv zeta. intros O. destruct (settled_inv N_dec validate json parse names v0 j0 c0 h n) as [S|S]; [contradiction|exact S]. Qed.

  (** If no callback raises, nothing is read and no property is updated as a custom one, then whenever nothing is under way
      all is stored as it is. *)
  Theorem propnet_quiet v0 j0 c0 (h : list act) (n : N) :
    j0 n = json n (v0 n) ->
    (forall a, In a h -> match a with Raise | Read _ => False | Update m _ => m <> n | _ => True end) ->
    let s := run (start v0 j0 c0) h in stack s = [] -> in_step json s n.
  Proof.
    intros I0 H. cbv zeta. intros K.
    assert (B : last_end N_dec n (log (run (start v0 j0 c0) h)) <> Badly).
    { clear K. assert (G : forall s, last_end N_dec n (log s) <> Badly -> Forall (fun f => match f with FSet _ => True | FRead _ _ _ => False end) (stack s) ->
        last_end N_dec n (log (run s h)) <> Badly); [|apply G; [discriminate|constructor]].
      induction h as [|a h IH]; intros s L F; [exact L|].
      change (run s (a :: h)) with (run (step N_dec validate json parse names s a) h).
      pose proof (H a (or_introl eq_refl)) as Ha. specialize (IH (fun a' M => H a' (or_intror M))). destruct a as [m v|m j|d| |]; try contradiction; cbn [step].
      - unfold set_value. destruct (validate m v); apply IH; try assumption. cbn [stack]. constructor; [exact I|exact F].
      - apply IH; [|exact F]. cbn [log last_end]. destruct (N_dec m n); [contradiction|exact L].
      - destruct (stack s) as [|[m|m d r] k] eqn:E.
        + apply IH; [exact L|rewrite E; constructor].
        + inversion F; subst. apply IH; cbn [finish pop log stack last_end]; [|rewrite E; assumption]. destruct (N_dec m n); [discriminate|exact L].
        + inversion F; subst. contradiction. }
    pose proof (propnet_in_step v0 j0 c0 h n) as P. cbv zeta in P. rewrite K in P. specialize (P (fun x => x)).
    unfold in_step in *. destruct (last_end N_dec n (log (run (start v0 j0 c0) h))); [|exact P|congruence]. destruct P as [-> ->]. exact I0.
  Qed.

  (** Reading what is stored for a property, any number of times and anywhere, whatever callbacks do with other properties and
      whether they raise, leaves the property and what is stored for it, if it is not set meanwhile. *)
  Theorem propnet_reread (s0 : state) (n : N) (h : list act) :
    (forall m v j, json m v = Some j -> validate m (parse m j) = Some v) ->
    in_step json s0 n -> stack s0 = [] ->
    (forall a, In a h -> ~ sets n a /\ match a with Read d => d n = None \/ d n = stored s0 n | _ => True end) ->
    value (run s0 h) n = value s0 n /\ stored (run s0 h) n = stored s0 n.
  Proof. apply reread. Qed.

  (** A callback that sets its own property again at every call, until the recursion limit is reached: in the end the
      property is what the innermost setting made it, and nothing was stored or counted. *)
  Theorem propnet_chain (s : state) (n : N) (v : V) (vs : list V) :
    (forall w, In w (v :: vs) -> validate n w = Some w) ->
    let s' := run s (map (Set_ n) (v :: vs) ++ map (fun _ => Raise) (v :: vs)) in
    value s' n = last vs v /\ (forall m, m <> n -> value s' m = value s m) /\
    (forall m, stored s' m = stored s m) /\ count s' = count s /\ stack s' = stack s.
  Proof.
    intros H. cbv zeta. unfold PropNet_Model.run. rewrite fold_left_app.
    destruct (sets_run N_dec validate json parse names n (v :: vs) s H) as (l & A & B & C). set (t := PropNet_Model.run N_dec validate json parse names s (map (Set_ n) (v :: vs))) in *.
    destruct (raises_run N_dec validate json parse names (map (fun _ => FSet n) (v :: vs)) t (stack s)) as (l' & D); [rewrite A; reflexivity|].
    rewrite map_map in D. unfold PropNet_Model.run in D, t. fold t. rewrite D. cbn [value stored count stack]. repeat split.
    - rewrite B. destruct vs as [|w vs]; [reflexivity|]. change (last (v :: w :: vs) (value s n)) with (last (w :: vs) (value s n)).
      clear. revert w. induction vs as [|x vs IH]; intros w; [reflexivity|]. apply (IH x).
    - exact C.
    - rewrite A. reflexivity.
    - rewrite A. reflexivity.
  Qed.
End Props.

(** * On numbers: properties 0 and 1, defined in this order *)
Definition ok (n v : nat) : option nat := Some v.
Definition js (n v : nat) : option nat := if v =? 0 then None else Some v.
Definition ps (n j : nat) : nat := j.
Notation runs := (run Nat.eq_dec ok js ps [0; 1]).
Definition pair0 (a b : nat) : state := State (fun n => if n =? 0 then a else if n =? 1 then b else 0) (fun n => if n =? 0 then js 0 a else if n =? 1 then js 1 b else None) 0 [] [].
(** Findings *)
(** setting a property whose callback raises changes it, and the storage keeps the old one *)
Theorem propnet_atomic_refuted : ~ forall s n v, stack s = [] -> in_step js s n -> in_step js (runs s [Set_ n v; Raise]) n.
Proof. intros H. specialize (H (pair0 1 1) 0 2 eq_refl eq_refl). discriminate. Qed.
(** reading a document that is stored, with nothing that raises, while the callback of one property sets another that comes
    later: the document says one thing then, and the object another *)
Theorem propnet_read_refuted : ~ forall s d h, stack s = [] -> (forall n, in_step js s n) -> (forall n, d n = stored s n) ->
  ~ In Raise h -> stack (runs s (Read d :: h)) = [] -> forall n, in_step js (runs s (Read d :: h)) n.
Proof.
  intros H. specialize (H (pair0 1 5) (stored (pair0 1 5)) [Set_ 1 2; Return; Return; Return] eq_refl).
  assert (G : in_step js (runs (pair0 1 5) (Read (stored (pair0 1 5)) :: [Set_ 1 2; Return; Return; Return])) 1).
  { apply H; [| |intros [|[|[|[|]]]]; try discriminate; contradiction|reflexivity]; [|reflexivity]. intros [|[|n]]; reflexivity. }
  discriminate.
Qed.
(** while the callback of one property sets another, the storage holds what the object never was *)
Theorem propnet_moment_refuted : ~ forall s h, stack s = [] -> (forall n, in_step js s n) -> ~ In Raise h ->
  exists h1 h2, h = h1 ++ h2 /\ forall n, stored (runs s h) n = js n (value (runs s h1) n).
Proof.
  intros H. destruct (H (pair0 1 1) [Set_ 0 2; Set_ 1 2; Return]) as (h1 & h2 & E & G); [reflexivity|intros [|[|n]]; reflexivity|intros [|[|[|]]]; try discriminate; contradiction|].
  pose proof (G 0) as G0. pose proof (G 1) as G1. clear G H.
  destruct h1 as [|a [|b [|c [|? ?]]]]; cbn [app] in E; inversion E; subst; discriminate.
Qed.

(** * Examples *)
(** the callback of 0 keeps 1 equal to it; the callback of 1 makes odd numbers even, by setting itself again *)
Definition busy : list (@act nat nat nat) := [Set_ 0 3; Set_ 1 3; Set_ 1 4; Return; Return; Return].
Example busy_run : let s := runs (pair0 1 1) busy in
  (value s 0, value s 1, stored s 0, stored s 1, count s, stack s) = (3, 4, Some 3, Some 4, 3, []) /\
  log s = [Wrote 0 (Some 3); Wrote 1 (Some 4); Wrote 1 (Some 4); Called 1 4; Called 1 3; Called 0 3].
Proof. vm_compute. auto. Qed.
(** a nested setting raises and the callback around it catches that: all is stored as it is in the end *)
Definition caught : list (@act nat nat nat) := [Set_ 1 3; Set_ 1 0; Raise; Return].
Example caught_run : let s := runs (pair0 1 1) caught in
  (value s 1, stored s 1, count s, last_end Nat.eq_dec 1 (log s)) = (0, None, 1, Well).
Proof. vm_compute. reflexivity. Qed.
(** a failed setting of 0 around a setting of 1 that returned *)
Example half_run : let s := runs (pair0 1 1) [Set_ 0 2; Set_ 1 2; Return; Raise] in
  (value s 0, value s 1, stored s 0, stored s 1, count s, last_end Nat.eq_dec 0 (log s), last_end Nat.eq_dec 1 (log s)) = (2, 2, Some 1, Some 2, 1, Badly, Well).
Proof. vm_compute. reflexivity. Qed.
Example chain_run : let s := runs (pair0 1 1) (map (Set_ 0) [2; 3; 4] ++ map (fun _ => Raise) [2; 3; 4]) in
  (value s 0, stored s 0, count s) = (4, Some 1, 0).
Proof. vm_compute. reflexivity. Qed.
Example reread_run : let s := runs (pair0 1 5) [Set_ 1 6; Read (stored (pair0 1 5)); Set_ 1 7; Return; Return; Return; Return] in
  (value s 0, stored s 0, value s 1, stored s 1) = (1, Some 1, 5, Some 5).
Proof. vm_compute. reflexivity. Qed.
Example refused_run : let s := run Nat.eq_dec (fun n v => if v <? 10 then Some v else None) js ps [0; 1] (pair0 1 1) [Set_ 0 2; Set_ 1 12; Return; Update 7 9] in
  (value s 0, value s 1, stored s 0, stored s 1, stored s 7, count s) = (2, 1, Some 2, Some 1, Some 9, 2).
Proof. vm_compute. reflexivity. Qed.

Print Assumptions propnet_told.
Print Assumptions propnet_stored.
Print Assumptions propnet_in_step.
Print Assumptions propnet_quiet.
Print Assumptions propnet_reread.
Print Assumptions propnet_chain.
Print Assumptions propnet_atomic_refuted.
Print Assumptions propnet_read_refuted.
Print Assumptions propnet_moment_refuted.
