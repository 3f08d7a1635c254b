(** Recorder, /repo/nion/utils/Recorder.py: closing a recorder, and [apply] on objects that exist in the same world as the
    recorded ones - among them the recorded object itself, whose recorder hears of what [apply] does.

    Objects, recorders and log entries are those of Recorder_Model.v, where [apply] is a function of a separate tree.
    Here each closure of the log is an operation on the world, and the loop of 57-59 is over the live log. *)
From Coq Require Import Arith Bool List.
From Verif Require Import PyBase Recorder_Model.
Import ListNotations.

Section RecLife.
  Context {V : Type} (item : nat -> bool) (recordable : nat -> nat -> bool).
  Notation obj := (@obj V).
  Notation world := (@world V).

  (** a recorder that is open, or closed (38-55: all listeners closed, also those of the recorders below; the log stays) *)
  Record life := Life { l_world : world; l_rec : option rcd; l_log : list entry }.

  (** something is done to the objects *)
  Definition hear (s : life) (a : @op V) : life :=
    match l_rec s with
    | Some r => let s' := step item recordable (State (l_world s) r (l_log s)) a in Life (st_world s') (Some (st_rec s')) (st_log s')
    | None => match change item (l_world s) a with Some w => Life w None (l_log s) | None => s end
    end.
  (** 38-55; the second time the listener is None *)
  Definition close (s : life) : res life :=
    match l_rec s with Some _ => Ok (Life (l_world s) None (l_log s)) | None => Err AttributeError end.

  Inductive deed := Do (a : @op V) | Close.
  Definition lstep (s : life) (x : deed) : life :=
    match x with Do a => hear s a | Close => match close s with Ok s' => s' | Err _ => s end end.
  Definition lrun (s : life) (l : list deed) : life := fold_left lstep l s.
  (** a recorder made for [o] (14-36) *)
  Definition open (w : world) (o : obj) : life := Life w (Some (mk [] o)) [].

  (** an accessor called on an object (16, 28-29, 34-35, 93), with the exceptions of [at_path] *)
  Fixpoint walk (q : path) (o : obj) : res obj :=
    match q with
    | [] => Ok o
    | (k, n) :: q' =>
        match nth_error (slots o) k with
        | None => Err AttributeError
        | Some l => match nth_error l n with None => Err (if item k then AttributeError else IndexError) | Some x => walk q' x end
        end
    end.

  (** deepcopy (Persistence.py 384-399): new objects with the same values *)
  Definition fresh (w : world) : nat := S (list_max (map (@id_of V) (all_nodes w))).
  Fixpoint copy (b : nat) (o : obj) : obj := match o with Node (i, ps) ss => Node (b + i, ps) (map (map (copy b)) ss) end.

  (** one closure of the log called on the object [r] *)
  Definition call_on (s : life) (r : nat) (e : entry) : res life :=
    let w := l_world s in
    match lookup r w with
    | None => Err AttributeError
    | Some o =>
        match e with
        | ESet q i p =>                                     (* 71-72 *)
            match walk q o with
            | Err x => Err x
            | Ok x => match lookup i w with
                      | Some y => match nth_error (props_of y) p with
                                  | Some v => Ok (hear s (SetProp (id_of x) p v))
                                  | None => Err AttributeError
                                  end
                      | None => Err AttributeError
                      end
            end
        | EInsert q k n c =>                                (* 95 *)
            match walk q o with
            | Err x => Err x
            | Ok x => match lookup c w with
                      | Some y => let y' := copy (fresh w) y in
                                  if k <? length (slots x) then Ok (hear (Life (y' :: w) (l_rec s) (l_log s)) (Insert (id_of x) k n (id_of y')))
                                  else Err KeyError
                      | None => Err AttributeError
                      end
            end
        | ERemove q k n =>                                  (* 103 *)
            match walk q o with
            | Err x => Err x
            | Ok x => match nth_error (slots x) k with
                      | Some l => match nth_error l n with Some _ => Ok (hear s (Remove (id_of x) k n)) | None => Err IndexError end
                      | None => Err AttributeError
                      end
            end
        end
    end.

  (** 57-59: [n] steps of the loop from place [pos] of the log; the iterator of a list looks at its length anew each time *)
  Inductive outcome := Going (pos : nat) (s : life) | Done (s : life) | Raised (x : exn) (s : life).
  Fixpoint live (n : nat) (r pos : nat) (s : life) : outcome :=
    match n with
    | 0 => Going pos s
    | S n' =>
        match nth_error (l_log s) pos with
        | None => Done s
        | Some e => match call_on s r e with Ok s' => live n' r (S pos) s' | Err x => Raised x s end
        end
    end.
End RecLife.
Arguments life : clear implicits.
Arguments outcome : clear implicits.
