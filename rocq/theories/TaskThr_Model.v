(** Model of TaskQueue and TaskSet, /repo/nion/utils/Process.py:18-65, used by any number of threads at a time.
    [queue.Queue]'s methods and the blocks with a mutex are atomic.  Every call of perform_tasks or clear_tasks goes on
    by its own steps; that calls made by a task are nested in the call running it only excludes some of the
    interleavings here. *)
From Coq Require Import List Bool Arith.
From Verif Require Import PyBase.
Import ListNotations.

(** [c] gives place [i] of the list the value [x] *)
Fixpoint t_put {X} (i : nat) (x : X) (l : list X) {struct l} : list X :=
  match l, i with
  | [], _ => []
  | _ :: l', 0 => x :: l'
  | y :: l', S i' => y :: t_put i' x l'
  end.

Section TaskQueue.
  Context {T : Type}.

  (** where a call is: before the test of the loop (23, 36) with the remaining number, before [get] (25, 38), inside a
      task (29), or over *)
  Inductive qcall := QLoop (clear : bool) (n : nat) | QGet (clear : bool) (n : nat) | QTask (t : T) (n : nat) | QOver.
  (** what has happened; calls are numbered *)
  Inductive qev := EPut (t : T) | ECall (c : nat) | ETake (c : nat) (clear : bool) (t : T) | EReturn (c : nat) (t : T)
                 | ERaise (c : nat) (t : T) | EExit (c : nat).
  Record qst := Qs { q_queue : list T; q_unfinished : nat; q_calls : list qcall; q_log : list qev }.
  Definition q_new : qst := Qs [] 0 [] [].

  Inductive qact := QPut (t : T)                      (* some thread puts a task *)
                  | QCall (clear : bool)              (* some thread calls perform_tasks or clear_tasks *)
                  | QGo (c : nat)                     (* call [c] makes a step *)
                  | QEnd (c : nat) (raises : bool).   (* the task run by call [c] ends *)

  Definition q_step (s : qst) (a : qact) : qst :=
    let 'Qs q u cs log := s in
    match a with
    | QPut t => Qs (q ++ [t]) (S u) cs (log ++ [EPut t])
    | QCall clear => Qs q u (cs ++ [QLoop clear (length q)]) (log ++ [ECall (length cs)])                 (* 22, 35 *)
    | QGo c =>
        match nth_error cs c with
        | Some (QLoop clear n) =>                                                                        (* 23, 36 *)
            match q, n with
            | _ :: _, S _ => Qs q u (t_put c (QGet clear n) cs) log
            | _, _ => Qs q u (t_put c QOver cs) (log ++ [EExit c])
            end
        | Some (QGet clear n) =>
            match q with
            | [] => Qs q u (t_put c (QLoop clear (n - 1)) cs) log                                        (* 26-27, 31 *)
            | t :: q' =>
                if clear then Qs q' (u - 1) (t_put c (QLoop clear (n - 1)) cs) (log ++ [ETake c clear t])  (* 38-43 *)
                else Qs q' u (t_put c (QTask t n) cs) (log ++ [ETake c clear t])                         (* 25, 29 *)
            end
        | _ => s
        end
    | QEnd c raises =>
        match nth_error cs c with
        | Some (QTask t n) =>
            if raises : bool then Qs q u (t_put c QOver cs) (log ++ [ERaise c t])
            else Qs q (u - 1) (t_put c (QLoop false (n - 1)) cs) (log ++ [EReturn c t])                  (* 30-31 *)
        | _ => s
        end
    end.
  Definition q_run (acts : list qact) : qst := fold_left q_step acts q_new.
End TaskQueue.
Arguments qev : clear implicits.
Arguments qst : clear implicits.
Arguments qact : clear implicits.
Arguments qcall : clear implicits.

Section TaskSet.
  Context {K T : Type} (eqk : K -> K -> bool).

  (** a dictionary keeps the place of a key that is set again *)
  Fixpoint d_set (k : K) (t : T) (d : list (K * T)) : list (K * T) :=
    match d with
    | [] => [(k, t)]
    | (k', t') :: d' => if eqk k' k then (k', t) :: d' else (k', t') :: d_set k t d'
    end.
  Definition d_del (k : K) (d : list (K * T)) : list (K * T) := filter (fun p => negb (eqk (fst p) k)) d.

  (** a call of perform_tasks: in the loop (64) with the tasks still to do, inside a task (65), or over *)
  Inductive scall := SLoop (l : list (K * T)) | STask (p : K * T) (l : list (K * T)) | SOver.
  Inductive sev := VAdd (k : K) (t : T) | VClear (k : K) | VCall (c : nat) | VStart (c : nat) (k : K) (t : T)
                 | VRaise (c : nat) | VExit (c : nat).
  Record sst := Ss { s_dict : list (K * T); s_calls : list scall; s_log : list sev }.
  Definition s_new : sst := Ss [] [] [].

  Inductive sact := SAdd (k : K) (t : T) | SClear (k : K) | SCall | SGo (c : nat) | SEnd (c : nat) (raises : bool).

  Definition s_step (s : sst) (a : sact) : sst :=
    let 'Ss d cs log := s in
    match a with
    | SAdd k t => Ss (d_set k t d) cs (log ++ [VAdd k t])                                                (* 53-55 *)
    | SClear k => Ss (d_del k d) cs (log ++ [VClear k])                                                  (* 56-59 *)
    | SCall => Ss [] (cs ++ [SLoop d]) (log ++ [VCall (length cs)])                                      (* 61-63 *)
    | SGo c =>
        match nth_error cs c with
        | Some (SLoop []) => Ss d (t_put c SOver cs) (log ++ [VExit c])
        | Some (SLoop (p :: l)) => Ss d (t_put c (STask p l) cs) (log ++ [VStart c (fst p) (snd p)])
        | _ => s
        end
    | SEnd c raises =>
        match nth_error cs c with
        | Some (STask p l) =>
            if raises : bool then Ss d (t_put c SOver cs) (log ++ [VRaise c])
            else Ss d (t_put c (SLoop l) cs) log
        | _ => s
        end
    end.
  Definition s_run (acts : list sact) : sst := fold_left s_step acts s_new.
End TaskSet.
Arguments sev : clear implicits.
Arguments sst : clear implicits.
Arguments sact : clear implicits.
Arguments scall : clear implicits.
