(** == and != of the six classes of [nion/utils/Geometry.py] (305-1060) on any operands: None, numbers, tuples and
    lists of anything, and objects of all six classes.
    Simplified: infinities, strings and bools as operands are left out; a tuple and a list are not told apart (the code
    only indexes them); an integer too large for a float is not an OverflowError. *)
From Coq Require Import ZArith QArith Bool List.
From Verif Require Import PyBase ConvNum_Model Float53_Model.
Import ListNotations.
Local Open Scope Z_scope.

(** A Python float: a rational (the value of a double) or nan. *)
Inductive flt := Fin (q : Q) | Nan.

Inductive val :=
| VNone | VInt (z : Z) | VFlt (f : flt) | VSeq (l : list val)
| VIP (y x : Z) | VIS (h w : Z) | VIR (y x h w : Z)
| VFP (y x : flt) | VFS (h w : flt) | VFR (y x h w : flt).

(** 375-376, 462-463, 604-605, 752-753, 847-848, 995-996: __getitem__ indexes a tuple of the fields, for rectangles
    a tuple of two tuples.  None and numbers cannot be indexed. *)
Definition getitem (v : val) (i : Z) : res val :=
  match v with
  | VNone | VInt _ | VFlt _ => Err TypeError
  | VSeq l => py_get l i
  | VIP y x => py_get [VInt y; VInt x] i
  | VIS h w => py_get [VInt h; VInt w] i
  | VIR y x h w => py_get [VSeq [VInt y; VInt x]; VSeq [VInt h; VInt w]] i
  | VFP y x => py_get [VFlt y; VFlt x] i
  | VFS h w => py_get [VFlt h; VFlt w] i
  | VFR y x h w => py_get [VSeq [VFlt y; VFlt x]; VSeq [VFlt h; VFlt w]] i
  end.

(** int() and float() of the language: int(nan) is a ValueError, of anything but a number a TypeError; an integer is
    rounded to the nearest double. *)
Definition to_int (v : val) : res Z :=
  match v with
  | VInt z => Ok z | VFlt (Fin q) => Ok (q_trunc q) | VFlt Nan => Err ValueError | _ => Err TypeError
  end.
Definition to_float (v : val) : res flt :=
  match v with
  | VInt z => Ok (Fin (fl (inject_Z z))) | VFlt f => Ok f | _ => Err TypeError
  end.
(** == of floats *)
Definition feq (a b : flt) : bool := match a, b with Fin p, Fin q => Qeq_bool p q | _, _ => false end.

Definition bind {X Y} (r : res X) (f : X -> res Y) : res Y := match r with Ok a => f a | Err e => Err e end.

(** 309-316: y is converted first *)
Definition ip_make (v : val) : res (Z * Z) :=
  bind (getitem v 0) (fun a => bind (getitem v 1) (fun b =>
  bind (to_int a) (fun y => bind (to_int b) (fun x => Ok (y, x))))).
(** 388-404: a height or width that is None is 0 *)
Definition or_zero {X} (conv : val -> res X) (z : X) (v : val) : res X :=
  match v with VNone => Ok z | _ => conv v end.
Definition is_make (v : val) : res (Z * Z) :=
  bind (getitem v 0) (fun a => bind (getitem v 1) (fun b =>
  bind (or_zero to_int 0 a) (fun h => bind (or_zero to_int 0 b) (fun w => Ok (h, w))))).
(** 677-684, 775-791 *)
Definition fp_make (v : val) : res (flt * flt) :=
  bind (getitem v 0) (fun a => bind (getitem v 1) (fun b =>
  bind (to_float a) (fun y => bind (to_float b) (fun x => Ok (y, x))))).
Definition fs_make (v : val) : res (flt * flt) :=
  bind (getitem v 0) (fun a => bind (getitem v 1) (fun b =>
  bind (or_zero to_float (Fin 0) a) (fun h => bind (or_zero to_float (Fin 0) b) (fun w => Ok (h, w))))).
(** 483-490, 877-884 *)
Definition ir_make (v : val) : res ((Z * Z) * (Z * Z)) :=
  bind (getitem v 0) (fun a => bind (getitem v 1) (fun b =>
  bind (ip_make a) (fun o => bind (is_make b) (fun s => Ok (o, s))))).
Definition fr_make (v : val) : res ((flt * flt) * (flt * flt)) :=
  bind (getitem v 0) (fun a => bind (getitem v 1) (fun b =>
  bind (fp_make a) (fun o => bind (fs_make b) (fun s => Ok (o, s))))).

(** 337-341, 425-429, 592-596, 702-706, 809-813, 983-987: __eq__ of the object [a]; None: not an object of the six
    classes.  [is not None] comes first. *)
Definition eq_method (a : val) : option (val -> res bool) :=
  let unless_none f := fun o => match o with VNone => Ok false | _ => f o end in
  match a with
  | VIP y x => Some (unless_none (fun o => bind (ip_make o) (fun p => Ok ((x =? snd p) && (y =? fst p)))))
  | VIS h w => Some (unless_none (fun o => bind (is_make o) (fun p => Ok ((w =? snd p) && (h =? fst p)))))
  | VIR y x h w => Some (unless_none (fun o => bind (ir_make o) (fun r =>
      Ok (((x =? snd (fst r)) && (y =? fst (fst r))) && ((w =? snd (snd r)) && (h =? fst (snd r)))))))
  | VFP y x => Some (unless_none (fun o => bind (fp_make o) (fun p => Ok (feq x (snd p) && feq y (fst p)))))
  | VFS h w => Some (unless_none (fun o => bind (fs_make o) (fun p => Ok (feq w (snd p) && feq h (fst p)))))
  | VFR y x h w => Some (unless_none (fun o => bind (fr_make o) (fun r =>
      Ok ((feq x (snd (fst r)) && feq y (fst (fst r))) && (feq w (snd (snd r)) && feq h (fst (snd r)))))))
  | _ => None
  end.
(** 343-347, 431-435, 598-602, 708-712, 815-819, 989-993: __ne__ *)
Definition ne_method (a : val) : option (val -> res bool) :=
  let unless_none f := fun o => match o with VNone => Ok true | _ => f o end in
  match a with
  | VIP y x => Some (unless_none (fun o => bind (ip_make o) (fun p => Ok (negb (x =? snd p) || negb (y =? fst p)))))
  | VIS h w => Some (unless_none (fun o => bind (is_make o) (fun p => Ok (negb (w =? snd p) || negb (h =? fst p)))))
  | VIR y x h w => Some (unless_none (fun o => bind (ir_make o) (fun r =>
      Ok ((negb (x =? snd (fst r)) || negb (y =? fst (fst r))) || (negb (w =? snd (snd r)) || negb (h =? fst (snd r)))))))
  | VFP y x => Some (unless_none (fun o => bind (fp_make o) (fun p => Ok (negb (feq x (snd p)) || negb (feq y (fst p))))))
  | VFS h w => Some (unless_none (fun o => bind (fs_make o) (fun p => Ok (negb (feq w (snd p)) || negb (feq h (fst p))))))
  | VFR y x h w => Some (unless_none (fun o => bind (fr_make o) (fun r =>
      Ok ((negb (feq x (snd (fst r))) || negb (feq y (fst (fst r)))) || (negb (feq w (snd (snd r))) || negb (feq h (fst (snd r))))))))
  | _ => None
  end.

(** a == b and a != b of the language: the method of the left operand; None, numbers and sequences know nothing of the
    objects, so then that of the right operand.  None: neither is an object (not of interest here). *)
Definition py_eq (a b : val) : option (res bool) :=
  match eq_method a, eq_method b with
  | Some f, _ => Some (f b) | None, Some g => Some (g a) | None, None => None
  end.
Definition py_ne (a b : val) : option (res bool) :=
  match ne_method a, ne_method b with
  | Some f, _ => Some (f b) | None, Some g => Some (g a) | None, None => None
  end.
