(** Equality of data objects and automatic numbering.
    Source: /repo/ASAPy/data/mixin.py:9-117 and checkvalue.py (check_type,
    check_greater_than).
    Simplifications: attribute values are None, arrays of numbers (NaN included) or
    texts; a class is a number, the class hierarchy is an argument; one class holds
    next_id and used_ids. *)
From Coq Require Import List Bool Arith ZArith QArith Qcanon Ascii.
From Verif Require Import Num XNum Text.
Import ListNotations.
Local Open Scope nat_scope.

Inductive value := VNone | VNums (l : list xnum) | VText (t : text).
(** Equality of floating point numbers: NaN is not equal to itself. *)
Definition xeq (a b : xnum) : bool :=
  match a, b with
  | Fin p, Fin q => qeqb p q
  | PInf, PInf => true
  | NInf, NInf => true
  | _, _ => false
  end.
Fixpoint all_eq (a b : list xnum) : bool :=
  match a, b with
  | [], [] => true
  | x :: a, y :: b => xeq x y && all_eq a b
  | _, _ => false
  end.
(** [np.array_equal]. *)
Definition array_equal (a b : value) : bool :=
  match a, b with
  | VNone, VNone => true
  | VNums l, VNums m => all_eq l m
  | VText s, VText t => eqt s t
  | _, _ => false
  end.
(** An object: its class and its [__dict__]. *)
Record object := { cls : nat; attrs : list (text * value) }.
(** [other.__dict__.get(key)]. *)
Fixpoint getattr (k : text) (d : list (text * value)) : value :=
  match d with [] => VNone | (k', v) :: r => if eqt k k' then v else getattr k r end.
(** mixin.py:14-22; [sub c d]: class [c] is [d] or derived from it. *)
Definition eq_obj (sub : nat -> nat -> bool) (a b : object) : bool :=
  sub (cls b) (cls a) && forallb (fun kv => array_equal (snd kv) (getattr (fst kv) (attrs b))) (attrs a).

(** Numbering: the class attributes. *)
Record ids := { next_id : Z; used_ids : list Z }.
Definition memZ (z : Z) (l : list Z) : bool := existsb (Z.eqb z) l.
(** mixin.py:60-61; a number not in use is found in as many steps as numbers are in
    use. *)
Fixpoint skip_used (fuel : nat) (used : list Z) (n : Z) : Z :=
  match fuel with
  | O => n
  | S k => if memZ n used then skip_used k used (n + 1) else n
  end.
(** mixin.py:46-74 (the setter with None / with a number), 84-100 (reserve_ids),
    103-113 (set_auto_id), 77-81 (reset_auto_ids). *)
Inductive op := Auto | Given (uid : Z) | Reserve (l : list Z) | SetNext (n : Z) | Reset.
(** The number given to the object, if one is; a negative number is rejected; a
    number in use is given all the same with a warning. *)
Inductive answer := Assigned (uid : Z) (warned : bool) | Rejected | Nothing.
Definition do_op (s : ids) (o : op) : ids * answer :=
  match o with
  | Auto => let n := skip_used (S (length (used_ids s))) (used_ids s) (next_id s) in
            ({| next_id := n; used_ids := n :: used_ids s |}, Assigned n false)
  | Given u => if (u <? 0)%Z then (s, Rejected)
               else if memZ u (used_ids s) then (s, Assigned u true)
               else ({| next_id := next_id s; used_ids := u :: used_ids s |}, Assigned u false)
  | Reserve l => ({| next_id := next_id s; used_ids := l ++ used_ids s |}, Nothing)
  | SetNext n => ({| next_id := n; used_ids := used_ids s |}, Nothing)
  | Reset => ({| next_id := 1; used_ids := [] |}, Nothing)
  end.
Fixpoint history (s : ids) (l : list op) : ids * list answer :=
  match l with
  | [] => (s, [])
  | o :: r => let (s1, a) := do_op s o in let (s2, as') := history s1 r in (s2, a :: as')
  end.
Definition fresh_ids : ids := {| next_id := 1; used_ids := [] |}.
