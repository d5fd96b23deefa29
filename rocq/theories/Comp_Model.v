(** Functions made of functions.
    Source: /repo/ASAPy/data/function.py:439-589 (Combination, Sum, Regions1D);
            /repo/ASAPy/data/checkvalue.py:135-165 (check_length).
    Simplifications: exact rationals; functions and operations return a number for every
    number, and treat an array element by element; [None] is an exception; that arguments
    are iterables of callables, ufuncs or numbers is taken for granted. *)
From Coq Require Import ZArith QArith Qcanon List Bool Arith.
From Verif Require Import Num.
Import ListNotations.
Local Open Scope nat_scope.
Local Open Scope list_scope.

Definition fn := Qc -> Qc.
Definition op := Qc -> Qc -> Qc.
(** *** Combination *)
Record combination := mkComb { c_fns : list fn; c_ops : list op }.
(** function.py:493-499. *)
Definition set_operations (o : list op) (c : combination) : option combination :=
  if (Z.of_nat (length o) =? Z.of_nat (length (c_fns c)) - 1)%Z then Some (mkComb (c_fns c) o) else None.
(** function.py:484-487. *)
Definition set_functions (f : list fn) (c : combination) : combination := mkComb f (c_ops c).
(** function.py:470-472. *)
Definition combine_of (f : list fn) (o : list op) : option combination := set_operations o (mkComb f []).
(** function.py:476-477: from operation [i] on. *)
Fixpoint apply_ops (fs : list fn) (i : nat) (os : list op) (x ans : Qc) : option Qc :=
  match os with
  | [] => Some ans
  | o :: os' => match nth_error fs (i + 1) with Some f => apply_ops fs (S i) os' x (o ans (f x)) | None => None end
  end.
(** function.py:474-478. *)
Definition call_combination (c : combination) (x : Qc) : option Qc :=
  match nth_error (c_fns c) 0 with Some f => apply_ops (c_fns c) 0 (c_ops c) x (f x) | None => None end.

(** *** Sum *)
(** function.py:525-526 with a number and with an array ([0 + a] is an array, too; without
    functions the number 0). *)
Definition call_sum (fs : list fn) (x : Qc) : Qc := fold_left (fun a f => (a + f x)%Qc) fs 0%Qc.
Inductive result := Number (q : Qc) | Array (l : list Qc).
Definition plus (r : result) (l : list Qc) : result :=
  match r with Number q => Array (map (fun y => q + y)%Qc l) | Array a => Array (map (fun p => fst p + snd p)%Qc (combine a l)) end.
Definition call_sums (fs : list fn) (xs : list Qc) : result := fold_left (fun r f => plus r (map f xs)) fs (Number 0%Qc).

(** *** Regions1D *)
(** [np.searchsorted(bs, x)]: bisection, between [lo] and [hi]. *)
Fixpoint search (fuel : nat) (bs : list Qc) (x : Qc) (lo hi : nat) : nat :=
  match fuel with
  | O => lo
  | S k =>
      if lo <? hi then
        let mid := lo + (hi - lo) / 2 in
        if qltb (nth mid bs 0%Qc) x then search k bs x (mid + 1) hi else search k bs x lo mid
      else lo
  end.
Definition searchsorted (bs : list Qc) (x : Qc) : nat := search (length bs) bs x 0 (length bs).
(** function.py:564, 570-571. *)
Definition call_regions (fs : list fn) (bs : list Qc) (x : Qc) : option Qc :=
  match nth_error fs (searchsorted bs x) with Some f => Some (f x) | None => None end.
(** Storing a number in an array of integers drops its fraction. *)
Definition trunc (q : Qc) : Qc := qz (Z.quot (Qnum (this q)) (Zpos (Qden (this q)))).
(** function.py:565-569; [whole]: the array is one of integers, and so is the result. *)
Fixpoint call_regions_array (whole : bool) (fs : list fn) (bs : list Qc) (xs : list Qc) : option (list Qc) :=
  match xs with
  | [] => Some []
  | x :: r =>
      match call_regions fs bs x, call_regions_array whole fs bs r with
      | Some y, Some ys => Some ((if whole then trunc y else y) :: ys)
      | _, _ => None
      end
  end.
