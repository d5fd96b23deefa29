(** Thinning a table.  Source: /repo/ASAPy/data/grid.py:61-114.
    Simplifications: exact arithmetic; entries are finite numbers, and no two abscissae
    that are compared are equal (a quotient by zero is 0 here, infinite or NaN in
    numpy); the arrays hold floating point numbers (integer arrays cannot take NaN). *)
From Coq Require Import ZArith QArith Qcanon List Bool Arith.
From Verif Require Import Num.
Import ListNotations.
Local Open Scope nat_scope.

Definition qat (l : list Qc) (i : nat) : Qc := nth i l 0%Qc.
(** grid.py:90-98: the error at point [i] of the line from [l] to [r] exceeds the
    tolerance. *)
Definition off (tol : Qc) (x y : list Qc) (l r i : nat) : bool :=
  let m := ((qat y r - qat y l) / (qat x r - qat x l))%Qc in
  let y_interp := (qat y l + m * (qat x i - qat x l))%Qc in
  let error := if qltb 0 (qabs (qat y i)) then qabs ((y_interp - qat y i) / qat y i)%Qc else (qz 2 * tol)%Qc in
  qltb tol error.
(** [range(a, b)]. *)
Definition range (a b : nat) : list nat := seq a (b - a).
(** grid.py:87-109: the loop; [gone] are the points set to NaN.  The right end moves by
    one in every turn. *)
Fixpoint loop (fuel : nat) (tol : Qc) (x y : list Qc) (l r : nat) (gone : list nat) : nat * nat * list nat :=
  match fuel with
  | O => (l, r, gone)
  | S k =>
      if (l + 2 <? length x) && (r <? length x) then
        if existsb (off tol x y l r) (range (l + 1) r)
        then loop k tol x y (r - 1) (r - 1 + 1 + 1) (gone ++ range (l + 1) (r - 1))
        else loop k tol x y l (r + 1) gone
      else (l, r, gone)
  end.
Definition memb (i : nat) (l : list nat) : bool := existsb (Nat.eqb i) l.
(** grid.py:79-114. *)
Definition thin (tol : Qc) (x y : list Qc) : list Qc * list Qc :=
  let '(l, r, gone) := loop (length x) tol x y 0 2 [] in
  let gone := gone ++ range (l + 1) (r - 1) in
  let kept := filter (fun i => negb (memb i gone)) (seq 0 (length x)) in
  (map (qat x) kept, map (qat y) kept).
