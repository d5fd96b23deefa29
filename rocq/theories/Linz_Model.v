(** Linear-linear representation of a function.
    Source: /repo/ASAPy/data/grid.py:4-59.
    Simplifications: exact arithmetic; the function takes finite numbers to finite
    numbers; the loop is given [fuel] turns ([None]: not finished). *)
From Coq Require Import ZArith QArith Qcanon List Bool Arith.
From Verif Require Import Num.
Import ListNotations.
Local Open Scope nat_scope.

(** grid.py:41-48: the midpoint is off.  Where the value there is 0 numpy's error is
    infinite (refine), or NaN if the interpolated value is 0 too (do not). *)
Definition refine (f : Qc -> Qc) (tol xl yl xh yh : Qc) : bool :=
  let xm := (qc 1 2 * (xl + xh))%Qc in
  let ym := f xm in
  let y_interp := (yl + (yh - yl) / (xh - xl) * (xm - xl))%Qc in
  if qeqb ym 0 then negb (qeqb y_interp 0) else qltb tol (qabs ((y_interp - ym) / ym)).
(** grid.py:40-56: the inner loop.  The stacks are kept with the top first; [out] is
    what has been popped, in order. *)
Fixpoint inner (fuel : nat) (f : Qc -> Qc) (tol : Qc) (stack out : list (Qc * Qc)) : option (list (Qc * Qc) * list (Qc * Qc)) :=
  match fuel with
  | O => None
  | S k =>
      match stack with
      | (xl, yl) :: (xh, yh) :: r =>
          if refine f tol xl yl xh yh
          then let xm := (qc 1 2 * (xl + xh))%Qc in inner k f tol ((xl, yl) :: (xm, f xm) :: (xh, yh) :: r) out
          else match r with
               | [] => Some ([(xh, yh)], out ++ [(xl, yl)])
               | _ => inner k f tol ((xh, yh) :: r) (out ++ [(xl, yl)])
               end
      | _ => None
      end
  end.
(** grid.py:36-56: over the initial grid; each point is put at the bottom. *)
Fixpoint outer (fuel : nat) (f : Qc -> Qc) (tol : Qc) (xs : list Qc) (stack out : list (Qc * Qc)) : option (list (Qc * Qc) * list (Qc * Qc)) :=
  match xs with
  | [] => Some (stack, out)
  | x :: r => match inner fuel f tol (stack ++ [(x, f x)]) out with
              | Some (s, o) => outer fuel f tol r s o
              | None => None
              end
  end.
(** grid.py:4-59; the result as pairs; [None] also for an empty grid (IndexError). *)
Definition linearize (fuel : nat) (f : Qc -> Qc) (tol : Qc) (xs : list Qc) : option (list (Qc * Qc)) :=
  match xs with
  | [] => None
  | x :: r => match outer fuel f tol r [(x, f x)] [] with
              | Some (p :: _, o) => Some (o ++ [p])
              | _ => None
              end
  end.
