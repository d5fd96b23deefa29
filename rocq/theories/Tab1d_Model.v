(** Tabulated functions: evaluation, sums and integrals.
    Source: /repo/ASAPy/data/function.py:17-54, 142-210, 259-313.
    Simplifications: real numbers instead of floats; division by zero and
    logarithms of non-positive numbers are Coq's total functions (numpy gives
    infinities or NaN). *)
From Coq Require Import Reals ZArith List Bool.
Import ListNotations.
Local Open Scope R_scope.

Local Notation "'do' x <- e ; k" :=
  (match e with Some x => k | None => None end) (at level 60, x pattern, e at level 59, k at level 60).

(** function.py:142-152: the four attributes. *)
Record tab1 := { xs : list R; ys : list R; bps : list Z; schemes : list Z }.
(** function.py:143-146: without breakpoints, one linear-linear region. *)
Definition tabulated (x y : list R) : tab1 :=
  {| xs := x; ys := y; bps := [Z.of_nat (length x)]; schemes := [2%Z] |}.

(** numpy indexing [l[i]]: negative indices count from the end; [None] is
    IndexError. *)
Definition at_ (l : list R) (i : Z) : option R :=
  if (0 <=? i)%Z then nth_error l (Z.to_nat i)
  else if (- Z.of_nat (length l) <=? i)%Z then nth_error l (Z.to_nat (i + Z.of_nat (length l))) else None.

(** function.py:167 [np.searchsorted(self.x, x, side='right')] for a sorted
    array: the number of leading entries <= e. *)
Fixpoint ssr (l : list R) (e : R) : nat :=
  match l with [] => O | x :: r => if Rle_dec x e then S (ssr r e) else O end.

(** function.py:184-203: the value of one region; any other scheme number
    leaves the output as it was ([old]). *)
Definition segment (s : Z) (old xk xi xi1 yi yi1 : R) : R :=
  if (s =? 1)%Z then yi
  else if (s =? 2)%Z then yi + (xk - xi) / (xi1 - xi) * (yi1 - yi)
  else if (s =? 3)%Z then yi + ln (xk / xi) / ln (xi1 / xi) * (yi1 - yi)
  else if (s =? 4)%Z then yi * exp ((xk - xi) / (xi1 - xi) * ln (yi1 / yi))
  else if (s =? 5)%Z then yi * exp (ln (xk / xi) / ln (xi1 / xi) * ln (yi1 / yi))
  else old.

(** function.py:170-203 for one abscissa, region [k] onwards; [prev] is the
    preceding breakpoint. *)
Fixpoint regions (t : tab1) (e : R) (idx prev : Z) (bs ss : list Z) (y : R) : option R :=
  match bs, ss with
  | [], _ => Some y
  | _ :: _, [] => None (* self.interpolation[k]: IndexError *)
  | b :: bs', s :: ss' =>
      let i_begin := (prev - 1)%Z in
      let i_end := (b - 1)%Z in
      do y' <- (if (i_begin <=? idx)%Z && (idx <? i_end)%Z then
                  do xi <- at_ (xs t) idx; do xi1 <- at_ (xs t) (idx + 1);
                  do yi <- at_ (ys t) idx; do yi1 <- at_ (ys t) (idx + 1);
                  Some (segment s y e xi xi1 yi yi1)
                else Some y);
      regions t e idx b bs' ss' y'
  end.

(** [np.isclose(a, b, atol=1e-14)] with numpy's default rtol=1e-5. *)
Definition near (a b : R) : bool :=
  if Rle_dec (Rabs (a - b)) (1 / 10 ^ 14 + 1 / 10 ^ 5 * Rabs b) then true else false.

(** function.py:154-210 for one float abscissa.  The first region begins at
    index 0, i.e. after breakpoint 1. *)
Definition call_at (t : tab1) (e : R) : option R :=
  let idx := (Z.of_nat (ssr (xs t) e) - 1)%Z in
  do y <- regions t e idx 1 (bps t) (schemes t) 0;
  do x0 <- at_ (xs t) 0; do xn <- at_ (xs t) (-1);
  do y0 <- at_ (ys t) 0; do yn <- at_ (ys t) (-1);
  Some (if near e xn then yn else if near e x0 then y0 else y).

Fixpoint all_some {A} (l : list (option A)) : option (list A) :=
  match l with
  | [] => Some []
  | None :: _ => None
  | Some a :: r => option_map (cons a) (all_some r)
  end.

(** Truncation towards zero, numpy's cast to int. *)
Definition trunc (x : R) : Z := if Rle_dec 0 x then Int_part x else (- Int_part (- x))%Z.

(** function.py:156-164, 210: a number is evaluated as a float; an array of
    integers gives an integer output array ([zeros_like]), so every assigned
    value is truncated. *)
Inductive query := Scalar (e : R) | Floats (es : list R) | Ints (ns : list Z).
Definition call (t : tab1) (q : query) : option (list R) :=
  match q with
  | Scalar e => option_map (fun y => [y]) (call_at t e)
  | Floats es => all_some (map (call_at t) es)
  | Ints ns => option_map (map (fun y => IZR (trunc y))) (all_some (map (fun n => call_at t (IZR n)) ns))
  end.

(** ** Sums *)
(** The functions accepted by sum_functions: tables, and numpy polynomials given
    by their coefficients, constant first. *)
Inductive func := Tab (t : tab1) | Poly (c : list R).
Fixpoint horner (c : list R) (x : R) : R := match c with [] => 0 | a :: r => a + x * horner r x end.
Definition func_at (f : func) (x : R) : option R :=
  match f with Tab t => call_at t x | Poly c => Some (horner c x) end.

(** [np.union1d]: sorted without repetition. *)
Fixpoint ins (x : R) (l : list R) : list R :=
  match l with
  | [] => [x]
  | y :: r => if Req_EM_T x y then l else if Rlt_dec x y then x :: l else y :: ins x r
  end.
Definition union1d (a b : list R) : list R := fold_right ins [] (a ++ b).
(** function.py:35-45: the grids of the tables, [None] for a scheme other than 2. *)
Fixpoint grids (fs : list func) : option (list (list R)) :=
  match fs with
  | [] => Some []
  | Tab t :: r => if forallb (Z.eqb 2) (schemes t) then option_map (cons (xs t)) (grids r) else None
  | Poly _ :: r => grids r
  end.
(** [sum(...)] of the values. *)
Definition total (l : list R) : R := fold_right Rplus 0 l.
Definition sum_at (fs : list func) (x : R) : option R := option_map total (all_some (map (fun f => func_at f x) fs)).
(** Coefficient-wise sum, function.py:53 ([zip_longest]). *)
Fixpoint cadd (a b : list R) : list R :=
  match a, b with
  | [], _ => b
  | _, [] => a
  | x :: a', y :: b' => x + y :: cadd a' b'
  end.
Definition coeffs (f : func) : list R := match f with Poly c => c | Tab _ => [] end.
(** function.py:17-54.  [reduce(np.union1d, [x])] of one grid is that grid itself. *)
Definition sum_functions (fs : list func) : option func :=
  do gs <- grids fs;
  match gs with
  | [] => match fs with
          | [] => None (* a numpy polynomial needs a coefficient *)
          | _ => Some (Poly (fold_right cadd [] (map coeffs fs)))
          end
  | g :: gs' =>
      let x := fold_left union1d gs' g in
      do y <- all_some (map (sum_at fs) x);
      Some (Tab (tabulated x y))
  end.

(** ** Integrals *)
(** A float that may be NaN ([None]). *)
Definition num := option R.
(** function.py:284-309: the integral of one segment; any other scheme number
    leaves 0.  A zero divisor in the last two schemes meets a zero factor, so
    numpy's result is NaN. *)
Definition area (s : Z) (x0 x1 y0 y1 : R) : num :=
  if (s =? 1)%Z then Some (y0 * (x1 - x0))
  else if (s =? 2)%Z then
    let m := (y1 - y0) / (x1 - x0) in Some ((y0 - m * x0) * (x1 - x0) + m * (x1 ^ 2 - x0 ^ 2) / 2)
  else if (s =? 3)%Z then
    let logx := ln (x1 / x0) in let m := (y1 - y0) / logx in Some (y0 + m * (x1 * (logx - 1) + x0))
  else if (s =? 4)%Z then
    let m := ln (y1 / y0) / (x1 - x0) in
    if Req_EM_T m 0 then None else Some (y0 / m * (exp (m * (x1 - x0)) - 1))
  else if (s =? 5)%Z then
    let m := ln (y1 / y0) / ln (x1 / x0) in
    if Req_EM_T (m + 1) 0 then None
    else Some (y0 / ((m + 1) * Rpower x0 m) * (Rpower x1 (m + 1) - Rpower x0 (m + 1)))
  else Some 0.
(** One region: [n] segments from the start of [x] and [y]. *)
Fixpoint areas (s : Z) (x y : list R) (n : nat) : list num :=
  match n, x, y with
  | S k, x0 :: ((x1 :: _) as x'), y0 :: ((y1 :: _) as y') => area s x0 x1 y0 y1 :: areas s x' y' k
  | _, _, _ => []
  end.
(** [part[low:low+len(new)] = new]. *)
Definition paste (part new : list num) (low : nat) : list num :=
  firstn low part ++ new ++ skipn (low + length new) part.
(** function.py:275-311.  [None]: interpolation missing (IndexError), or a
    breakpoint beyond the table (shapes differ).  Simplification: a breakpoint
    below 1 or a table with fewer ordinates than abscissae is also [None]. *)
Fixpoint fill (x y : list R) (low : nat) (bs ss : list Z) (part : list num) : option (list num) :=
  match bs, ss with
  | [], _ => Some part
  | _ :: _, [] => None
  | b :: bs', s :: ss' =>
      if (b <? 1)%Z || (Z.of_nat (length x) <? b)%Z then None
      else
        let high := Z.to_nat (b - 1) in
        let new := areas s (skipn low x) (skipn low y) (high - low) in
        fill x y high bs' ss' (paste part new low)
  end.
(** [np.cumsum]; NaN spreads. *)
Definition nadd (a b : num) : num := match a, b with Some x, Some y => Some (x + y) | _, _ => None end.
Fixpoint cumsum (acc : num) (l : list num) : list num :=
  match l with [] => [] | a :: r => nadd acc a :: cumsum (nadd acc a) r end.
(** function.py:259-313. *)
Definition integral (t : tab1) : option (list num) :=
  match length (xs t) with
  | O => None (* np.zeros of a negative size *)
  | S n =>
      if Nat.eqb (length (ys t)) (length (xs t)) then
        option_map (fun p => Some 0 :: cumsum (Some 0) p) (fill (xs t) (ys t) 0 (bps t) (schemes t) (repeat (Some 0) n))
      else None
  end.
