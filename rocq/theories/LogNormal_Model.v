(** Lognormal parameters, correlation transform and the score matrix.
    Source: /repo/ASAPy/CovManipulation.py:20-30, 337-378, 389-397, 414-417.
    Real numbers instead of floats; division by zero is Coq's total division. *)
From Coq Require Import Reals.
From Verif Require Import Mat.
Local Open Scope R_scope.

(** CovManipulation.py:391. *)
Definition ln_mu (m s : R) : R := ln (m / sqrt (1 + s ^ 2 / m ^ 2)).
(** CovManipulation.py:392. *)
Definition ln_sigma (m s : R) : R := sqrt (ln (1 + s ^ 2 / m ^ 2)).
(** CovManipulation.py:348-350, entry (i, j). *)
Definition log_corr (mean std : vec) (corr : mat) : mat := fun i j =>
  mean i * mean j / (std i * std j) *
  (exp (corr i j * sqrt (ln (std i ^ 2 / mean i ^ 2 + 1) * ln (std j ^ 2 / mean j ^ 2 + 1))) - 1).

(** CovManipulation.py:404-417: a lognormal value from the percent-point value
    [z] of the standard normal ([ppf(p, loc, scale) = loc + scale * z]). *)
Definition ln_draw (m s z : R) : R := exp (ln_mu m s + ln_sigma m s * z).

(** CovManipulation.py:26: [p = (p - p.mean()) / p.std()]. *)
Definition mean_of (n : nat) (p : vec) : R := sumn n p / INR n.
Definition std_of (n : nat) (p : vec) : R := sqrt (sumn n (fun i => (p i - mean_of n p) ^ 2) / INR n).
Definition standardise (n : nat) (p : vec) : vec := fun i => (p i - mean_of n p) / std_of n p.

(** CovManipulation.py:20-30: column [j] is [p] rearranged by [perm j]. *)
Definition independent (n : nat) (p : vec) (perm : nat -> nat -> nat) : mat :=
  fun i j => standardise n p (perm j i).

(** CovManipulation.py:370 and 378: [D] and [N = M inv(E) C], for [ns] samples
    of [d] variables. *)
Definition cov_of (ns : nat) (M : mat) : mat := fun i j => 1 / INR ns * mmul ns (tr M) M i j.
Definition scores (d : nat) (M Einv C : mat) : mat := mmul d (mmul d M Einv) C.
