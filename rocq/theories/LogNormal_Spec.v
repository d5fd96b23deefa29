(** Moments of lognormal variables (textbook formulas) and sample statistics. *)
From Coq Require Import Reals.
From Verif Require Import Mat.
Local Open Scope R_scope.

(** Mean and variance of exp(X), X normal with mean [mu] and deviation [sigma]. *)
Definition lognormal_mean (mu sigma : R) : R := exp (mu + sigma ^ 2 / 2).
Definition lognormal_var (mu sigma : R) : R := (exp (sigma ^ 2) - 1) * exp (2 * mu + sigma ^ 2).
(** Covariance of exp(X) and exp(Y), X and Y jointly normal with correlation [c]. *)
Definition lognormal_cov (mu1 s1 mu2 s2 c : R) : R :=
  exp (mu1 + mu2 + (s1 ^ 2 + s2 ^ 2) / 2) * (exp (c * s1 * s2) - 1).

(** [f] rearranges [0..n-1]. *)
Definition rearrangement (n : nat) (f : nat -> nat) : Prop :=
  (forall i, (i < n)%nat -> (f i < n)%nat) /\
  (forall i j, (i < n)%nat -> (j < n)%nat -> f i = f j -> i = j).

(** Sample mean and covariance of columns. *)
Definition col_mean (ns : nat) (N : mat) (j : nat) : R := sumn ns (fun i => N i j) / INR ns.
Definition col_cov (ns : nat) (N : mat) (j k : nat) : R :=
  sumn ns (fun i => (N i j - col_mean ns N j) * (N i k - col_mean ns N k)) / INR ns.
