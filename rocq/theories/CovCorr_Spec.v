(** What the correlation/covariance conversions should give. *)
From Coq Require Import Reals.
From Verif Require Import Mat.
Local Open Scope R_scope.

(** The covariance matrix of variables with deviations [std] and correlations
    taken from the upper triangle of [corr]. *)
Record is_cov (n : nat) (std : vec) (corr cov : mat) : Prop := {
  ic_diag : forall i, (i < n)%nat -> cov i i = std i * std i;
  ic_upper : forall i j, (i < j)%nat -> (j < n)%nat -> cov i j = corr i j * std i * std j;
  ic_sym : forall i j, (i < n)%nat -> (j < n)%nat -> cov i j = cov j i }.

(** A correlation matrix. *)
Record is_corr (n : nat) (corr : mat) : Prop := {
  icr_unit : forall i, (i < n)%nat -> corr i i = 1;
  icr_sym : sym n corr;
  icr_psd : psd n corr }.
