(** Model of the correlation/covariance conversions
    (/repo/ASAPy/CovManipulation.py lines 55-94, used by
    /repo/ASAPy/XsecSampler.py lines 97-110).
    Simplifications: real numbers instead of floats; arrays are square of the
    length of [std] (numpy raises IndexError otherwise) and of float type;
    division by zero is Coq's total division, so statements about
    [cov_to_correlation] ask for a non-zero diagonal. *)
From Coq Require Import Reals.
From Verif Require Import Mat.
Local Open Scope R_scope.

(** CovManipulation.py lines 55-82. *)
Definition correlation_to_cov (n : nat) (std : vec) (corr : mat) : mat :=
  let cov0 := mdiag (fun i => std i ^ 2) in
  let cov := range 0 n (fun i c =>
               range (S i) n (fun j c => upd c i j (corr i j * std i * std j)) c) cov0 in
  msub (madd cov (tr cov)) (mdiag (diagonal cov)).

(** CovManipulation.py lines 84-94. *)
Definition cov_to_correlation (n : nat) (cov : mat) : mat :=
  let corr0 := mdiag (fun _ => 1) in
  let corr := range 0 n (fun i c =>
                range (S i) n (fun j c => upd c i j (cov i j / sqrt (Rabs (cov i i * cov j j)))) c) corr0 in
  msub (madd corr (tr corr)) (mdiag (diagonal corr)).
