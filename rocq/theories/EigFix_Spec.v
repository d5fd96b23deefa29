(** Positive definiteness on a subset of the groups, and the contracts of the
    external eigendecomposition and inverse. *)
From Coq Require Import Reals List Arith.
From Verif Require Import Mat.
Local Open Scope R_scope.

(** [w] and [P] are an orthonormal eigendecomposition of the d by d matrix [B]. *)
Definition eigendecomposition (d : nat) (B : mat) (w : vec) (P : mat) : Prop :=
  (forall i j, (i < d)%nat -> (j < d)%nat -> mmul d (tr P) P i j = meye i j) /\
  (forall i j, (i < d)%nat -> (j < d)%nat -> mmul d P (tr P) i j = meye i j) /\
  (forall i j, (i < d)%nat -> (j < d)%nat -> B i j = sumn d (fun k => w k * (P i k * P j k))).
Definition right_inverse (d : nat) (P Q : mat) : Prop :=
  forall i j, (i < d)%nat -> (j < d)%nat -> mmul d P Q i j = meye i j.

(** The groups that take part: positive diagonal. *)
Definition used (A : mat) (i : nat) : Prop := 0 < A i i.
(** Vectors supported on the used groups. *)
Definition on_used (n : nat) (A : mat) (x : vec) : Prop := forall i, (i < n)%nat -> ~ used A i -> x i = 0.
(** [B] exceeds [lam] times the identity on the groups used by [A]. *)
Definition exceeds (n : nat) (A B : mat) (lam : R) : Prop :=
  forall x, on_used n A x -> (exists i, (i < n)%nat /\ x i <> 0) -> lam * sq n x < quad n B x.
