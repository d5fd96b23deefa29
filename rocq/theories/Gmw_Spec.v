(** What a modified Cholesky factorisation must give. *)
From Coq Require Import Reals.
From Verif Require Import Mat.
Local Open Scope R_scope.

(** [P] is the matrix of the rearrangement [p]: column [k] is the unit vector [p k]. *)
Definition perm_matrix (n : nat) (P : mat) (p : nat -> nat) : Prop :=
  (forall k, (k < n)%nat -> (p k < n)%nat) /\
  (forall k l, (k < n)%nat -> (l < n)%nat -> p k = p l -> k = l) /\
  (forall i, (i < n)%nat -> exists k, (k < n)%nat /\ p k = i) /\
  (forall i k, (i < n)%nat -> (k < n)%nat -> P i k = if Nat.eqb i (p k) then 1 else 0).

Definition lower (n : nat) (L : mat) : Prop :=
  (forall i k, (i < k)%nat -> (k < n)%nat -> L i k = 0) /\ (forall i, (i < n)%nat -> 0 < L i i).

(** [P L L^T P^T = A + P diag(e) P^T]. *)
Definition factors (n : nat) (A P L : mat) (e : vec) : Prop :=
  forall i k, (i < n)%nat -> (k < n)%nat ->
    mmul n (mmul n P L) (tr (mmul n P L)) i k = A i k + mmul n (mmul n P (mdiag e)) (tr P) i k.

(** Largest absolute diagonal and off-diagonal entries. *)
Definition is_max_diag (n : nat) (A : mat) (g : R) : Prop :=
  (forall i, (i < n)%nat -> Rabs (A i i) <= g) /\
  (g = 0 \/ exists i, (i < n)%nat /\ g = Rabs (A i i)).
Definition is_max_off (n : nat) (A : mat) (x : R) : Prop :=
  (forall i j, (i < j)%nat -> (j < n)%nat -> Rabs (A i j) <= x) /\
  (x = 0 \/ exists i j, (i < j)%nat /\ (j < n)%nat /\ x = Rabs (A i j)).

(** [lam] is a lower bound of the quadratic form (0: positive semi-definite). *)
Definition bounded_below (n : nat) (A : mat) (lam : R) : Prop :=
  forall x, lam * sq n x <= quad n A x.

(** Row-convention factor: the columns of [C] have the inner products [B]
    away from the diagonal. *)
Definition induces (n : nat) (C B : mat) : Prop :=
  forall i j, (i < n)%nat -> (j < n)%nat -> i <> j -> mmul n (tr C) C i j = B i j.

(** scipy's Cholesky: what it returns is the upper factor with positive
    diagonal (otherwise it raises). *)
Definition upper_factor (n : nat) (A C : mat) : Prop :=
  (forall i j, (i < n)%nat -> (j < n)%nat -> mmul n (tr C) C i j = A i j) /\
  (forall i j, (j < i)%nat -> (i < n)%nat -> C i j = 0) /\ (forall i, (i < n)%nat -> 0 < C i i).
Definition cholesky_ok (chol : nat -> mat -> option mat) : Prop :=
  forall n A C, sym n A -> chol n A = Some C -> upper_factor n A C.
