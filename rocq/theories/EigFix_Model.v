(** Repair of correlation matrices that are not positive definite.
    Source: /repo/ASAPy/XsecSampler.py:52-56 and 202-238.
    Real numbers instead of floats.  [scipy.linalg.eigh] and [scipy.linalg.inv]
    are function arguments; the printed message is not modelled. *)
From Coq Require Import Reals List Arith.
From Verif Require Import Mat.
Local Open Scope R_scope.

(** XsecSampler.py:221: positions of [True] in [np.diag(corr_matrix) > 0]. *)
Definition kept (n : nat) (A : mat) : list nat :=
  filter (fun i => if Rlt_dec 0 (A i i) then true else false) (seq 0 n).
(** XsecSampler.py:222: rows then columns selected by the mask. *)
Definition block (A : mat) (idx : list nat) : mat := fun i j => A (nth i idx O) (nth j idx O).

(** XsecSampler.py:225, 231: Python's [min] and [max] of the eigenvalues. *)
Fixpoint vmin (d : nat) (w : vec) : R :=
  match d with O => w O | S O => w O | S k => Rmin (vmin k w) (w k) end.
Fixpoint vmax (d : nat) (w : vec) : R :=
  match d with O => w O | S O => w O | S k => Rmax (vmax k w) (w k) end.

(** XsecSampler.py:225, 227, 231: the threshold 1e-8. *)
Definition tiny : R := / 100000000.
(** XsecSampler.py:227-231: the eigenvalues after replacement. *)
Definition raised (d : nat) (w : vec) : vec := fun k =>
  if Rle_dec (w k) tiny then Rmin (tiny * vmax d w) tiny else w k.

(** XsecSampler.py:202-238.  [None] is the exception raised for an empty block
    (by [eigh], or by [min] of an empty sequence). *)
Definition fix_eigen (eigh : nat -> mat -> vec * mat) (inv : nat -> mat -> mat) (n : nat) (A : mat)
  : option (mat * list nat) :=
  let idx := kept n A in
  let B := block A idx in
  match length idx with
  | O => None
  | S k =>
      let d := S k in
      let (w, P) := eigh d B in
      Some (if Rle_dec (vmin d w) tiny
            then mmul d (mmul d P (mdiag (raised d w))) (inv d P)
            else B, idx)
  end.

(** Position of [a] in the mask, for the assignment below. *)
Fixpoint pos_in (a : nat) (l : list nat) : option nat :=
  match l with
  | nil => None
  | x :: l' => if Nat.eqb a x then Some O else option_map S (pos_in a l')
  end.
(** XsecSampler.py:56: [self.corr_df.loc[idx, idx] = adjusted_corr]. *)
Definition put_block (A F : mat) (idx : list nat) : mat := fun i j =>
  match pos_in i idx, pos_in j idx with
  | Some a, Some b => F a b
  | _, _ => A i j
  end.
(** XsecSampler.py:54-56, the constructor with [remove_negative_eig]. *)
Definition repaired (eigh : nat -> mat -> vec * mat) (inv : nat -> mat -> mat) (n : nat) (A : mat) : option mat :=
  match fix_eigen eigh inv n A with
  | None => None
  | Some (F, idx) => Some (put_block A F idx)
  end.
