(** What stratified sampling promises. *)
From Verif Require Import Num XNum Text Sampler_Model SampleCorr_Model SampleCorr_Spec Lhs_Model.
From Coq Require Import Sorting.Permutation.
Local Open Scope nat_scope.
Local Open Scope list_scope.

Definition qn (n : nat) : Qc := qz (Z.of_nat n).

(** [n] numbers strictly inside the unit interval, one in each of the [n] equal
    parts, in any order. *)
Definition stratified (n : nat) (ps : list Qc) : Prop :=
  (forall p, In p ps -> (0 < p)%Qc) /\
  exists qs, Permutation ps qs /\ length qs = n /\
    forall k, k < n -> (qn k <= qn n * nth k qs 0%Qc /\ qn n * nth k qs 0%Qc < qn (S k))%Qc.

(** Contract of SALib's latin sampler: every column is stratified. *)
Definition latin_contract (latin : nat -> nat -> nat -> list (list Qc)) : Prop :=
  forall call nv n, length (latin call nv n) = nv /\
    forall i, i < nv -> stratified n (nth i (latin call nv n) []).

(** Contract of the special functions. *)
Definition ext_contract (x : ext) : Prop :=
  (forall p p', (0 < p)%Qc -> (p < p')%Qc -> (p' < 1)%Qc -> (z_of x p < z_of x p')%Qc) /\
  z_of x (qc 1 2) = 0%Qc /\
  (forall a b, (a < b)%Qc -> (exp_of x a < exp_of x b)%Qc) /\
  (forall m s, (0 < m)%Qc -> (0 < s)%Qc -> (0 < sigma_of x m s)%Qc).

(** How many entries lie below [t]. *)
Definition below (t : Qc) (l : list Qc) : nat := length (filter (fun v => qltb v t) l).

(** The quantile of each distribution at probability [p]: with mean [m] and
    deviation [s] for the normal and the lognormal one. *)
Definition quantile (x : ext) (d : dist) (m s p : Qc) : Qc :=
  match d with
  | Normal => (m + s * z_of x p)%Qc
  | LogNormal => exp_of x (mu_of x m s + sigma_of x m s * z_of x p)%Qc
  | Uniform => (m + s * p)%Qc
  end.

(** [ns] values of which, for every [j], exactly [j] lie below the [j/ns] quantile. *)
Definition quantiles_met (x : ext) (d : dist) (m s : Qc) (ns : nat) (l : list Qc) : Prop :=
  length l = ns /\ forall j, 0 < j -> j < ns -> below (quantile x d m s (qn j / qn ns)%Qc) l = j.

(** The arguments fit together. *)
Definition fits (mean std dg : list Qc) (scores : nat -> list (list Qc)) (ns : nat) : Prop :=
  length std = length mean /\ length dg = length mean /\ mean <> [] /\
  forall nv, length (scores nv) = nv /\ forall c, In c (scores nv) -> length c = ns.
