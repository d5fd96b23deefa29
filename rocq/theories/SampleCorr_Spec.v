(** What rank reordering and correlated sampling promise. *)
From Verif Require Import Num Text Sampler_Model.
From Coq Require Import Sorting.Permutation.
Local Open Scope nat_scope.
Local Open Scope list_scope.

Definition q (l : list Qc) (i : nat) : Qc := nth i l 0%Qc.

(** Element [j] comes before element [i]: smaller, or equal and earlier. *)
Definition before (l : list Qc) (j i : nat) : Prop := (q l j < q l i)%Qc \/ (q l j = q l i /\ j < i).

(** [r] ranks [l]: the rank of an element is the number of elements before it. *)
Definition is_rank (l : list Qc) (r : list nat) : Prop :=
  length r = length l /\
  forall i, i < length l ->
    exists S, NoDup S /\ (forall j, In j S <-> j < length l /\ before l j i) /\ nth i r 0 = length S.

(** [out] is [s] rearranged in the order of the scores [x]. *)
Definition arranged (x s out : list Qc) : Prop :=
  Permutation out s /\
  forall i j, i < length x -> j < length x -> before x i j -> (q out i <= q out j)%Qc.

(** Which groups are not sampled. *)
Definition tiny_dev (s : Qc) : Prop := (s <= Q2Qc (1 # (10 ^ 30)))%Qc.
Definition lowest_is_zero (l : list Qc) : Prop := In 0%Qc l /\ forall x, In x l -> (0 <= x)%Qc.
(** Reasons that make the routine skip groups at all. *)
Definition some_skip (mean std : list Qc) (ln : bool) : Prop :=
  (exists s, In s std /\ tiny_dev s) \/ (ln = true /\ lowest_is_zero mean).
Definition skipped (mean std dg : list Qc) (ln : bool) (g : nat) : Prop :=
  tiny_dev (q std g) \/ (ln = true /\ lowest_is_zero mean /\ q mean g = 0%Qc) \/
  (some_skip mean std ln /\ q dg g = 0%Qc).

(** How many sampled groups precede group [g]. *)
Inductive nth_sampled (sk : nat -> Prop) : nat -> nat -> Prop :=
| ns_first : nth_sampled sk 0 0
| ns_skip g k : sk g -> nth_sampled sk g k -> nth_sampled sk (S g) k
| ns_take g k : ~ sk g -> nth_sampled sk g k -> nth_sampled sk (S g) (S k).
