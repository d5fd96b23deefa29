(** What a clean covariance store is. *)
From Coq Require Import Reals ZArith List Bool Arith Sorted.
From Verif Require Import Num XNum Text Dec Store_Model.
Import ListNotations.
Local Open Scope nat_scope.

(** An n x n correlation: finite entries in [-1, 1], symmetric, ones on the diagonal. *)
Definition clean_correlation (n : nat) (c : list (list ext)) : Prop :=
  length c = n /\ (forall r, In r c -> length r = n) /\
  forall i j, i < n -> j < n -> exists r, cell ENaN c i j = Fn r /\ cell ENaN c j i = Fn r /\ (-1 <= r <= 1)%R /\ (i = j -> r = 1%R).
(** The correlation of a covariance entry cut to [-1, 1]; with a zero variance its
    sign. *)
Definition cut_quotient (x d r : R) : Prop :=
  (d <> 0 -> r = Rmax (-1) (Rmin 1 (x / d)))%R /\
  (d = 0 -> (x = 0 -> r = 0) /\ (0 < x -> r = 1) /\ (x < 0 -> r = -1))%R.
(** Groups between consecutive bounds. *)
Definition contiguous (b : list Qc) (g : list group) : Prop :=
  length b = S (length g) /\
  forall i d, i < length g -> e_high (nth i g d) = nth i b 0%Qc /\ e_low (nth i g d) = nth (S i) b 0%Qc.
(** The numbers of one group: as read, or 0 +- 1e-7 if the cross section is zero. *)
Definition group_data (x s : Qc) (g : group) : Prop :=
  (x <> 0%Qc -> xsec g = Fin x /\ sdev g = Fin s /\ rel g = Fin (s / x)%Qc) /\
  (x = 0%Qc -> xsec g = Fin 0 /\ sdev g = Fin (qc 1 10000000) /\ rel g = Fin (qc 1 10000000)).
(** Strictly decreasing. *)
Definition decreasing (l : list Qc) : Prop := forall i, S i < length l -> (nth (S i) l 0 < nth i l 0)%Qc.
(** Text that can be part of a key. *)
Definition no_slash (t : text) : Prop := ~ In "/"%char t.
(** Stores holding only keys of the documented form. *)
Definition keyed (s : store) : Prop :=
  forall k f, In (k, f) s -> exists zaid mt kind, no_slash zaid /\ k = key zaid (decZ mt) zaid (decZ mt) kind.
(** [m] is the greatest diagonal entry of [c], all of which are finite. *)
Definition greatest_on_diagonal (c : list (list ext)) (m : R) : Prop :=
  (exists i, i < length c /\ cell ENaN c i i = Fn m) /\
  forall i, i < length c -> exists x, cell ENaN c i i = Fn x /\ (x <= m)%R.
(** [g'] is [g], with the energy columns exchanged if the first group of [g] has its
    bounds the wrong way round. *)
Definition put_right (g g' : list group) : Prop :=
  match g with
  | [] => g' = []
  | r :: _ =>
      ((e_low r <= e_high r)%Qc -> g' = g) /\
      ((e_high r < e_low r)%Qc ->
        Forall2 (fun a b => e_low b = e_high a /\ e_high b = e_low a /\ xsec b = xsec a /\ rel b = rel a /\ sdev b = sdev a) g g')
  end.
