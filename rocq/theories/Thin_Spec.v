(** What thinning may do. *)
From Coq Require Import ZArith QArith Qcanon List Arith Sorted.
From Verif Require Import Num.
Import ListNotations.
Local Open Scope nat_scope.

Definition magnitude (q m : Qc) : Prop := (m = q \/ m = - q)%Qc /\ (0 <= m)%Qc.
(** Point [i] is within relative distance [tol] of the line through [l] and [r]. *)
Definition near_line (tol : Qc) (x y : list Qc) (l r i : nat) : Prop :=
  let xa j := nth j x 0%Qc in let ya j := nth j y 0%Qc in
  exists d m, magnitude (ya l + (ya r - ya l) / (xa r - xa l) * (xa i - xa l) - ya i)%Qc d /\ magnitude (ya i) m /\ (d <= tol * m)%Qc.
(** Indices [ks] are increasing, from the first to the last, and the points between
    neighbours are not zero and near the line. *)
Record thinned (tol : Qc) (x y : list Qc) (ks : list nat) : Prop := {
  th_sorted : StronglySorted lt ks;
  th_first : hd_error ks = Some 0;
  th_last : last ks 0 = length x - 1;
  th_near : forall p i, S p < length ks -> nth p ks 0 < i < nth (S p) ks 0 ->
            nth i y 0%Qc <> 0%Qc /\ near_line tol x y (nth p ks 0) (nth (S p) ks 0) i }.
