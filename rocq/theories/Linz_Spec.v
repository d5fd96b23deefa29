(** A function tabulated for linear interpolation. *)
From Coq Require Import ZArith QArith Qcanon List Arith Sorted.
From Verif Require Import Num Thin_Spec.
Import ListNotations.
Local Open Scope nat_scope.

Definition middle (a b : Qc) : Qc := ((a + b) / qz 2)%Qc.
(** The mean of the end values is within relative distance [tol] of the value at the
    middle. *)
Definition good (f : Qc -> Qc) (tol a b : Qc) : Prop :=
  exists d m, magnitude (middle (f a) (f b) - f (middle a b))%Qc d /\ magnitude (f (middle a b)) m /\ (d <= tol * m)%Qc.
(** The points to be added between [a] and [b]: none if the pair is good, else the
    middle and what is to be added on either side. *)
Inductive bisect (f : Qc -> Qc) (tol : Qc) : Qc -> Qc -> list Qc -> Prop :=
| b_stop a b : good f tol a b -> bisect f tol a b []
| b_split a b l r : ~ good f tol a b -> bisect f tol a (middle a b) l -> bisect f tol (middle a b) b r ->
    bisect f tol a b (l ++ middle a b :: r).
(** A grid with all points added. *)
Inductive filled (f : Qc -> Qc) (tol : Qc) : list Qc -> list Qc -> Prop :=
| f_one x : filled f tol [x] [x]
| f_more x y r l o : bisect f tol x y l -> filled f tol (y :: r) o -> filled f tol (x :: y :: r) (x :: l ++ o).
(** What a caller relies on. *)
Record linearized (f : Qc -> Qc) (tol : Qc) (xs : list Qc) (out : list (Qc * Qc)) : Prop := {
  li_sorted : StronglySorted Qclt (map fst out);
  li_values : forall p, In p out -> snd p = f (fst p);
  li_keeps : forall x, In x xs -> In x (map fst out);
  li_first : hd_error (map fst out) = hd_error xs;
  li_last : last (map fst out) 0%Qc = last xs 0%Qc;
  li_good : forall i, S i < length out -> good f tol (nth i (map fst out) 0%Qc) (nth (S i) (map fst out) 0%Qc) }.
