(** What tabulated functions mean. *)
From Coq Require Import Reals ZArith List Lia.
From Verif Require Import Tab1d_Model.
Import ListNotations.
Local Open Scope R_scope.

(** Strictly increasing numbers. *)
Definition increasing (l : list R) : Prop := forall i, (S i < length l)%nat -> nth i l 0 < nth (S i) l 0.
(** numpy's closeness with an absolute tolerance 1e-14 and a relative one 1e-5. *)
Definition close (a b : R) : Prop := Rabs (a - b) <= / 10 ^ 14 + / 10 ^ 5 * Rabs b.

(** A table in the sense of ENDF-6: increasing abscissae, increasing
    breakpoints ending with the number of points, one scheme per region. *)
Definition table (t : tab1) : Prop :=
  (2 <= length (xs t))%nat /\ length (ys t) = length (xs t) /\ increasing (xs t) /\
  length (schemes t) = length (bps t) /\
  (forall k, (k < length (bps t))%nat -> (1 < nth k (bps t) 0)%Z) /\
  (forall k, (S k < length (bps t))%nat -> (nth k (bps t) 0 < nth (S k) (bps t) 0)%Z) /\
  last (bps t) 0%Z = Z.of_nat (length (xs t)).
(** Segment [i] (between points [i] and [i+1], counted from 0) follows the
    scheme of the first region whose breakpoint is not passed. *)
Definition follows (t : tab1) (i : nat) (s : Z) : Prop :=
  exists k, (k < length (bps t))%nat /\ nth k (schemes t) 0%Z = s /\ (Z.of_nat (S i) < nth k (bps t) 0)%Z /\
    forall k', (k' < k)%nat -> (nth k' (bps t) 0 <= Z.of_nat (S i))%Z.

(** The interpolation laws: y constant; y linear in x; y linear in ln x; ln y
    linear in x; ln y linear in ln x. *)
Inductive law (xi yi xi1 yi1 x y : R) : Z -> Prop :=
| law1 : y = yi -> law xi yi xi1 yi1 x y 1
| law2 : (y - yi) * (xi1 - xi) = (x - xi) * (yi1 - yi) -> law xi yi xi1 yi1 x y 2
| law3 : (y - yi) * (ln xi1 - ln xi) = (ln x - ln xi) * (yi1 - yi) -> law xi yi xi1 yi1 x y 3
| law4 : 0 < y -> (ln y - ln yi) * (xi1 - xi) = (x - xi) * (ln yi1 - ln yi) -> law xi yi xi1 yi1 x y 4
| law5 : 0 < y -> (ln y - ln yi) * (ln xi1 - ln xi) = (ln x - ln xi) * (ln yi1 - ln yi) -> law xi yi xi1 yi1 x y 5.
(** Logarithms are taken of positive numbers only. *)
Definition loggable (s : Z) (xi yi yi1 : R) : Prop :=
  (1 <= s <= 5)%Z /\ (s = 3%Z \/ s = 5%Z -> 0 < xi) /\ (s = 4%Z \/ s = 5%Z -> 0 < yi /\ 0 < yi1).
