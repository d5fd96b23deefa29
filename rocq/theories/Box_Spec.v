(** What run-length encoded matrices mean. *)
From Verif Require Import Num Box_Model.
From Coq Require Import ZArith List Bool Arith.
Import ListNotations.
Local Open Scope nat_scope.

(** One mark per element: a value, or "as in the row above". *)
Inductive mark := Value (v : Qc) | Above.
(** The marks a page spells: control number -k takes the next value k times, +k
    copies k elements from above. *)
Inductive spells : list Z -> list Qc -> list mark -> Prop :=
| spells_nil xs : spells [] xs []
| spells_value k cs x xs ms : (0 < k)%nat -> spells cs xs ms ->
    spells ((- Z.of_nat k)%Z :: cs) (x :: xs) (repeat (Value x) k ++ ms)
| spells_above k cs xs ms : (0 < k)%nat -> spells cs xs ms ->
    spells (Z.of_nat k :: cs) xs (repeat Above k ++ ms).
(** The elements of rows [i], ..., [i+k-1] of an n x m matrix in order; only from the
    diagonal on for a symmetric one. *)
Fixpoint elements (sym : bool) (m i k : nat) : list (nat * nat) :=
  match k with
  | O => []
  | S k' => map (pair i) (if sym then seq i (S m - i) else seq 1 m) ++ elements sym m (S i) k'
  end.
(** Marks consistent with a matrix, for a page that begins at row [first]. *)
Definition agrees (first : nat) (M : nat -> nat -> Qc) (e : nat * nat) (k : mark) : Prop :=
  match k with
  | Value v => M (fst e) (snd e) = v
  | Above => M (fst e) (snd e) = if first <? fst e then M (fst e - 1) (snd e) else 0%Qc
  end.
(** An encoding of rows [i], ..., [n]: pages of whole rows (the first page has at
    least one), all with the same sizes, the last one without continuation flag. *)
Inductive encodes (sym : bool) (n m : nat) (M : nat -> nat -> Qc) : nat -> list rec -> Prop :=
| encodes_last i k p ms : more p = false -> nrow p = n -> ncolh p = (if sym then 0 else m) ->
    i + k = S n -> spells (icon p) (xval p) ms -> Forall2 (agrees i M) (elements sym m i k) ms ->
    encodes sym n m M i [p]
| encodes_more i k p ms ps : more p = true -> nrow p = n -> ncolh p = (if sym then 0 else m) ->
    1 < i + k -> spells (icon p) (xval p) ms -> Forall2 (agrees i M) (elements sym m i k) ms ->
    encodes sym n m M (i + k) ps -> encodes sym n m M i (p :: ps).

(** The whole matrix an encoding stands for: a symmetric one is given by its upper
    triangle. *)
Definition full (sym : bool) (M : nat -> nat -> Qc) (i j : nat) : Qc := if sym && (j <? i) then M j i else M i j.
(** Consistent sizes: not empty, at most 800, square when symmetric. *)
Definition sizes_ok (sym : bool) (n m : nat) : Prop := 0 < n <= 800 /\ 0 < m <= 800 /\ (sym = true -> m = n).
(** Which record a request asks for: one of its type and, unless it is the group
    structure (0), with its MAT and MT and, for matrices (3, 4), its MAT1 and MT1. *)
Definition matches (q : request) (p : rec) : Prop :=
  itypeh p = ty q /\ (ty q <> 0 -> math p = mat q /\ mth p = mt q) /\
  (3 <= ty q -> mat1h p = mat1 q /\ mt1h p = mt1 q).
(** Passed over while looking for the answer to [q]. *)
Definition passed_over (q : request) (p : rec) : Prop :=
  itypeh p <> 9 /\ length (xval p) <= 1880 /\ length (icon p) <= 1900 /\ ~ matches q p.
Definition accepted (q : request) (p : rec) : Prop :=
  itypeh p <> 9 /\ length (xval p) <= 1880 /\ length (icon p) <= 1900 /\ matches q p.
(** The numbers of a list are given a last-to-first order, or not. *)
Definition order (back : Prop) (n : nat) (l : list nat) : Prop := (back /\ l = rev (seq 1 n)) \/ (~ back /\ l = seq 1 n).
(** The lines written for a matrix: a vector from the last to the first on one line;
    rows and columns from the last to the first, in a transfer matrix (type 4, no MT1)
    from the first to the last. *)
Definition lines_of {A} (q : request) (n m : nat) (f : nat -> nat -> A) (out : list (list A)) : Prop :=
  (m = 1 -> out = [map (fun i => f i 1) (rev (seq 1 n))]) /\
  (m <> 1 -> exists rows cols, order (~ (ty q = 4 /\ mt1 q = 0%Z)) n rows /\ order (~ (ty q = 4 /\ mt1 q = 0%Z)) m cols /\ out = map (fun i => map (f i) cols) rows).
