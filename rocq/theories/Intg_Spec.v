(** Meaning of INTG lines. *)
From Verif Require Import Num Text Dec Endf_Spec.
Local Open Scope list_scope.
Local Open Scope nat_scope.

(** An integer, or blanks for zero, in a field of [w] characters. *)
Definition small_field (w : nat) (t : text) (z : Z) : Prop :=
  length t = w /\ ((z = 0%Z /\ t = repeat sp w) \/ exists a b, t = repeat sp a ++ decZ z ++ repeat sp b).
(** Row number, first column number, and the integers of one line. *)
Record iline := { row : Z; col : Z; ints : list Z }.
Definition iline_text (w : nat) (x : iline) (l : text) : Prop :=
  exists ti tj c ts tail, l = ti ++ tj ++ c :: concat ts ++ tail /\
    small_field 5 ti (row x) /\ small_field 5 tj (col x) /\ Forall2 (small_field w) ts (ints x).

(** (e +- 1/2) / 10^ndigit. *)
Definition fraction (ndigit : Z) (e : Z) : Qc :=
  if (e =? 0)%Z then 0%Qc
  else Q2Qc ((2 * e + (if (0 <? e)%Z then 1 else -1)) # Z.to_pos (2 * 10 ^ ndigit)).

(** ENDF-102: the k-th integer of a line belongs to column [col + k]. *)
Definition meant (ndigit : Z) (xs : list iline) (i j : nat) (v : Qc) : Prop :=
  exists x k e, In x xs /\ row x = Z.of_nat (S i) /\ (col x + Z.of_nat k = Z.of_nat (S j))%Z /\
    nth_error (ints x) k = Some e /\ v = fraction ndigit e.

(** What is stored instead: the last non-zero integer (left of the diagonal) of
    the last line starting at that very column. *)
Definition usable (x : iline) : list Z :=
  filter (fun e => negb (e =? 0)%Z) (firstn (Z.to_nat (row x - col x)) (ints x)).
Definition at_cell (i j : nat) (x : iline) : bool := ((row x =? Z.of_nat (S i)) && (col x =? Z.of_nat (S j)))%Z.
Definition observed (ndigit : Z) (xs : list iline) (i j : nat) : Qc :=
  fraction ndigit (last (flat_map usable (filter (at_cell i j) xs)) 0%Z).

(** Rows of the matrix only; enough integers on every line. *)
Definition in_range (npar nrow : nat) (x : iline) : Prop :=
  (1 <= row x <= Z.of_nat npar)%Z /\ (1 <= col x)%Z /\ length (ints x) = nrow.
