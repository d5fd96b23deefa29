(** Which table is meant. *)
From Coq Require Import ZArith NArith List Bool Arith Ascii.
From Verif Require Import Text Lib_Model.
Import ListNotations.
Local Open Scope nat_scope.

(** The first table, or the first of the name; [None]: there is none. *)
Inductive picked {D} (ts : list (table D)) : option text -> option (table D) -> Prop :=
| picked_first t r : ts = t :: r -> picked ts None (Some t)
| picked_no_table : ts = [] -> picked ts None None
| picked_name n l t r : ts = l ++ t :: r -> t_name t = n -> (forall u, In u l -> t_name u <> n) -> picked ts (Some n) (Some t)
| picked_no_name n : (forall u, In u ts -> t_name u <> n) -> picked ts (Some n) None.
(** ASCII. *)
Definition seven_bits (c : ascii) : Prop := (N.of_nat (nat_of_ascii c) < 128)%N.
