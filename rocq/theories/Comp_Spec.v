(** Functions made of functions. *)
From Coq Require Import ZArith QArith Qcanon List Sorted Arith.
From Verif Require Import Num Comp_Model.
Import ListNotations.
Local Open Scope nat_scope.
Local Open Scope list_scope.

(** The value of functions combined from left to right. *)
Inductive combined (x : Qc) : list fn -> list op -> Qc -> Prop :=
| c_one f : combined x [f] [] (f x)
| c_more fs os f o v : combined x fs os v -> combined x (fs ++ [f]) (os ++ [o]) (o v (f x)).
(** [x] is above boundary [i-1], if there is one, and not above boundary [i], if there is one. *)
Definition region (bs : list Qc) (i : nat) (x : Qc) : Prop :=
  i <= length bs /\ (forall j b, j < i -> nth_error bs j = Some b -> (b < x)%Qc) /\ (forall j b, i <= j -> nth_error bs j = Some b -> (x <= b)%Qc).
Definition ascending (bs : list Qc) : Prop := StronglySorted Qcle bs.
(** The region the documentation means: between breakpoints [i] and [i+1]. *)
Definition documented (bs : list Qc) (i : nat) (x : Qc) : Prop :=
  exists a b, nth_error bs i = Some a /\ nth_error bs (i + 1) = Some b /\ (a < x)%Qc /\ (x <= b)%Qc.
Definition whole_number (q : Qc) : Prop := exists z, q = qz z.
