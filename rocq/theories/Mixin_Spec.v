(** What numbering promises. *)
From Coq Require Import List Bool Arith ZArith.
From Verif Require Import XNum Text Mixin_Model.
Import ListNotations.

(** Number [u] was taken by an operation and its answer. *)
Definition takes (u : Z) (o : op) (a : answer) : Prop :=
  (exists w, a = Assigned u w) \/ (exists l, o = Reserve l /\ In u l).
(** Names of attributes; an object has each once. *)
Definition names (a : object) : list text := map fst (attrs a).
Definition proper (a : object) : Prop := NoDup (names a).
(** No NaN in an attribute. *)
Definition no_nan (v : value) : Prop := match v with VNums l => ~ In NaN l | _ => True end.
