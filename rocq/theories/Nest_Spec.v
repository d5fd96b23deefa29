(** Which nested values are acceptable. *)
From Coq Require Import List Bool Arith.
From Verif Require Import Nest_Model.
Import ListNotations.
Local Open Scope nat_scope.

(** [leaf t d x]: [x] is an item that is not opened, found under [d] sequences in [t];
    [opened t d]: a sequence under [d] sequences (itself counted) occurs in [t]. *)
Inductive leaf : list item -> nat -> item -> Prop :=
| leaf_here l x : In x l -> (forall s, x <> Seq s) -> leaf l 1 x
| leaf_in l s d x : In (Seq s) l -> leaf s d x -> leaf l (S d) x.
Inductive opened : list item -> nat -> Prop :=
| open_here l : opened l 1
| open_in l s d : In (Seq s) l -> opened s d -> opened l (S d).
(** Every leaf has the wanted type and is deep enough; nothing is nested too deep
    (the outermost sequence is not looked at). *)
Definition acceptable (min max : nat) (l : list item) : Prop :=
  (forall d x, leaf l d x -> x = Wanted /\ min <= d) /\ (forall d, 1 < d -> opened l d -> d <= max).
