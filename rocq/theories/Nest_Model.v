(** Checking nested iterables.  Source: /repo/ASAPy/data/checkvalue.py:58-132.
    Simplifications: a value is a finite tree of sequences (a string, whose items are
    again strings, is not one; neither are iterables without length or indexing);
    the texts of the errors are left out. *)
From Coq Require Import List Bool Arith.
Import ListNotations.
Local Open Scope nat_scope.

(** An item of the expected type, a sequence that is not, or something else. *)
Inductive item := Wanted | Other | Seq (l : list item).
(** checkvalue.py:77-79: [tree] and [index], innermost first. *)
Record frame := { items : list item; index : nat }.
Inductive move := Go (s : list frame) | Accept | Reject.
Fixpoint bottom (f : frame) (s : list frame) : frame := match s with [] => f | g :: r => bottom g r end.
(** checkvalue.py:82-132: one turn of the loop. *)
Definition step (min max : nat) (s : list frame) : move :=
  match s with
  | [] => Reject
  | f :: r =>
      if index (bottom f r) =? length (items (bottom f r)) then Accept
      else if index f =? length (items f) then
        match r with
        | g :: r' => Go ({| items := items g; index := S (index g) |} :: r')
        | [] => Reject
        end
      else
        match nth (index f) (items f) Other with
        | Wanted => if length s <? min then Reject else Go ({| items := items f; index := S (index f) |} :: r)
        | Seq l => if max <? S (length s) then Reject else Go ({| items := l; index := 0 |} :: s)
        | Other => Reject
        end
  end.
Fixpoint run (fuel min max : nat) (s : list frame) : option bool :=
  match fuel with
  | O => None
  | S n => match step min max s with Go s' => run n min max s' | Accept => Some true | Reject => Some false end
  end.
(** [None] stands for no result after [fuel] turns. *)
Definition check_iterable_type (fuel min max : nat) (l : list item) : option bool := run fuel min max [{| items := l; index := 0 |}].
