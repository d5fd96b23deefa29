(** What the matrix text means. *)
From Verif Require Import Num Text PyNum.
From Coq Require Import ZArith.
Local Open Scope list_scope.
Local Open Scope nat_scope.

Definition starts_with_digit (w : text) : Prop := match w with c :: _ => 48 <= nat_of_ascii c <= 57 | [] => False end.
(** A field of ten characters showing the number [v]: blanks and an unsigned
    number with a decimal point, or a number with a decimal point filling the
    field. *)
Definition shows (f : text) (v : Qc) : Prop :=
  length f = 10 /\ In "."%char f /\ exists k w, f = repeat sp k ++ w /\ py_float w = Some v /\
    (forall c, In c w -> is_space c = false) /\ (k = 0 \/ starts_with_digit w).
(** Lines of fields: each line is a run of whole fields (possibly none) closed by
    line ends. *)
Inductive lines_of : list text -> list text -> Prop :=
| lines_nil : lines_of [] []
| lines_cons fs fs' e ls : (forall c, In c e -> is_space c = true /\ c <> sp) -> lines_of fs' ls ->
    lines_of (fs ++ fs') ((concat fs ++ e) :: ls).
(** A header line: blanks, an integer, white space, anything. *)
Definition header (h : text) : Prop :=
  exists k z w r, h = repeat sp k ++ w ++ r /\ py_int w = Some z /\ word w /\ head_space r = true.
(** A text mentions another. *)
Definition mentions (pat t : text) : Prop := exists a b, t = a ++ pat ++ b.
