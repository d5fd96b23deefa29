(** Vocabulary of the statements about ACE text. *)
From Verif Require Import Text.

(** [s] contains [p]. *)
Definition contains (p s : text) : Prop := exists a b, s = a ++ p ++ b.

(** [old] and [new] interleaved with the untouched pieces. *)
Fixpoint weave (old : text) (pieces : list text) (last : text) : text :=
  match pieces with
  | [] => last
  | p :: r => p ++ old ++ weave old r last
  end.

(** Leftmost: [old] occurs in [p ++ old] only at the end. *)
Definition leftmost (old p : text) : Prop :=
  forall a b, p ++ old = a ++ old ++ b -> b = [].

(** Word-level reading of a weave. *)
Fixpoint weave_words (old : list text) (ps : list text) (last : text) : list text :=
  match ps with
  | [] => words last
  | p :: r => words p ++ old ++ weave_words old r last
  end.

(** Simple form: every piece starts and ends with white space (or is the
    beginning or the end of the text). *)
Fixpoint bounded (first : bool) (ps : list text) (last : text) : Prop :=
  match ps with
  | [] => first = true \/ head_space last = true
  | p :: r => ends_space p = true /\ (first = true \/ (p <> [] /\ head_space p = true)) /\ bounded false r last
  end.

(** Shape of a finite number printed with '.11E': optional minus, one digit, a
    dot, 11 digits, E, a sign and two or three digits. *)
Definition digit (c : ascii) : Prop := 48 <= nat_of_ascii c <= 57.
Definition e11 (t : text) : Prop :=
  exists sg d ds es ex,
    t = sg ++ [d] ++ ["."%char] ++ ds ++ ["E"%char] ++ [es] ++ ex /\
    (sg = [] \/ sg = ["-"%char]) /\ digit d /\ Forall digit ds /\ length ds = 11 /\
    (es = "+"%char \/ es = "-"%char) /\ Forall digit ex /\ (length ex = 2 \/ length ex = 3).
