(** Python's [int(s)] and [float(s)] on text.  Restrictions: digits are ASCII,
    underscores inside numbers and the words inf/nan are rejected here, and
    [float] returns the exact decimal value (no rounding, no overflow). *)
From Verif Require Import Num Text Dec.
From Coq Require Import ZArith NArith.
Local Open Scope list_scope.

(** [s.lstrip()], [s.strip()]. *)
Fixpoint ltrim (t : text) : text :=
  match t with [] => [] | c :: r => if is_space c then ltrim r else t end.
Definition trim (t : text) : text := rev (ltrim (rev (ltrim t))).

(** Longest prefix of digits, and the rest. *)
Fixpoint digits (t : text) : text * text :=
  match t with
  | [] => ([], [])
  | c :: r => if is_digit c then let (a, b) := digits r in (c :: a, b) else ([], t)
  end.
(** Value of a digit string, most significant digit first. *)
Definition digit (c : ascii) : N := N.of_nat (nat_of_ascii c - 48).
Definition dval (t : text) : N := fold_left (fun a c => 10 * a + digit c)%N t 0%N.

(** Optional sign; [true] for minus. *)
Definition sign (t : text) : bool * text :=
  match t with
  | c :: r => if eqc c "-" then (true, r) else if eqc c "+" then (false, r) else (false, t)
  | [] => (false, [])
  end.
Definition signed (neg : bool) (z : Z) : Z := if neg then (- z)%Z else z.

(** [int(s)]; [None] is [ValueError]. *)
Definition py_int (t : text) : option Z :=
  let (neg, u) := sign (trim t) in
  match digits u with
  | (d :: ds, []) => Some (signed neg (Z.of_N (dval (d :: ds))))
  | _ => None
  end.

(** 10 to an integer power. *)
Definition pow10 (z : Z) : Qc := Q2Qc (Qpower (10 # 1) z).
(** The number with digits [ds], [f] of them after the point, times ten to [e]. *)
Definition decimal (neg : bool) (m : N) (f : nat) (e : Z) : Qc :=
  (qz (signed neg (Z.of_N m)) * pow10 (e - Z.of_nat f))%Qc.

(** Exponent part: nothing, or e/E, optional sign, digits. *)
Definition exponent (t : text) : option Z :=
  match t with
  | [] => Some 0%Z
  | c :: r =>
      if eqc c "e" || eqc c "E" then
        let (neg, u) := sign r in
        match digits u with
        | (d :: ds, []) => Some (signed neg (Z.of_N (dval (d :: ds))))
        | _ => None
        end
      else None
  end.

(** [float(s)]; [None] is [ValueError]. *)
Definition py_float (t : text) : option Qc :=
  let (neg, u) := sign (trim t) in
  let (ip, r) := digits u in
  let (fp, r') := match r with
                  | c :: r0 => if eqc c "." then digits r0 else ([], r)
                  | [] => ([], [])
                  end in
  match ip ++ fp with
  | [] => None
  | m => option_map (decimal neg (dval m) (length fp)) (exponent r')
  end.

(** ** Facts *)
Lemma is_digit_not_space c : is_digit c = true -> is_space c = false.
Proof.
  unfold is_digit, is_space. cbn zeta. rewrite andb_true_iff, !Nat.leb_le. intros [H1 H2].
  repeat match goal with
  | |- context [Nat.leb ?a ?b] => destruct (Nat.leb_spec a b)
  | |- context [Nat.eqb ?a ?b] => destruct (Nat.eqb_spec a b)
  end; cbn; reflexivity || lia.
Qed.
Lemma ltrim_spaces k t : ltrim (repeat sp k ++ t) = ltrim t.
Proof. induction k; [reflexivity|]. cbn. exact IHk. Qed.
Lemma ltrim_head t : head_space t = false -> ltrim t = t.
Proof. destruct t as [|c r]; [reflexivity|]. cbn. now intros ->. Qed.
Lemma repeat_rev {A} (x : A) n : rev (repeat x n) = repeat x n.
Proof.
  induction n as [|n IH]; [reflexivity|]. cbn. rewrite IH. clear IH.
  induction n as [|n IH]; [reflexivity|]. cbn. now rewrite IH.
Qed.
(** Blanks around a text that neither starts nor ends with white space. *)
Lemma trim_padded a t b : head_space t = false -> ends_space t = false ->
  trim (repeat sp a ++ t ++ repeat sp b) = t.
Proof.
  intros H1 H2. unfold trim. rewrite ltrim_spaces.
  assert (E : ltrim (t ++ repeat sp b) = t ++ repeat sp b).
  { apply ltrim_head. destruct t; [discriminate|exact H1]. }
  rewrite E, rev_app_distr, repeat_rev, ltrim_spaces, ltrim_head by exact H2. apply rev_involutive.
Qed.
Lemma digits_app ds r : forallb is_digit ds = true ->
  match r with [] => true | c :: _ => negb (is_digit c) end = true -> digits (ds ++ r) = (ds, r).
Proof.
  intros H1 H2. induction ds as [|c ds IH]; cbn in *.
  - destruct r as [|c r]; [reflexivity|]. cbn in *. apply negb_true_iff in H2. now rewrite H2.
  - apply andb_true_iff in H1 as [Hc H1]. now rewrite Hc, (IH H1).
Qed.
Lemma digits_all ds : forallb is_digit ds = true -> digits ds = (ds, []).
Proof. intros H. rewrite <- (app_nil_r ds) at 1. now apply digits_app. Qed.
Lemma digits_split t : fst (digits t) ++ snd (digits t) = t /\ forallb is_digit (fst (digits t)) = true.
Proof.
  induction t as [|c t IH]; cbn; [auto|]. destruct (is_digit c) eqn:E; [|cbn; auto].
  destruct (digits t) as [a b]. cbn in *. destruct IH as [-> IH]. now rewrite E, IH.
Qed.

Lemma dval_snoc t c : dval (t ++ [c]) = (10 * dval t + digit c)%N.
Proof. unfold dval. now rewrite fold_left_app. Qed.
Lemma dval_app a b : dval (a ++ b) = (dval a * 10 ^ N.of_nat (length b) + dval b)%N.
Proof.
  induction b as [|c b IH] using rev_ind.
  - rewrite app_nil_r. cbn [length]. change (10 ^ N.of_nat 0)%N with 1%N. unfold dval at 3. cbn. lia.
  - rewrite app_assoc, !dval_snoc, IH, app_length. cbn [length].
    rewrite Nat.add_1_r, Nat2N.inj_succ, N.pow_succ_r'. lia.
Qed.
Lemma dval_zeros n t : dval (repeat "0"%char n ++ t) = dval t.
Proof.
  induction n as [|n IH]; [reflexivity|]. cbn [repeat app]. unfold dval in *. cbn [fold_left].
  change (10 * 0 + digit "0")%N with 0%N. exact IH.
Qed.

(** Agreement with the decimal rendering. *)
Lemma uint_dval_aux d : forall acc,
  (fold_left (fun a c => 10 * a + digit c) (str (DecimalString.NilEmpty.string_of_uint d)) (Npos acc))%N
  = Npos (Pos.of_uint_acc d acc).
Proof.
  induction d; intros acc; cbn [DecimalString.NilEmpty.string_of_uint str list_ascii_of_string fold_left];
    [reflexivity|..]; cbn [Pos.of_uint_acc]; rewrite <- IHd; f_equal;
    match goal with |- context [digit ?c] => let v := eval vm_compute in (digit c) in change (digit c) with v end; lia.
Qed.
Lemma dval_decN n : dval (decN n) = n.
Proof.
  unfold decN. transitivity (N.of_uint (N.to_uint n)); [|apply DecimalN.Unsigned.of_to].
  generalize (N.to_uint n). intros d. unfold dval.
  induction d; cbn [DecimalString.NilEmpty.string_of_uint str list_ascii_of_string fold_left]; [reflexivity|..].
  - exact IHd.
  - exact (uint_dval_aux d 1).
  - exact (uint_dval_aux d 2).
  - exact (uint_dval_aux d 3).
  - exact (uint_dval_aux d 4).
  - exact (uint_dval_aux d 5).
  - exact (uint_dval_aux d 6).
  - exact (uint_dval_aux d 7).
  - exact (uint_dval_aux d 8).
  - exact (uint_dval_aux d 9).
Qed.

Lemma head_digit_not_space t : t <> [] -> forallb is_digit t = true -> head_space t = false.
Proof. destruct t as [|c r]; [congruence|]. cbn. intros _ H. apply andb_true_iff in H as [H _]. now apply is_digit_not_space. Qed.
Lemma ends_digit_not_space t ds : ds <> [] -> forallb is_digit ds = true -> ends_space (t ++ ds) = false.
Proof.
  intros Hn Hd. unfold ends_space. rewrite rev_app_distr.
  destruct (rev ds) as [|c r] eqn:E; [apply (f_equal (@rev _)) in E; rewrite rev_involutive in E; now subst|].
  cbn. apply is_digit_not_space. rewrite forallb_forall in Hd. apply Hd. apply in_rev. rewrite E. now left.
Qed.

(** [int] on a right-justified integer. *)
Lemma sign_digit t : t <> [] -> forallb is_digit t = true -> sign t = (false, t).
Proof.
  destruct t as [|c r]; [congruence|]. cbn. intros _ H. apply andb_true_iff in H as [H _].
  destruct (eqc c "-") eqn:E; [apply eqc_eq in E; subst; discriminate|].
  destruct (eqc c "+") eqn:E'; [apply eqc_eq in E'; subst; discriminate|]. reflexivity.
Qed.
Lemma py_int_dec a z b : py_int (repeat sp a ++ decZ z ++ repeat sp b) = Some z.
Proof.
  assert (K : forall n, head_space (decN n) = false /\ ends_space (decN n) = false).
  { intros n. split; [apply head_digit_not_space|apply (ends_digit_not_space [] (decN n))]; auto using decN_nonnil, decN_digits. }
  unfold py_int. rewrite trim_padded.
  - destruct z as [|p|p]; cbn [decZ].
    + reflexivity.
    + rewrite sign_digit, digits_all by auto using decN_nonnil, decN_digits.
      destruct (decN (Npos p)) eqn:E; [now apply decN_nonnil in E|]. rewrite <- E, dval_decN. reflexivity.
    + cbn [sign]. rewrite eqc_refl, digits_all by auto using decN_digits.
      destruct (decN (Npos p)) eqn:E; [now apply decN_nonnil in E|]. rewrite <- E, dval_decN. reflexivity.
  - destruct z as [|p|p]; cbn [decZ]; try apply K. reflexivity.
  - destruct z as [|p|p]; cbn [decZ]; try apply K.
    apply (ends_digit_not_space ["-"%char]); auto using decN_nonnil, decN_digits.
Qed.
