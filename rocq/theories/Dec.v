(** Decimal rendering of integers, Python [str(int)] / ['{}'.format(int)], and
    the inverse on plain digit strings. *)
From Verif Require Import Text.
From Coq Require Import ZArith NArith Decimal DecimalString DecimalN DecimalFacts.
Local Open Scope list_scope.

Definition decN (n : N) : text := str (NilEmpty.string_of_uint (N.to_uint n)).
Definition decZ (z : Z) : text :=
  match z with
  | Z0 => decN 0
  | Zpos p => decN (Npos p)
  | Zneg p => "-"%char :: decN (Npos p)
  end.

(** [int(s)] on a string of digits; [None] otherwise (also for the empty
    string). *)
Definition parseN (t : text) : option N :=
  match t with
  | [] => None
  | _ => option_map N.of_uint (NilEmpty.uint_of_string (string_of_list_ascii t))
  end.
Definition parseZ (t : text) : option Z :=
  match t with
  | c :: r => if eqc c "-"%char then option_map (fun n => (- Z.of_N n)%Z) (parseN r)
              else option_map Z.of_N (parseN t)
  | [] => None
  end.

Definition is_digit (c : ascii) : bool :=
  let n := nat_of_ascii c in (48 <=? n) && (n <=? 57).

Lemma str_inj a b : str a = str b -> a = b.
Proof.
  unfold str. intros H. apply (f_equal string_of_list_ascii) in H.
  now rewrite !string_of_list_ascii_of_string in H.
Qed.

Lemma uint_digits d : forallb is_digit (str (NilEmpty.string_of_uint d)) = true.
Proof. induction d; cbn [NilEmpty.string_of_uint str list_ascii_of_string forallb]; try reflexivity; exact IHd. Qed.

Lemma decN_digits n : forallb is_digit (decN n) = true.
Proof. apply uint_digits. Qed.

Lemma decN_nonnil n : decN n <> [].
Proof.
  unfold decN. pose proof (DecimalN.Unsigned.of_to n) as H. intros E.
  assert (N.to_uint n = Nil).
  { destruct (N.to_uint n); cbn in E; try discriminate. reflexivity. }
  destruct n; discriminate || (rewrite H0 in H; cbn in H; subst; try discriminate).
Qed.

Lemma parseN_decN n : parseN (decN n) = Some n.
Proof.
  unfold parseN. destruct (decN n) as [|c r] eqn:E; [now apply decN_nonnil in E|].
  rewrite <- E. unfold decN, str. rewrite string_of_list_ascii_of_string, NilEmpty.usu. cbn.
  now rewrite DecimalN.Unsigned.of_to.
Qed.

Lemma decN_inj n m : decN n = decN m -> n = m.
Proof. intros H. apply (f_equal parseN) in H. rewrite !parseN_decN in H. congruence. Qed.

Lemma decN_head n : exists c r, decN n = c :: r /\ is_digit c = true.
Proof.
  pose proof (decN_digits n) as H. destruct (decN n) as [|c r] eqn:E; [now apply decN_nonnil in E|].
  cbn in H. apply andb_true_iff in H as [H _]. eauto.
Qed.

Lemma parseZ_decZ z : parseZ (decZ z) = Some z.
Proof.
  assert (K : forall n, parseZ (decN n) = Some (Z.of_N n)).
  { intros n. pose proof (parseN_decN n) as P. destruct (decN_head n) as (c & r & E & Hc).
    rewrite E in *. unfold parseZ. destruct (eqc c "-") eqn:F.
    - apply eqc_eq in F. subst. discriminate.
    - now rewrite P. }
  destruct z as [|p|p]; cbn [decZ]; rewrite ?K; try reflexivity.
  cbn [parseZ]. rewrite eqc_refl, parseN_decN. reflexivity.
Qed.

Lemma decZ_inj a b : decZ a = decZ b -> a = b.
Proof. intros H. apply (f_equal parseZ) in H. rewrite !parseZ_decZ in H. congruence. Qed.

Lemma decN_notin n c : is_digit c = false -> ~ In c (decN n).
Proof.
  intros H K. pose proof (decN_digits n) as D. rewrite forallb_forall in D. apply D in K. congruence.
Qed.

Lemma decZ_notin z c : is_digit c = false -> c <> "-"%char -> ~ In c (decZ z).
Proof.
  intros H Hm. destruct z; cbn [decZ]; try (now apply decN_notin).
  intros [K|K]; [congruence|]. now apply (decN_notin (Npos p) c H).
Qed.

Lemma decZ_nonnil z : decZ z <> [].
Proof. destruct z; cbn [decZ]; try apply decN_nonnil. discriminate. Qed.
