(** C28: the matrix text is parsed field by field. *)
From Verif Require Import Num Text Dec PyNum Boxer_Model Boxer_Spec Boxer_Proofs.
From Coq Require Import ZArith.
Local Open Scope list_scope.
Local Open Scope nat_scope.

(** Four headers, each followed by lines of fields: every block holds the numbers
    shown, in order; the matrix entry (i,j) is number i*n+j. *)
Theorem C28_fields : forall pre h0 b0 h1 b1 h2 b2 h3 b3 f0 f1 f2 f3 v0 v1 v2 v3,
  lines_of [] pre -> header h0 -> header h1 -> header h2 -> header h3 ->
  lines_of f0 b0 -> lines_of f1 b1 -> lines_of f2 b2 -> lines_of f3 b3 ->
  Forall2 shows f0 v0 -> Forall2 shows f1 v1 -> Forall2 shows f2 v2 -> Forall2 shows f3 v3 ->
  let file := pre ++ h0 :: b0 ++ h1 :: b1 ++ h2 :: b2 ++ h3 :: b3 in
  (forall l, In l file -> ~ mentions (str "***ERROR IN BOXR***") l) ->
  length v2 = length v1 -> length v3 = length v1 * length v1 ->
  exists sd cov, read_matrix file = Data v0 v1 sd cov /\
    length sd = length v1 /\ (forall i, i < length v1 -> nth i sd 0%Qc = (nth i v2 0 * nth i v1 0)%Qc) /\
    length cov = length v1 /\ (forall r, In r cov -> length r = length v1) /\
    (forall i j, i < length v1 -> j < length v1 -> nth j (nth i cov []) 0%Qc = nth (i * length v1 + j) v3 0%Qc).
Proof.
  intros pre h0 b0 h1 b1 h2 b2 h3 b3 f0 f1 f2 f3 v0 v1 v2 v3 Hp H0 H1 H2 H3 L0 L1 L2 L3 S0 S1 S2 S3 file He E2 E3.
  exists (products v2 v1), (rows (length v1) (length v1) v3).
  assert (R : read_matrix file = Data v0 v1 (products v2 v1) (rows (length v1) (length v1) v3)).
  { unfold file. rewrite (read_matrix_file pre b0 b1 b2 b3 h0 h1 h2 h3 f0 f1 f2 f3 v0 v1 v2 v3) by assumption.
    unfold times. rewrite E2, E3, !Nat.eqb_refl. reflexivity. }
  split; [exact R|].
  assert (P : forall a b, length a = length b -> length (products a b) = length b /\
    forall i, i < length b -> nth i (products a b) 0%Qc = (nth i a 0 * nth i b 0)%Qc).
  { induction a as [|x a IH]; intros [|y b] E; try discriminate; cbn [products length] in *; [split; [reflexivity|intros; lia]|].
    destruct (IH b) as [Hl Hn]; [lia|]. split; [now rewrite Hl|]. intros [|i] Hi; [reflexivity|]. cbn [nth]. apply Hn. lia. }
  destruct (P v2 v1 E2) as [P1 P2]. do 2 (split; [assumption|]). destruct (read_matrix_sizes _ _ _ _ _ R) as [Z1 Z2].
  do 2 (split; [assumption|]). intros i j Hi Hj. now apply rows_nth.
Qed.
Print Assumptions C28_fields.

(** With another number of matrix entries, or of deviations (other than one), the
    file is rejected. *)
Theorem C28_wrong_size : forall pre h0 b0 h1 b1 h2 b2 h3 b3 f0 f1 f2 f3 v0 v1 v2 v3,
  lines_of [] pre -> header h0 -> header h1 -> header h2 -> header h3 ->
  lines_of f0 b0 -> lines_of f1 b1 -> lines_of f2 b2 -> lines_of f3 b3 ->
  Forall2 shows f0 v0 -> Forall2 shows f1 v1 -> Forall2 shows f2 v2 -> Forall2 shows f3 v3 ->
  let file := pre ++ h0 :: b0 ++ h1 :: b1 ++ h2 :: b2 ++ h3 :: b3 in
  (forall l, In l file -> ~ mentions (str "***ERROR IN BOXR***") l) ->
  (length v2 <> length v1 /\ length v2 <> 1 /\ length v1 <> 1) \/ length v3 <> length v1 * length v1 ->
  read_matrix file = BadShape.
Proof.
  intros pre h0 b0 h1 b1 h2 b2 h3 b3 f0 f1 f2 f3 v0 v1 v2 v3 Hp H0 H1 H2 H3 L0 L1 L2 L3 S0 S1 S2 S3 file He Hbad.
  unfold file. rewrite (read_matrix_file pre b0 b1 b2 b3 h0 h1 h2 h3 f0 f1 f2 f3 v0 v1 v2 v3) by assumption.
  destruct Hbad as [(A & B & C)|A].
  - unfold times. apply Nat.eqb_neq in A. rewrite A. destruct v2 as [|x [|x' v2]], v1 as [|y [|y' v1]]; cbn in *; congruence.
  - destruct (times v2 v1); [|reflexivity]. apply Nat.eqb_neq in A. now rewrite A.
Qed.
Print Assumptions C28_wrong_size.

(** A report of BOXR anywhere is noticed, and only a report gives that error. *)
Theorem C28_report : forall ls, read_matrix ls = BoxrError <-> exists l, In l ls /\ mentions (str "***ERROR IN BOXR***") l.
Proof.
  intros ls. assert (E : existsb (occurs error_text) ls = true <-> exists l, In l ls /\ mentions (str "***ERROR IN BOXR***") l).
  { rewrite existsb_exists. split; intros (l & Hl & H); exists l; (split; [assumption|]); now apply occurs_spec. }
  unfold read_matrix. rewrite <- E. destruct (existsb _ ls); [split; reflexivity|]. split; [|discriminate].
  destruct (header_lines 0 ls) as [|n0 [|n1 [|n2 [|n3 t]]]]; try discriminate. destruct (times _ _); [|discriminate]. destruct (_ =? _); discriminate.
Qed.
Print Assumptions C28_report.
(** Whatever is read, the matrix is square with one row per cross section. *)
Theorem C28_square : forall ls g x s c, read_matrix ls = Data g x s c -> length c = length x /\ forall r, In r c -> length r = length x.
Proof. exact read_matrix_sizes. Qed.
Print Assumptions C28_square.

(** ** A file with two groups *)
Definition ln (s : string) : text := str s ++ [nl].
Definition h (s : string) : text := ln s.
Lemma h_ok k w r z : py_int (str w) = Some z -> wordb (str w) = true -> forall s, s = repeat sp k ++ str w ++ r -> head_space r = true -> header s.
Proof. intros Hz Hw s -> Hr. exists k, z, (str w), r. repeat split; try assumption; now apply wordb_word. Qed.
Lemma nl_end c : In c [nl] -> is_space c = true /\ c <> sp.
Proof. intros [<-|[]]. split; [reflexivity|discriminate]. Qed.
Lemma shown k w v : length (repeat sp k ++ str w) = 10 -> existsb (eqc ".") (str w) = true -> py_float (str w) = Some v ->
  wordb (str w) = true -> k = 0 \/ starts_with_digit (str w) -> shows (repeat sp k ++ str w) v.
Proof.
  intros Hl Hp Hv Hw Hk. split; [exact Hl|]. split.
  - apply existsb_exists in Hp as (c & Hc & E). apply eqc_eq in E as <-. apply in_app_iff. now right.
  - exists k, (str w). repeat split; try assumption. apply wordb_word in Hw. apply Hw.
Qed.
Definition f (k : nat) (s : string) : text := repeat sp k ++ str s.
Definition bnd := [f 1 "2.000E+07"; f 1 "1.000E+00"; f 1 "1.000E-05"].
Definition xsv := [f 1 "2.500E+00"; f 1 "1.000E+01"].
Definition rsd := [f 1 "1.000E-01"; f 1 "2.000E-01"].
Definition mtx := [f 1 "6.250E-02"; f 0 "-2.500E-01"; f 0 "-2.500E-01"; f 1 "4.000E+00"].
Definition demo_file : list text :=
  [ln ""; ln "0 groups"] ++ [concat bnd ++ [nl]; ln ""] ++ [ln "1 xsec  9228 1"] ++ [concat xsv ++ [nl]; ln ""] ++
  [ln "2 std dev"] ++ [f 1 "1.000E-01" ++ [nl]; f 1 "2.000E-01" ++ [nl]] ++
  [ln "3 cov"] ++ [f 1 "6.250E-02" ++ str "-2.500E-01" ++ [nl]; concat [f 0 "-2.500E-01"; f 1 "4.000E+00"] ++ [nl]].
Lemma py_float_val t v : option_map this (py_float t) = Some (this v) -> py_float t = Some v.
Proof. destruct (py_float t) as [u|]; [|discriminate]. cbn. intros E. injection E as E. f_equal. apply Qc_is_canon. now rewrite E. Qed.
Ltac show_all := repeat match goal with
  | |- Forall2 _ _ [] => apply Forall2_nil
  | |- Forall2 _ ?l _ => unfold l
  | |- Forall2 _ (f _ _ :: _) (_ :: _) => apply Forall2_cons;
      [apply shown; [reflexivity|reflexivity|apply py_float_val; vm_compute; reflexivity|reflexivity|first [left; reflexivity|right; cbn; lia]]|]
  end.
Example C28_fields_hypotheses_met : exists sd cov,
  read_matrix demo_file = Data [qz 20000000; qz 1; qc 1 100000] [qc 5 2; qz 10] sd cov /\
  nth 0 sd 0%Qc = qc 1 4 /\ nth 1 sd 0%Qc = qz 2 /\ nth 0 (nth 1 cov []) 0%Qc = qc (-1) 4 /\ nth 1 (nth 1 cov []) 0%Qc = qz 4.
Proof.
  destruct (C28_fields [ln ""] (ln "0 groups") [concat bnd ++ [nl]; ln ""] (ln "1 xsec  9228 1") [concat xsv ++ [nl]; ln ""]
    (ln "2 std dev") [f 1 "1.000E-01" ++ [nl]; f 1 "2.000E-01" ++ [nl]] (ln "3 cov")
    [f 1 "6.250E-02" ++ str "-2.500E-01" ++ [nl]; concat [f 0 "-2.500E-01"; f 1 "4.000E+00"] ++ [nl]]
    bnd xsv rsd mtx [qz 20000000; qz 1; qc 1 100000] [qc 5 2; qz 10] [qc 1 10; qc 1 5] [qc 1 16; qc (-1) 4; qc (-1) 4; qz 4]) as (sd & cov & R & _ & Hs & _ & _ & Hc).
  - exact (lines_cons [] [] [nl] [] nl_end lines_nil).
  - apply (h_ok 0 "0" (str " groups" ++ [nl]) 0); reflexivity.
  - apply (h_ok 0 "1" (str " xsec  9228 1" ++ [nl]) 1); reflexivity.
  - apply (h_ok 0 "2" (str " std dev" ++ [nl]) 2); reflexivity.
  - apply (h_ok 0 "3" (str " cov" ++ [nl]) 3); reflexivity.
  - exact (lines_cons bnd [] [nl] _ nl_end (lines_cons [] [] [nl] [] nl_end lines_nil)).
  - exact (lines_cons xsv [] [nl] _ nl_end (lines_cons [] [] [nl] [] nl_end lines_nil)).
  - exact (lines_cons [f 1 "1.000E-01"] [f 1 "2.000E-01"] [nl] _ nl_end (lines_cons [f 1 "2.000E-01"] [] [nl] [] nl_end lines_nil)).
  - exact (lines_cons [f 1 "6.250E-02"; f 0 "-2.500E-01"] [f 0 "-2.500E-01"; f 1 "4.000E+00"] [nl] _ nl_end (lines_cons [f 0 "-2.500E-01"; f 1 "4.000E+00"] [] [nl] [] nl_end lines_nil)).
  - show_all.
  - show_all.
  - show_all.
  - show_all.
  - intros l Hl Hm. apply occurs_spec in Hm.
    assert (N : forallb (fun l => negb (occurs (str "***ERROR IN BOXR***") l)) demo_file = true) by reflexivity.
    rewrite forallb_forall in N. specialize (N l Hl). now rewrite Hm in N.
  - reflexivity.
  - reflexivity.
  - exists sd, cov. split; [exact R|]. cbn [length] in Hs, Hc. rewrite (Hs 0), (Hs 1), (Hc 1 0), (Hc 1 1) by lia.
    cbn [nth Nat.mul Nat.add]. repeat split; apply Qc_is_canon; reflexivity.
Qed.

(** Fortran prints numbers below 1E-99 without the letter E.  Such a last entry
    is read as its mantissa: here 1.234E-100 becomes 1.234. *)
Definition tiny_file : list text :=
  [ln "0 groups"; f 1 "2.000E+07" ++ f 1 "1.000E-05" ++ [nl]; ln "1 xsec"; f 1 "2.500E+00" ++ [nl];
   ln "2 std dev"; f 1 "1.000E-50" ++ [nl]; ln "3 cov"; f 1 "1.234-100" ++ [nl]].
Theorem C28_three_digit_exponent_refuted : exists g x s v, read_matrix tiny_file = Data g x s [[v]] /\ v = qc 617 500.
Proof. eexists _, _, _, _. split; [vm_compute; reflexivity|]. apply Qc_is_canon. reflexivity. Qed.
Print Assumptions C28_three_digit_exponent_refuted.
(** A blank before a minus sign becomes a zero before it: the number and
    everything after it is lost. *)
Theorem C28_padded_minus_refuted : block [str "  -1.0E+00" ++ str " 1.000E+00" ++ [nl]] = [0%Qc].
Proof.
  assert (E : exists v, block [str "  -1.0E+00" ++ str " 1.000E+00" ++ [nl]] = [v] /\ v = 0%Qc); [|now destruct E as (v & -> & ->)].
  eexists. split; [vm_compute; reflexivity|]. apply Qc_is_canon. reflexivity.
Qed.
Print Assumptions C28_padded_minus_refuted.
