(** C19, C20: correlation and covariance conversions. *)
From Coq Require Import Reals Lra Lia Arith.
From Verif Require Import Mat CovCorr_Model CovCorr_Spec CovCorr_Proofs.
Local Open Scope R_scope.

Theorem C19_entries : forall n std corr, is_cov n std corr (correlation_to_cov n std corr).
Proof. exact correlation_to_cov_is_cov. Qed.
Print Assumptions C19_entries.

Theorem C19_psd : forall n std corr, is_corr n corr -> psd n (correlation_to_cov n std corr).
Proof. exact correlation_to_cov_psd. Qed.
Print Assumptions C19_psd.

(** Deviations are recovered and the correlation can be read back. *)
Theorem C19_read_back : forall n std corr, (forall i, (i < n)%nat -> 0 < std i) ->
  (forall i, (i < n)%nat -> corr i i = 1) -> sym n corr ->
  forall i j, (i < n)%nat -> (j < n)%nat ->
  cov_to_correlation n (correlation_to_cov n std corr) i j = corr i j.
Proof. exact corr_cov_corr. Qed.
Print Assumptions C19_read_back.

(** A correlation matrix with a negative entry, and the covariance it gives. *)
Definition ex_corr : mat := fun i j => if Nat.eqb i j then 1 else -(1/2).
Definition ex_std : vec := fun i => match i with O => 2 | _ => 3 end.
Example C19_hypotheses_met : is_corr 2 ex_corr /\
  correlation_to_cov 2 ex_std ex_corr 0%nat 1%nat = -3 /\ correlation_to_cov 2 ex_std ex_corr 1%nat 1%nat = 9 /\
  (forall i, (i < 2)%nat -> 0 < ex_std i).
Proof.
  split; [|split; [|split]].
  - split.
    + intros i _. unfold ex_corr. now rewrite Nat.eqb_refl.
    + intros i j _ _. unfold ex_corr. now rewrite Nat.eqb_sym.
    + intros x. unfold quad, ex_corr. cbn. nra.
  - rewrite correlation_to_cov_entry by lia. cbn. unfold ex_std, ex_corr. cbn. lra.
  - rewrite correlation_to_cov_entry by lia. cbn. unfold ex_std. lra.
  - intros [|i] _; cbn; lra.
Qed.

Theorem C20_unit_symmetric : forall n cov,
  (forall i, (i < n)%nat -> cov i i <> 0) ->
  sym n (cov_to_correlation n cov) /\ forall i, (i < n)%nat -> cov_to_correlation n cov i i = 1.
Proof. intros n cov _. split; [apply cov_to_correlation_sym|apply cov_to_correlation_unit]. Qed.
Print Assumptions C20_unit_symmetric.

Theorem C20_round_trip : forall n cov, sym n cov -> (forall i, (i < n)%nat -> 0 < cov i i) ->
  forall i j, (i < n)%nat -> (j < n)%nat ->
  correlation_to_cov n (fun i => sqrt (cov i i)) (cov_to_correlation n cov) i j = cov i j.
Proof. exact cov_corr_cov. Qed.
Print Assumptions C20_round_trip.

Theorem C20_bounded : forall n cov, sym n cov -> psd n cov ->
  (forall i, (i < n)%nat -> 0 < cov i i) ->
  forall i j, (i < n)%nat -> (j < n)%nat -> -1 <= cov_to_correlation n cov i j <= 1.
Proof. exact cov_to_correlation_bound. Qed.
Print Assumptions C20_bounded.

(** The result is again a correlation matrix. *)
Theorem C20_is_corr : forall n cov, sym n cov -> psd n cov ->
  (forall i, (i < n)%nat -> 0 < cov i i) -> is_corr n (cov_to_correlation n cov).
Proof.
  intros n cov Hs Hp Hd. split.
  - intros. now apply cov_to_correlation_unit.
  - apply cov_to_correlation_sym.
  - now apply cov_to_correlation_psd.
Qed.
Print Assumptions C20_is_corr.

(** Without positive variances the way back fails: a negative variance comes
    back positive. *)
Theorem C20_round_trip_any_refuted : exists n cov, sym n cov /\ (forall i, (i < n)%nat -> cov i i <> 0) /\
  exists i, (i < n)%nat /\
  correlation_to_cov n (fun i => sqrt (cov i i)) (cov_to_correlation n cov) i i <> cov i i.
Proof.
  exists 1%nat, (fun _ _ => -1). split; [|split; [|exists 0%nat; split]].
  - intros i j _ _. reflexivity.
  - intros. lra.
  - lia.
  - rewrite correlation_to_cov_entry by lia. cbn. intros H.
    rewrite Rmult_1_r in H. pose proof (Rle_0_sqr (sqrt (-1))) as H1. unfold Rsqr in H1. lra.
Qed.
Print Assumptions C20_round_trip_any_refuted.

Definition ex_cov : mat := fun i j => match i, j with O, O => 4 | S O, S O => 9 | _, _ => -3 end.
Example C20_hypotheses_met : sym 2 ex_cov /\ psd 2 ex_cov /\ (forall i, (i < 2)%nat -> 0 < ex_cov i i) /\
  cov_to_correlation 2 ex_cov 1%nat 0%nat = -(1/2).
Proof.
  assert (Hs : sym 2 ex_cov).
  { intros i j Hi Hj. destruct i as [|[|i]]; destruct j as [|[|j]]; try lia; reflexivity. }
  assert (Hd : forall i, (i < 2)%nat -> 0 < ex_cov i i) by (intros [|[|i]] Hi; try lia; cbn; lra).
  split; [assumption|split; [|split; [assumption|]]].
  - intros x. unfold quad. cbn.
    replace (_ + _) with ((2 * x 0%nat - 3/2 * x 1%nat) ^ 2 + 27/4 * x 1%nat ^ 2) by field.
    pose proof (pow2_ge_0 (2 * x 0%nat - 3/2 * x 1%nat)). pose proof (pow2_ge_0 (x 1%nat)). lra.
  - rewrite cov_to_correlation_pos by (auto; lia). cbn.
    replace 9 with (3 * 3) by lra. replace 4 with (2 * 2) by lra. rewrite !sqrt_square by lra. field.
Qed.
