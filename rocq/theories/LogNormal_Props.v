(** C26 lognormal moments, C52 correlation of the score matrix. *)
From Coq Require Import Reals Lra Lia Arith List.
From Verif Require Import Mat Gmw_Spec LogNormal_Model LogNormal_Spec LogNormal_Proofs.
Import ListNotations.
Local Open Scope R_scope.

(** ** C26 *)
(** The parameters handed to the normal percent-point function reproduce the
    requested mean and variance. *)
Theorem C26_moments : forall m s, 0 < m ->
  lognormal_mean (ln_mu m s) (ln_sigma m s) = m /\ lognormal_var (ln_mu m s) (ln_sigma m s) = s ^ 2.
Proof. exact lognormal_moments. Qed.
Print Assumptions C26_moments.

(** Every lognormal value is positive, increasing in the score, and the
    central score gives the median [m / sqrt(1 + s^2/m^2)], below the mean. *)
Theorem C26_values : forall m s, 0 < m -> s <> 0 ->
  (forall z, 0 < ln_draw m s z) /\
  (forall z z', z < z' -> ln_draw m s z < ln_draw m s z') /\
  ln_draw m s 0 * sqrt (m ^ 2 + s ^ 2) = m ^ 2.
Proof.
  intros m s Hm Hs. split; [|split].
  - intros z. apply exp_pos.
  - intros z z' H. apply exp_increasing. apply Rplus_lt_compat_l, Rmult_lt_compat_l; [|assumption].
    now apply ln_sigma_pos.
  - unfold ln_draw. rewrite Rmult_0_r, Rplus_0_r. unfold ln_mu. pose proof (cv2_ge1 m s Hm) as H. unfold cv2 in H.
    rewrite exp_ln by (apply Rdiv_lt_0_compat; [assumption|apply sqrt_lt_R0; lra]).
    replace (m ^ 2 + s ^ 2) with (m ^ 2 * (1 + s ^ 2 / m ^ 2)) by (field; lra).
    rewrite sqrt_mult_alt by (apply pow2_ge_0). rewrite sqrt_pow2 by lra. field.
    apply Rgt_not_eq, sqrt_lt_R0. lra.
Qed.
Print Assumptions C26_values.

(** The transformed entry is the correlation of the two lognormal variables
    whose logarithms have the requested correlation. *)
Theorem C26_transform : forall mean std corr i j, 0 < mean i -> 0 < mean j -> 0 < std i -> 0 < std j ->
  log_corr mean std corr i j * (std i * std j) =
  lognormal_cov (ln_mu (mean i) (std i)) (ln_sigma (mean i) (std i))
                (ln_mu (mean j) (std j)) (ln_sigma (mean j) (std j)) (corr i j).
Proof.
  intros mean std corr i j Hi Hj Hsi Hsj. rewrite <- log_corr_is_lognormal by assumption. cbn zeta.
  destruct (lognormal_moments (mean i) (std i) Hi) as [_ V1].
  destruct (lognormal_moments (mean j) (std j) Hj) as [_ V2].
  rewrite V1, V2, !sqrt_pow2 by lra. reflexivity.
Qed.
Print Assumptions C26_transform.

(** Unit diagonal, symmetry, and the sign of every entry are preserved. *)
Theorem C26_shape : forall mean std corr i j, 0 < mean i -> 0 < mean j -> 0 < std i -> 0 < std j ->
  (corr i i = 1 -> log_corr mean std corr i i = 1) /\
  (corr i j = corr j i -> log_corr mean std corr i j = log_corr mean std corr j i) /\
  (0 < log_corr mean std corr i j <-> 0 < corr i j) /\
  (log_corr mean std corr i j < 0 <-> corr i j < 0).
Proof.
  intros mean std corr i j Hi Hj Hsi Hsj.
  pose proof (log_corr_zero mean std (fun _ _ => 0) i j Hi Hj eq_refl) as Z.
  pose proof (log_corr_mono mean std (fun _ _ => 0) corr i j Hi Hj Hsi Hsj) as P.
  pose proof (log_corr_mono mean std corr (fun _ _ => 0) i j Hi Hj Hsi Hsj) as N.
  rewrite Z in P, N. cbn beta in P, N.
  assert (E : corr i j = 0 -> log_corr mean std corr i j = 0) by now apply log_corr_zero.
  split; [intros; apply log_corr_unit; [assumption|lra|assumption]|].
  split; [apply log_corr_sym|].
  destruct (Rtotal_order (corr i j) 0) as [H|[H|H]]; [specialize (N H)|specialize (E H)|specialize (P H)];
    split; split; intros; lra.
Qed.
Print Assumptions C26_shape.

(** Scores that carry the transformed correlation do not give lognormal values
    with the requested correlation: the transform is applied in the wrong
    direction.  For mean = std = 1 and requested correlation 1/2 the lognormal
    values made from scores of correlation [log_corr] have a strictly smaller
    correlation. *)
Theorem C26_requested_correlation_refuted :
  exists mean std corr i j, 0 < mean i /\ 0 < mean j /\ 0 < std i /\ 0 < std j /\ corr i j = 1 / 2 /\
    lognormal_cov (ln_mu (mean i) (std i)) (ln_sigma (mean i) (std i))
                  (ln_mu (mean j) (std j)) (ln_sigma (mean j) (std j)) (log_corr mean std corr i j)
    < corr i j * (std i * std j).
Proof.
  exists (fun _ => 1), (fun _ => 1), (fun _ _ => 1 / 2), 0%nat, 1%nat.
  repeat (split; [lra|]).
  set (c1 := log_corr (fun _ => 1) (fun _ => 1) (fun _ _ => 1 / 2) 0%nat 1%nat).
  pose proof (C26_transform (fun _ => 1) (fun _ => 1) (fun _ _ => c1) 0%nat 1%nat
     Rlt_0_1 Rlt_0_1 Rlt_0_1 Rlt_0_1) as T. cbv beta in T. rewrite <- T. clear T. cbv beta.
  assert (F : forall c : R, log_corr (fun _ => 1) (fun _ => 1) (fun _ _ => c) 0%nat 1%nat = exp (c * ln 2) - 1).
  { intros c. unfold log_corr. replace (1 ^ 2 / 1 ^ 2 + 1) with 2 by lra.
    assert (0 <= ln 2) by (apply ln_nonneg; lra).
    replace (sqrt (ln 2 * ln 2)) with (ln 2) by (symmetry; now apply sqrt_square). lra. }
  assert (L2 : 0 < ln 2) by (rewrite <- ln_1; apply ln_increasing; lra).
  assert (H1 : c1 = sqrt 2 - 1).
  { unfold c1. rewrite F. replace (1 / 2 * ln 2) with (ln (sqrt 2)) by (rewrite ln_sqrt; lra).
    rewrite exp_ln; [reflexivity|apply sqrt_lt_R0; lra]. }
  assert (S2 : sqrt 2 < 3 / 2).
  { apply Rsqr_incrst_0; [|apply sqrt_pos|lra]. rewrite Rsqr_sqrt by lra. unfold Rsqr. lra. }
  rewrite F. assert (exp (c1 * ln 2) < exp (1 / 2 * ln 2)).
  { apply exp_increasing. rewrite H1. apply Rmult_lt_compat_r; lra. }
  replace (exp (1 / 2 * ln 2)) with (sqrt 2) in H; [lra|].
  replace (1 / 2 * ln 2) with (ln (sqrt 2)) by (rewrite ln_sqrt; lra).
  rewrite exp_ln; [reflexivity|apply sqrt_lt_R0; lra].
Qed.
Print Assumptions C26_requested_correlation_refuted.

Example C26_hypotheses_met : let mean := fun i : nat => nth i [2; 3] 1 in let std := fun i : nat => nth i [1; 2] 1 in
  0 < mean 0%nat /\ 0 < mean 1%nat /\ 0 < std 0%nat /\ 0 < std 1%nat /\ std 1%nat <> 0.
Proof. cbn. lra. Qed.

(** ** C52 *)
(** The columns of the independent matrix have mean 0 and variance 1. *)
Theorem C52_independent_columns : forall n p perm j, (0 < n)%nat -> std_of n p <> 0 -> rearrangement n (perm j) ->
  col_mean n (independent n p perm) j = 0 /\ col_cov n (independent n p perm) j j = 1.
Proof.
  intros n p perm j Hn Hs Hr. pose proof (independent_mean n p perm j Hn Hr) as Hm.
  assert (M0 : col_mean n (independent n p perm) j = 0) by (unfold col_mean; rewrite Hm; unfold Rdiv; lra).
  split; [exact M0|]. unfold col_cov. rewrite M0.
  rewrite <- (independent_var n p perm j Hn Hs Hr). unfold cov_of, mmul, tr.
  unfold Rdiv. rewrite Rmult_1_l, Rmult_comm. f_equal. apply sumn_ext. intros. lra.
Qed.
Print Assumptions C52_independent_columns.

(** When both factorisations succeed the score matrix has exactly the requested
    covariance, whatever accidental correlation the shuffled columns had. *)
Theorem C52_scores_correlation : forall ns d p perm E Einv C corr, (0 < ns)%nat ->
  (forall j, (j < d)%nat -> rearrangement ns (perm j)) ->
  upper_factor d (cov_of ns (independent ns p perm)) E ->
  (forall i j, (i < d)%nat -> (j < d)%nat -> mmul d E Einv i j = meye i j) ->
  upper_factor d corr C ->
  let N := scores d (independent ns p perm) Einv C in
  (forall j, (j < d)%nat -> col_mean ns N j = 0) /\
  (forall j k, (j < d)%nat -> (k < d)%nat -> col_cov ns N j k = corr j k).
Proof.
  intros ns d p perm E Einv C corr Hn Hr HE Hinv (HC & _) N.
  assert (HM : forall l, (l < d)%nat -> sumn ns (fun i => independent ns p perm i l) = 0)
    by (intros; now apply independent_mean, Hr).
  split; intros.
  - now apply scores_mean.
  - now apply (scores_cov ns d _ E).
Qed.
Print Assumptions C52_scores_correlation.

(** Four samples of two variables; the second column is shuffled so that the
    two columns are uncorrelated, the requested correlation is 3/5. *)
Definition ex_p : vec := fun i => nth i [-1; -1; 1; 1] 0.
Definition ex_perm (j i : nat) : nat := match j with O => i | _ => nth i [0; 2; 1; 3]%nat 0%nat end.
Definition ex_corr : mat := fun i j => if Nat.eqb i j then 1 else 3 / 5.
Definition ex_C : mat := fun i j => nth j (nth i [[1; 3 / 5]; [0; 4 / 5]] []) 0.
Lemma ex_mean : mean_of 4 ex_p = 0.
Proof. unfold mean_of, ex_p. cbn. lra. Qed.
Lemma ex_std : std_of 4 ex_p = 1.
Proof.
  unfold std_of. rewrite ex_mean. rewrite <- sqrt_1. f_equal. unfold ex_p. cbn. lra.
Qed.
Lemma ex_ind : forall i j, independent 4 ex_p ex_perm i j = ex_p (ex_perm j i).
Proof. intros. unfold independent, standardise. rewrite ex_mean, ex_std. lra. Qed.
Example C52_hypotheses_met :
  std_of 4 ex_p <> 0 /\ (forall j, (j < 2)%nat -> rearrangement 4 (ex_perm j)) /\
  upper_factor 2 (cov_of 4 (independent 4 ex_p ex_perm)) meye /\
  (forall i j, (i < 2)%nat -> (j < 2)%nat -> mmul 2 meye meye i j = meye i j) /\ upper_factor 2 ex_corr ex_C.
Proof.
  split; [rewrite ex_std; lra|]. split; [|split; [|split]].
  - intros j Hj. split; intros i.
    + intros Hi. destruct j as [|[|j]]; [exact Hi| |lia]. do 4 (destruct i as [|i]; [cbn; lia|]). lia.
    + intros k Hi Hk. destruct j as [|[|j]]; [auto| |lia].
      do 4 (destruct i as [|i]; [do 4 (destruct k as [|k]; [cbn; congruence|]); lia|]). lia.
  - split; [|split].
    + intros i j Hi Hj. unfold cov_of, mmul, tr, meye, mdiag. 
      rewrite (sumn_ext 4 _ (fun k => ex_p (ex_perm i k) * ex_p (ex_perm j k))) by (intros; now rewrite !ex_ind).
      do 2 (destruct i as [|i]; [do 2 (destruct j as [|j]; [cbn; lra|]); lia|]). lia.
    + intros i j Hj Hi. unfold meye, mdiag. destruct (Nat.eqb_spec i j); [lia|reflexivity].
    + intros i Hi. unfold meye, mdiag. rewrite Nat.eqb_refl. lra.
  - intros. now apply mmul_eye_l.
  - split; [|split].
    + intros i j Hi Hj. unfold mmul, tr, ex_corr, ex_C.
      do 2 (destruct i as [|i]; [do 2 (destruct j as [|j]; [cbn; lra|]); lia|]). lia.
    + intros i j Hj Hi. do 2 (destruct i as [|i]; [do 2 (destruct j as [|j]; [cbn; try lra; lia|]); lia|]). lia.
    + intros i Hi. unfold ex_C. do 2 (destruct i as [|i]; [cbn; lra|]). lia.
Qed.
