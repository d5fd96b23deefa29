From Coq Require Import Reals Lra Lia Arith List Permutation.
From Verif Require Import Mat Gmw_Spec LogNormal_Model LogNormal_Spec.
Local Open Scope R_scope.

Definition cv2 (m s : R) : R := 1 + s ^ 2 / m ^ 2.
Lemma cv2_gt1 : forall m s, 0 < m -> s <> 0 -> 1 < cv2 m s.
Proof.
  intros m s Hm Hs. unfold cv2.
  assert (0 < s ^ 2) by (rewrite <- Rsqr_pow2; now apply Rsqr_pos_lt).
  assert (0 < m ^ 2) by nra.
  assert (0 < s ^ 2 / m ^ 2) by (apply Rdiv_lt_0_compat; assumption). lra.
Qed.
Lemma cv2_ge1 : forall m s, 0 < m -> 1 <= cv2 m s.
Proof.
  intros m s Hm. destruct (Req_dec s 0) as [->|Hs].
  - unfold cv2. replace (0 ^ 2 / m ^ 2) with 0 by (field; lra). lra.
  - left. now apply cv2_gt1.
Qed.
Lemma ln_nonneg : forall x, 1 <= x -> 0 <= ln x.
Proof.
  intros x [H|<-]; [|rewrite ln_1; lra]. rewrite <- ln_1. left. apply ln_increasing; lra.
Qed.

Lemma sigma2 : forall m s, 0 < m -> ln_sigma m s ^ 2 = ln (cv2 m s).
Proof.
  intros m s Hm. unfold ln_sigma. fold (cv2 m s).
  rewrite <- Rsqr_pow2. apply Rsqr_sqrt, ln_nonneg, cv2_ge1. assumption.
Qed.
Lemma ln_sqrt : forall x, 0 < x -> ln (sqrt x) = ln x / 2.
Proof.
  intros x Hx. pose proof (sqrt_lt_R0 x Hx). rewrite <- (sqrt_sqrt x) at 2 by lra.
  rewrite ln_mult by assumption. lra.
Qed.
Lemma mu_eq : forall m s, 0 < m -> ln_mu m s = ln m - ln (cv2 m s) / 2.
Proof.
  intros m s Hm. unfold ln_mu. fold (cv2 m s). pose proof (cv2_ge1 m s Hm).
  unfold Rdiv. rewrite ln_mult; [|assumption|apply Rinv_0_lt_compat, sqrt_lt_R0; lra].
  rewrite ln_Rinv by (apply sqrt_lt_R0; lra). rewrite ln_sqrt by lra. lra.
Qed.

Lemma lognormal_moments : forall m s, 0 < m ->
  lognormal_mean (ln_mu m s) (ln_sigma m s) = m /\ lognormal_var (ln_mu m s) (ln_sigma m s) = s ^ 2.
Proof.
  intros m s Hm. unfold lognormal_mean, lognormal_var. rewrite sigma2, mu_eq by assumption.
  pose proof (cv2_ge1 m s Hm). split.
  - replace (ln m - ln (cv2 m s) / 2 + ln (cv2 m s) / 2) with (ln m) by lra. now apply exp_ln.
  - replace (2 * (ln m - ln (cv2 m s) / 2) + ln (cv2 m s)) with (ln m + ln m) by lra.
    rewrite exp_plus, !exp_ln by lra. unfold cv2. field. lra.
Qed.

Lemma cross_sigma : forall m1 s1 m2 s2, 0 < m1 -> 0 < m2 ->
  sqrt (ln (cv2 m1 s1) * ln (cv2 m2 s2)) = ln_sigma m1 s1 * ln_sigma m2 s2.
Proof.
  intros. unfold ln_sigma. fold (cv2 m1 s1) (cv2 m2 s2). apply sqrt_mult; apply ln_nonneg, cv2_ge1; assumption.
Qed.

Lemma log_corr_eq : forall mean std corr i j, 0 < mean i -> 0 < mean j ->
  log_corr mean std corr i j =
  mean i * mean j / (std i * std j) *
  (exp (corr i j * (ln_sigma (mean i) (std i) * ln_sigma (mean j) (std j))) - 1).
Proof.
  intros mean std corr i j Hi Hj. unfold log_corr.
  rewrite !(Rplus_comm (_ / _) 1). fold (cv2 (mean i) (std i)) (cv2 (mean j) (std j)).
  now rewrite cross_sigma.
Qed.

Lemma log_corr_is_lognormal : forall mean std corr i j, 0 < mean i -> 0 < mean j -> 0 < std i -> 0 < std j ->
  let mu := fun k => ln_mu (mean k) (std k) in let sg := fun k => ln_sigma (mean k) (std k) in
  log_corr mean std corr i j * (sqrt (lognormal_var (mu i) (sg i)) * sqrt (lognormal_var (mu j) (sg j))) =
  lognormal_cov (mu i) (sg i) (mu j) (sg j) (corr i j).
Proof.
  intros mean std corr i j Hi Hj Hsi Hsj mu sg.
  rewrite log_corr_eq by assumption.
  destruct (lognormal_moments (mean i) (std i) Hi) as [M1 V1].
  destruct (lognormal_moments (mean j) (std j) Hj) as [M2 V2].
  fold (mu i) (sg i) in *. fold (mu j) (sg j) in *. rewrite V1, V2.
  rewrite !sqrt_pow2 by lra. unfold lognormal_cov.
  replace (mu i + mu j + (sg i ^ 2 + sg j ^ 2) / 2) with ((mu i + sg i ^ 2 / 2) + (mu j + sg j ^ 2 / 2)) by lra.
  rewrite exp_plus. fold (lognormal_mean (mu i) (sg i)) (lognormal_mean (mu j) (sg j)). rewrite M1, M2.
  rewrite <- (Rmult_assoc (corr i j)). field. lra.
Qed.

Lemma log_corr_unit : forall mean std corr i, 0 < mean i -> std i <> 0 -> corr i i = 1 -> log_corr mean std corr i i = 1.
Proof.
  intros mean std corr i Hm Hs Hc. rewrite log_corr_eq by assumption. rewrite Hc, Rmult_1_l.
  replace (ln_sigma (mean i) (std i) * ln_sigma (mean i) (std i)) with (ln_sigma (mean i) (std i) ^ 2) by ring.
  rewrite sigma2 by assumption. pose proof (cv2_ge1 (mean i) (std i) Hm). rewrite exp_ln by lra.
  unfold cv2. field. split; lra.
Qed.

Lemma log_corr_sym : forall mean std corr i j, corr i j = corr j i -> log_corr mean std corr i j = log_corr mean std corr j i.
Proof.
  intros mean std corr i j H. unfold log_corr. rewrite H.
  rewrite (Rmult_comm (ln (std i ^ 2 / mean i ^ 2 + 1))), (Rmult_comm (mean i)), (Rmult_comm (std i)). reflexivity.
Qed.

Lemma ln_sigma_pos : forall m s, 0 < m -> s <> 0 -> 0 < ln_sigma m s.
Proof.
  intros m s Hm Hs. unfold ln_sigma. fold (cv2 m s). apply sqrt_lt_R0. rewrite <- ln_1.
  pose proof (cv2_gt1 m s Hm Hs). apply ln_increasing; lra.
Qed.

(** Strictly increasing in the requested correlation. *)
Lemma log_corr_mono : forall mean std c c' i j, 0 < mean i -> 0 < mean j -> 0 < std i -> 0 < std j ->
  c i j < c' i j -> log_corr mean std c i j < log_corr mean std c' i j.
Proof.
  intros mean std c c' i j Hi Hj Hsi Hsj H. rewrite !log_corr_eq by assumption.
  pose proof (ln_sigma_pos (mean i) (std i) Hi ltac:(lra)). pose proof (ln_sigma_pos (mean j) (std j) Hj ltac:(lra)).
  apply Rmult_lt_compat_l.
  - apply Rdiv_lt_0_compat; apply Rmult_lt_0_compat; assumption.
  - apply Rplus_lt_compat_r. apply exp_increasing. apply Rmult_lt_compat_r; [|assumption].
    now apply Rmult_lt_0_compat.
Qed.
Lemma log_corr_zero : forall mean std c i j, 0 < mean i -> 0 < mean j -> c i j = 0 -> log_corr mean std c i j = 0.
Proof. intros. rewrite log_corr_eq by assumption. rewrite H1, Rmult_0_l, exp_0. lra. Qed.

(** ** Scores *)
Lemma sumn_list : forall n f, sumn n f = fold_right Rplus 0 (map f (seq 0 n)).
Proof.
  induction n as [|n IH]; intros f; [reflexivity|]. rewrite seq_S, map_app, fold_right_app. cbn.
  rewrite IH. generalize (f n). generalize (map f (seq 0 n)). induction l as [|x l IHl]; intros r; cbn; [lra|]. rewrite <- IHl. lra.
Qed.
Lemma fold_perm : forall l l', Permutation l l' -> fold_right Rplus 0 l = fold_right Rplus 0 l'.
Proof. induction 1; cbn; lra. Qed.
Lemma sumn_rearrange : forall n g f, rearrangement n g -> sumn n (fun i => f (g i)) = sumn n f.
Proof.
  intros n g f [H1 H2]. rewrite !sumn_list. rewrite <- (map_map g f). apply fold_perm, Permutation_map.
  symmetry. apply Permutation_sym. apply NoDup_Permutation_bis.
  - assert (G : forall l, (forall i, In i l -> (i < n)%nat) -> NoDup l -> NoDup (map g l)).
    { induction l as [|a l IH]; intros Hb Hn; cbn; [constructor|]. inversion Hn; subst. constructor.
      - intros Hin. apply in_map_iff in Hin. destruct Hin as (b & E & Hb'). apply H2 in E; [subst; contradiction| |];
        apply Hb; [now right|now left].
      - apply IH; auto. intros i Hi. apply Hb. now right. }
    apply G; [|apply seq_NoDup]. intros i Hi. apply in_seq in Hi. lia.
  - rewrite map_length. lia.
  - intros k Hk. apply in_map_iff in Hk. destruct Hk as (i & <- & Hi). apply in_seq in Hi. apply in_seq. specialize (H1 i). lia.
Qed.

Lemma standardise_sum : forall n p, (0 < n)%nat -> sumn n (standardise n p) = 0.
Proof.
  intros n p Hn. unfold standardise, Rdiv. rewrite sumn_scal_r, sumn_sub.
  assert (E : sumn n (fun _ => mean_of n p) = sumn n p).
  { transitivity (INR n * mean_of n p).
    - generalize (mean_of n p). clear. induction n; intros r; [cbn; lra|]. rewrite S_INR. cbn. rewrite IHn. lra.
    - unfold mean_of. field. apply not_0_INR. lia. }
  rewrite E. lra.
Qed.

Lemma independent_mean : forall n p perm j, (0 < n)%nat -> rearrangement n (perm j) ->
  sumn n (fun i => independent n p perm i j) = 0.
Proof.
  intros n p perm j Hn Hr. unfold independent. rewrite (sumn_rearrange n (perm j) (standardise n p)) by assumption.
  now apply standardise_sum.
Qed.

Lemma independent_var : forall n p perm j, (0 < n)%nat -> std_of n p <> 0 -> rearrangement n (perm j) ->
  cov_of n (independent n p perm) j j = 1.
Proof.
  intros n p perm j Hn Hs Hr. unfold cov_of, mmul, tr, independent.
  rewrite (sumn_rearrange n (perm j) (fun i => standardise n p i * standardise n p i)) by assumption.
  assert (Hin : 0 < INR n) by (apply lt_0_INR; lia).
  set (v := sumn n (fun i => (p i - mean_of n p) ^ 2)).
  assert (Ev : std_of n p ^ 2 = v / INR n).
  { unfold std_of. fold v. rewrite <- Rsqr_pow2. apply Rsqr_sqrt. unfold Rdiv.
    apply Rmult_le_pos; [apply sumn_nonneg; intros; apply pow2_ge_0|]. left. now apply Rinv_0_lt_compat. }
  assert (Es : sumn n (fun i => standardise n p i * standardise n p i) = v / std_of n p ^ 2).
  { unfold v, Rdiv. rewrite <- sumn_scal_r. apply sumn_ext. intros. unfold standardise. field. assumption. }
  rewrite Es. assert (v <> 0).
  { intros Hv. rewrite Hv in Ev. apply Hs. unfold Rdiv in Ev. rewrite Rmult_0_l in Ev. nra. }
  rewrite Ev. field. split; lra.
Qed.

Lemma scores_mean : forall ns d M Einv C j, (forall l, (l < d)%nat -> sumn ns (fun i => M i l) = 0) ->
  col_mean ns (scores d M Einv C) j = 0.
Proof.
  intros ns d M Einv C j HM. unfold col_mean, scores.
  assert (E : sumn ns (fun i => mmul d (mmul d M Einv) C i j) = 0).
  { unfold mmul at 1. rewrite sumn_swap. apply sumn_0. intros k _. rewrite sumn_scal_r.
    replace (sumn ns (fun i => mmul d M Einv i k)) with 0; [lra|].
    symmetry. unfold mmul. rewrite sumn_swap. apply sumn_0. intros l Hl. rewrite sumn_scal_r, HM by assumption. lra. }
  rewrite E. unfold Rdiv. lra.
Qed.

Lemma scores_cov : forall ns d M E Einv C corr, (0 < ns)%nat ->
  (forall l, (l < d)%nat -> sumn ns (fun i => M i l) = 0) ->
  upper_factor d (cov_of ns M) E ->
  (forall i j, (i < d)%nat -> (j < d)%nat -> mmul d E Einv i j = meye i j) ->
  (forall i j, (i < d)%nat -> (j < d)%nat -> mmul d (tr C) C i j = corr i j) ->
  forall j k, (j < d)%nat -> (k < d)%nat -> col_cov ns (scores d M Einv C) j k = corr j k.
Proof.
  intros ns d M E Einv C corr Hns HM (HE & _) Hinv HC j k Hj Hk.
  unfold col_cov. rewrite !(scores_mean ns d M Einv C _ HM).
  rewrite (sumn_ext ns _ (fun i => tr (scores d M Einv C) j i * scores d M Einv C i k))
    by (intros; unfold tr; lra).
  fold (mmul ns (tr (scores d M Einv C)) (scores d M Einv C) j k).
  (* N^T N = C^T Einv^T (M^T M) Einv C *)
  assert (G : forall a b, (a < d)%nat -> (b < d)%nat ->
     mmul ns (tr (mmul d M Einv)) (mmul d M Einv) a b = INR ns * meye a b).
  { intros a b Ha Hb.
    transitivity (mmul d (tr Einv) (mmul d (mmul ns (tr M) M) Einv) a b).
    - transitivity (mmul ns (mmul d (tr Einv) (tr M)) (mmul d M Einv) a b).
      + apply mmul_ext; intros; [apply tr_mmul|reflexivity].
      + rewrite mmul_assoc. apply mmul_ext; intros; [reflexivity|]. now rewrite mmul_assoc.
    - transitivity (mmul d (tr Einv) (mmul d (fun x y => INR ns * mmul d (tr E) E x y) Einv) a b).
      + apply mmul_ext; [reflexivity|]. intros x Hx. apply mmul_ext; [|reflexivity]. intros y Hy.
        rewrite HE by assumption. unfold cov_of. field. apply not_0_INR. lia.
      + transitivity (INR ns * mmul d (tr Einv) (mmul d (mmul d (tr E) E) Einv) a b).
        * unfold mmul at 1 4. rewrite <- sumn_scal. apply sumn_ext. intros x Hx.
          unfold mmul at 1 3. rewrite <- !sumn_scal. apply sumn_ext. intros; lra.
        * f_equal. transitivity (mmul d (tr Einv) (mmul d (tr E) (mmul d E Einv)) a b).
          { apply mmul_ext; intros; [reflexivity|]. apply mmul_assoc. }
          rewrite <- mmul_assoc.
          transitivity (mmul d (tr (mmul d E Einv)) (mmul d E Einv) a b).
          { apply mmul_ext; intros; [symmetry; apply tr_mmul|reflexivity]. }
          transitivity (mmul d meye meye a b).
          { apply mmul_ext; intros; unfold tr; rewrite Hinv by assumption; [unfold meye, mdiag; now rewrite (Nat.eqb_sym k0)|reflexivity].
            all: idtac. }
          now apply mmul_eye_l. }
  transitivity (mmul d (tr C) (mmul d (fun a b => INR ns * meye a b) C) j k / INR ns).
  - f_equal. unfold scores.
    transitivity (mmul ns (mmul d (tr C) (tr (mmul d M Einv))) (mmul d (mmul d M Einv) C) j k).
    + apply mmul_ext; intros; [apply tr_mmul|reflexivity].
    + rewrite mmul_assoc. apply mmul_ext; intros x Hx; [reflexivity|]. rewrite <- mmul_assoc.
      apply mmul_ext; intros y Hy; [now apply G|reflexivity].
  - transitivity (INR ns * mmul d (tr C) C j k / INR ns).
    + f_equal. unfold mmul at 1 3. rewrite <- sumn_scal. apply sumn_ext. intros x Hx.
      assert (EE : mmul d (fun a b => INR ns * meye a b) C x k = INR ns * mmul d meye C x k).
      { unfold mmul. rewrite <- sumn_scal. apply sumn_ext. intros; lra. }
      try fold (mmul d (fun a b => INR ns * meye a b) C x k). rewrite EE.
      rewrite mmul_eye_l by assumption. unfold tr. lra.
    + rewrite HC by assumption. field. apply not_0_INR. lia.
Qed.
