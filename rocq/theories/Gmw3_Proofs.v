(** Size of the factor and of the shift (C22). *)
From Coq Require Import Reals Lra Lia Arith Bool.
From Verif Require Import Mat Gmw_Model Gmw_Spec Gmw_Proofs Gmw2_Proofs.
Local Open Scope R_scope.

Lemma theta_ge : forall n j a i, (j < i < n)%nat -> Rabs (a j i) <= theta n j a.
Proof.
  intros n j a i Hi. unfold theta. destruct (Nat.ltb_spec j (n - 1)); [|lia].
  set (I := fun (m : nat) (t : R) => forall k, (j < k < m)%nat -> Rabs (a j k) <= t).
  match goal with |- context [range ?lo ?hi ?f ?s] => assert (H1 : I n (range lo hi f s)) end; [|now apply H1].
  apply range_inv; [lia|intros k Hk; lia|].
  intros m t Hm Ht k Hk. destruct (Nat.eq_dec k m) as [->|]; [apply Rmax_r|].
  eapply Rle_trans; [apply Ht; lia|apply Rmax_l].
Qed.

Section Step.
Context (n : nat) (beta delta g x : R).
Hypothesis (Hb : 0 < beta) (Hd : 0 < delta) (Hg : 0 <= g) (Hx : 0 <= x).

Definition top : R := Rmax (Rmax (g + INR (n - 1) * beta ^ 2) (((x + INR (n - 1) * beta ^ 2) / beta) ^ 2)) delta + (g + INR (n - 1) * beta ^ 2).

Record small (j : nat) (s : st) : Prop := {
  sm_off : forall m i, (m < j)%nat -> (m < i < n)%nat -> Rabs (sr s m i) <= beta;
  sm_dia : forall m, (m < j)%nat -> delta <= sr s m m ^ 2;
  sm_a : forall i, (j <= i < n)%nat -> Rabs (sa s i i) <= g + INR j * beta ^ 2;
  sm_b : forall i k, (j <= i < n)%nat -> (j <= k < n)%nat -> i <> k -> Rabs (sa s i k) <= x + INR j * beta ^ 2;
  sm_e : forall m, (m < j)%nat -> se s m <= top }.

Lemma Rabs_prod_le u v : Rabs u <= beta -> Rabs v <= beta -> Rabs (u * v) <= beta ^ 2.
Proof.
  intros H1 H2. rewrite Rabs_mult. replace (beta ^ 2) with (beta * beta) by ring.
  apply Rmult_le_compat; auto using Rabs_pos.
Qed.

Lemma small_step j s s' q dj : (j < n)%nat -> stepped n j beta delta s s' q dj -> small j s -> small (S j) s'.
Proof.
  intros Hj [Hq Hqm Hdj HP He' Hr Ha] [O D Ab Bb E].
  assert (Hdpos : 0 < dj) by (rewrite Hdj; now apply pivot_value_pos).
  assert (Hsq : 0 < sqrt dj) by now apply sqrt_lt_R0.
  assert (Hss : sqrt dj * sqrt dj = dj) by (apply sqrt_sqrt; lra).
  assert (Hsw : forall i, (j <= i < n)%nat -> (j <= swapi j q i < n)%nat).
  { intros i Hi. unfold swapi. destruct (Nat.eqb_spec i j); [lia|]. destruct (Nat.eqb_spec i q); lia. }
  assert (Hne : forall i, (j < i < n)%nat -> swapi j q i <> q).
  { intros i Hi. unfold swapi. destruct (Nat.eqb_spec i j); [lia|]. destruct (Nat.eqb_spec i q); lia. }
  assert (Hinj : forall i k, swapi j q i = swapi j q k -> i = k).
  { intros i k Q. rewrite <- (swapi_invol j q i), Q. apply swapi_invol. }
  set (th := theta n j (fun i k => sa s (swapi j q i) (swapi j q k))) in *.
  assert (Hth : forall i, (j < i < n)%nat -> Rabs (sa s q (swapi j q i)) <= th).
  { intros i Hi. pose proof (theta_ge n j (fun i k => sa s (swapi j q i) (swapi j q k)) i Hi) as T.
    cbn beta in T. rewrite swapi_l in T. exact T. }
  assert (Hb2 : 0 < beta ^ 2) by nra.
  assert (HJ : 0 <= INR j) by apply pos_INR.
  assert (HJn : INR j <= INR (n - 1)) by (apply le_INR; lia).
  assert (HJb : INR j * beta ^ 2 <= INR (n - 1) * beta ^ 2) by (apply Rmult_le_compat_r; lra).
  assert (HJ0 : 0 <= INR j * beta ^ 2) by (apply Rmult_le_pos; lra).
  assert (Th0 : 0 <= th <= x + INR j * beta ^ 2).
  { apply theta_le; [lra|]. intros i Hi. rewrite swapi_l. apply Bb; [lia|apply Hsw; lia|]. intros Q. apply (Hne i Hi). auto. }
  assert (Hr1 : forall i, (j < i < n)%nat -> Rabs (sa s q (swapi j q i) / sqrt dj) <= beta).
  { intros i Hi. unfold Rdiv. rewrite Rabs_mult, (Rabs_right (/ sqrt dj)) by (apply Rle_ge; left; now apply Rinv_0_lt_compat).
    apply (Rmult_le_reg_r (sqrt dj)); [assumption|]. rewrite Rmult_assoc, Rinv_l, Rmult_1_r by lra.
    eapply Rle_trans; [apply Hth; exact Hi|].
    assert (T : (th / beta) ^ 2 <= dj).
    { rewrite Hdj. unfold pivot_value. eapply Rle_trans; [apply Rmax_r|apply Rmax_l]. }
    assert (T2 : th / beta <= sqrt dj).
    { rewrite <- (sqrt_pow2 (th / beta)); [now apply sqrt_le_1_alt|]. apply Rmult_le_pos; [lra|left; now apply Rinv_0_lt_compat]. }
    replace th with (beta * (th / beta)) by (field; lra). apply Rmult_le_compat_l; lra. }
  assert (HSj : INR (S j) * beta ^ 2 = INR j * beta ^ 2 + beta ^ 2) by (rewrite S_INR; ring).
  split.
  - intros m i Hm Hi. rewrite Hr by lia. destruct (Nat.eqb_spec m j) as [->|Hmj].
    + destruct (Nat.eqb_spec i j); [lia|]. destruct (Nat.ltb_spec j i); [|lia]. now apply Hr1.
    + apply O; [lia|]. unfold swapi. destruct (Nat.eqb_spec i j); [lia|]. destruct (Nat.eqb_spec i q); lia.
  - intros m Hm. rewrite Hr by lia. destruct (Nat.eqb_spec m j) as [->|Hmj].
    + replace (sqrt dj ^ 2) with (sqrt dj * sqrt dj) by ring. rewrite Hss.
      rewrite Hdj. apply Rmax_r.
    + rewrite swapi_o by lia. apply D. lia.
  - intros i Hi. rewrite Ha by lia. rewrite Nat.min_id, Nat.max_id, HSj.
    eapply Rle_trans; [apply Rabs_triang|]. rewrite Rabs_Ropp.
    pose proof (Ab (swapi j q i) (Hsw i ltac:(lia))). pose proof (Rabs_prod_le _ _ (Hr1 i ltac:(lia)) (Hr1 i ltac:(lia))). lra.
  - intros i k Hi Hk Hik. rewrite Ha by lia. rewrite HSj.
    eapply Rle_trans; [apply Rabs_triang|]. rewrite Rabs_Ropp.
    pose proof (Rabs_prod_le _ _ (Hr1 i ltac:(lia)) (Hr1 k ltac:(lia))).
    assert (Rabs (sa s (swapi j q (Nat.min i k)) (swapi j q (Nat.max i k))) <= x + INR j * beta ^ 2).
    { apply Bb; [apply Hsw; lia|apply Hsw; lia|]. intros Q. apply Hinj in Q. lia. }
    lra.
  - intros m Hm. rewrite He'. destruct (Nat.eqb_spec m j) as [->|Hmj]; [|apply E; lia].
    pose proof (Ab q ltac:(lia)) as Aq.
    assert (- sa s q q <= g + INR (n - 1) * beta ^ 2).
    { eapply Rle_trans; [|apply Rplus_le_compat_l, HJb]. eapply Rle_trans; [|exact Aq]. rewrite <- Rabs_Ropp. apply Rle_abs. }
    unfold top. assert (dj <= Rmax (Rmax (g + INR (n - 1) * beta ^ 2) (((x + INR (n - 1) * beta ^ 2) / beta) ^ 2)) delta); [|lra].
    rewrite Hdj. unfold pivot_value. apply Rmax_lub; [|apply Rmax_r]. eapply Rle_trans; [|apply Rmax_l]. apply Rmax_lub.
    + eapply Rle_trans; [|apply Rmax_l]. lra.
    + eapply Rle_trans; [|apply Rmax_r]. apply pow_incr. split.
      * apply Rmult_le_pos; [lra|left; now apply Rinv_0_lt_compat].
      * unfold Rdiv. apply Rmult_le_compat_r; [left; now apply Rinv_0_lt_compat|lra].
Qed.
End Step.

Lemma final_small : forall eps n A, 0 < eps -> sym n A ->
  let g := fst (gamma_xi n A) in let x := snd (gamma_xi n A) in
  small n (gmw_beta eps n g x) (gmw_delta eps g x) g x n (final eps n A).
Proof.
  intros eps n A He Hs g x. destruct (gamma_xi_spec n A) as ((G1 & _) & (G2 & _) & G3 & G4). fold g x in G1, G2, G3, G4.
  destruct (beta_ge eps n g x He) as [B1 _]. pose proof (delta_pos eps g x He) as D1.
  unfold final. fold g x. apply (range_inv _ (small n (gmw_beta eps n g x) (gmw_delta eps g x) g x)); [lia| |].
  - split; cbn [sa sr se]; try (intros; lia).
    + intros i Hi. cbn [INR]. rewrite Rmult_0_l, Rplus_0_r. apply G1. lia.
    + intros i k Hi Hk Hik. cbn [INR]. rewrite Rmult_0_l, Rplus_0_r.
      destruct (Nat.lt_ge_cases i k); [apply G2; lia|]. rewrite Hs by lia. apply G2; lia.
  - intros j s Hj Hsm. destruct (gmw_step_spec n j (gmw_beta eps n g x) (gmw_delta eps g x) s ltac:(lia)) as (q & dj & Hst).
    apply (small_step n _ _ g x B1 D1 G4 j s _ q dj ltac:(lia) Hst Hsm).
Qed.

(** Gill, Murray and Wright's bounds. *)
Lemma gmw_bounded : forall eps n A P L e, 0 < eps -> (2 <= n)%nat -> sym n A -> gmw_cholesky eps n A = (P, L, e) ->
  exists gamma xi, is_max_diag n A gamma /\ is_max_off n A xi /\
  let beta2 := Rmax (Rmax gamma (xi / sqrt (INR n ^ 2 - 1))) eps in let delta := eps * Rmax (gamma + xi) 1 in
  let grown := INR (n - 1) * beta2 in
  (forall i k, (k < i < n)%nat -> L i k ^ 2 <= beta2) /\ (forall i, (i < n)%nat -> delta <= L i i ^ 2) /\
  (forall j, (j < n)%nat -> e j <= Rmax (Rmax (gamma + grown) ((xi + grown) ^ 2 / beta2)) delta + (gamma + grown)).
Proof.
  intros eps n A P L e He Hn Hs E. rewrite gmw_final in E. injection E as <- <- <-.
  destruct (gamma_xi_spec n A) as (G1 & G2 & G3 & G4). pose proof (final_small eps n A He Hs) as [O D _ _ Ee].
  set (g := fst (gamma_xi n A)) in *. set (x := snd (gamma_xi n A)) in *. exists g, x. split; [exact G1|]. split; [exact G2|].
  cbn zeta. set (b2 := Rmax (Rmax g (x / sqrt (INR n ^ 2 - 1))) eps).
  assert (P2 : 0 < b2) by (eapply Rlt_le_trans; [exact He|apply Rmax_r]).
  assert (Eb : gmw_beta eps n g x = sqrt b2). { unfold gmw_beta. destruct (Nat.eqb_spec n 1); [lia|reflexivity]. }
  assert (Eb2 : gmw_beta eps n g x ^ 2 = b2). { rewrite Eb. cbn. rewrite Rmult_1_r. apply sqrt_sqrt. lra. }
  destruct (beta_ge eps n g x He) as [B1 _].
  split; [|split].
  - intros i k Hk. pose proof (O k i ltac:(lia) Hk) as H. unfold tr. rewrite <- Eb2, <- (pow2_abs (sr _ _ _)). apply pow_incr. split; [apply Rabs_pos|exact H].
  - intros i Hi. exact (D i Hi).
  - intros j Hj. pose proof (Ee j Hj) as H. unfold top in H. rewrite !Eb2 in H.
    replace ((x + INR (n - 1) * b2) ^ 2 / b2) with (((x + INR (n - 1) * b2) / gmw_beta eps n g x) ^ 2); [exact H|].
    rewrite <- Eb2 at 3. field. lra.
Qed.
