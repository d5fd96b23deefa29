(** C21-C23: the modified Cholesky factorisation and its use. *)
From Coq Require Import Reals Lra Lia Arith Bool List.
Import ListNotations.
From Verif Require Import Mat CovCorr_Spec CovCorr_Proofs Gmw_Model Gmw_Spec Gmw_Proofs Gmw2_Proofs Gmw3_Proofs.
Local Open Scope R_scope.

(** ** C21 *)
Theorem C21_factorises : forall eps n A P L e, 0 < eps -> sym n A -> gmw_cholesky eps n A = (P, L, e) ->
  (exists p, perm_matrix n P p) /\ lower n L /\ (forall j, (j < n)%nat -> 0 <= e j) /\ factors n A P L e.
Proof. exact gmw_factors. Qed.
Print Assumptions C21_factorises.

(** Off the diagonal the product reproduces [A] exactly. *)
Theorem C21_offdiag_exact : forall eps n A P L e, 0 < eps -> sym n A -> gmw_cholesky eps n A = (P, L, e) ->
  forall i k, (i < n)%nat -> (k < n)%nat -> i <> k ->
  mmul n (mmul n P L) (tr (mmul n P L)) i k = A i k.
Proof.
  intros eps n A P L e He Hs E i k Hi Hk Hne.
  destruct (gmw_factors _ _ _ _ _ _ He Hs E) as ((p & Hp) & _ & _ & HF). rewrite HF by assumption.
  pose proof Hp as (P1 & P2 & P4 & P3).
  destruct (P4 i Hi) as (i' & Hi' & <-). destruct (P4 k Hk) as (k' & Hk' & <-).
  replace (mmul n (mmul n P (mdiag e)) (tr P) (p i') (p k')) with 0; [lra|].
  symmetry. unfold mmul at 1. apply sumn_0. intros m Hm. rewrite (perm_mul n P p) by assumption.
  unfold mdiag, tr. rewrite P3 by auto.
  destruct (Nat.eqb_spec i' m) as [->|]; [|lra].
  destruct (Nat.eqb_spec (p k') (p m)); [congruence|lra].
Qed.
Print Assumptions C21_offdiag_exact.

(** An indefinite input for which a real shift is needed. *)
Definition of_rows (l : list (list R)) : mat := fun i j => nth j (nth i l []) 0.
Definition ex_indef : mat := of_rows [[4; 2; 1]; [2; 6; 3]; [1; 3; -4/1000]].
Example C21_hypotheses_met : sym 3 ex_indef /\ ~ psd 3 ex_indef /\
  exists P L e, gmw_cholesky (/ 2 ^ 52) 3 ex_indef = (P, L, e) /\ exists j, (j < 3)%nat /\ 0 < e j.
Proof.
  assert (Hs : sym 3 ex_indef).
  { intros i j Hi Hj. destruct i as [|[|[|i]]]; destruct j as [|[|[|j]]]; try lia; reflexivity. }
  assert (Hn : ~ psd 3 ex_indef).
  { intros H. destruct (psd_minor 3 ex_indef 2 2 H Hs) as [H1 _]; try lia. cbn in H1. lra. }
  split; [assumption|split; [assumption|]].
  destruct (gmw_cholesky (/ 2 ^ 52) 3 ex_indef) as [[P L] e] eqn:E.
  exists P, L, e. split; [reflexivity|].
  assert (He : 0 < / 2 ^ 52) by (apply Rinv_0_lt_compat, pow_lt; lra).
  destruct (gmw_factors _ _ _ _ _ _ He Hs E) as ((p & Hp) & _ & Hnn & HF).
  pose proof Hp as (P1 & P2 & P4 & P3).
  destruct (P4 2%nat ltac:(lia)) as (k & Hk & Ek). exists k. split; [assumption|].
  pose proof (HF 2%nat 2%nat ltac:(lia) ltac:(lia)) as F.
  replace (mmul 3 (mmul 3 P (mdiag e)) (tr P) 2%nat 2%nat) with (e k) in F.
  - assert (0 <= mmul 3 (mmul 3 P L) (tr (mmul 3 P L)) 2%nat 2%nat).
    { unfold mmul at 1. apply sumn_nonneg. intros m _. unfold tr at 1. nra. }
    unfold ex_indef, of_rows in F. cbn [nth] in F. lra.
  - unfold mmul at 1. rewrite (sumn_single 3 k).
    + pose proof (perm_mul 3 P p (mdiag e) k k Hp Hk) as X. rewrite Ek in X. rewrite X.
      pose proof (P3 2%nat k ltac:(lia) Hk) as Y. rewrite Ek in Y. unfold mdiag, tr. rewrite Y, !Nat.eqb_refl. lra.
    + assumption.
    + intros m Hm Hne. pose proof (perm_mul 3 P p (mdiag e) k m Hp Hk) as X. rewrite Ek in X. rewrite X. unfold mdiag.
      destruct (Nat.eqb_spec k m); [congruence|lra].
Qed.

(** ** C22 *)
Theorem C22_psd_shift : forall eps n A P L e, 0 < eps -> sym n A -> psd n A ->
  gmw_cholesky eps n A = (P, L, e) ->
  exists gamma xi, is_max_diag n A gamma /\ is_max_off n A xi /\
  forall j, (j < n)%nat -> 0 <= e j <= eps * Rmax (gamma + xi) 1.
Proof.
  intros eps n A P L e He Hs Hp E. exists (fst (gamma_xi n A)), (snd (gamma_xi n A)).
  destruct (gamma_xi_spec n A) as (G1 & G2 & _ & _). split; [exact G1|split; [exact G2|]].
  intros j Hj. split; [eapply gmw_factors; eassumption|].
  rewrite gmw_final in E. injection E as <- <- <-.
  eapply Rle_trans; [apply (final_tail eps n A 0); auto; try lra|].
  - intros x. rewrite Rmult_0_l. apply Hp.
  - rewrite Rminus_0_r. apply Rmax_lub; [|apply Rle_refl].
    left. apply (delta_pos eps (fst (gamma_xi n A)) (snd (gamma_xi n A)) He).
Qed.
Print Assumptions C22_psd_shift.

(** When the smallest eigenvalue reaches that bound there is no shift and the
    factorisation is exact. *)
Theorem C22_no_shift : forall eps n A P L e gamma xi, 0 < eps -> sym n A ->
  is_max_diag n A gamma -> is_max_off n A xi ->
  bounded_below n A (eps * Rmax (gamma + xi) 1) ->
  gmw_cholesky eps n A = (P, L, e) ->
  (forall j, (j < n)%nat -> e j = 0) /\
  forall i k, (i < n)%nat -> (k < n)%nat -> mmul n (mmul n P L) (tr (mmul n P L)) i k = A i k.
Proof.
  intros eps n A P L e gamma xi He Hs Hg Hx Hb E.
  destruct (gamma_xi_spec n A) as (G1 & G2 & G3 & G4).
  assert (Eg : fst (gamma_xi n A) <= gamma /\ snd (gamma_xi n A) <= xi \/ n = 0%nat).
  { destruct n as [|n]; [now right|left]. split.
    - destruct G1 as [_ [->|(i & Hi & ->)]]; [|now apply Hg].
      eapply Rle_trans; [apply Rabs_pos|]. now apply (proj1 Hg 0%nat); lia.
    - destruct G2 as [_ [->|(i & j & Hi & Hj & ->)]]; [|now apply Hx].
      destruct Hx as [_ [->|(i & j & Hi & Hj & ->)]]; [lra|apply Rabs_pos]. }
  assert (He0 : forall j, (j < n)%nat -> e j = 0).
  { intros j Hj. destruct Eg as [[Eg Ex]|E0]; [|lia].
    apply Rle_antisym; [|eapply gmw_factors; eassumption].
    rewrite gmw_final in E. injection E as <- <- <-.
    set (d := gmw_delta eps (fst (gamma_xi n A)) (snd (gamma_xi n A))).
    pose proof (delta_pos eps (fst (gamma_xi n A)) (snd (gamma_xi n A)) He) as Hd. fold d in Hd.
    eapply Rle_trans; [apply (final_tail eps n A d); auto; try lra|].
    - intros y. eapply Rle_trans; [|apply Hb]. apply Rmult_le_compat_r; [apply sq_nonneg|].
      unfold d, gmw_delta. apply Rmult_le_compat_l; [lra|].
      apply Rmax_lub; [|apply Rmax_r]. eapply Rle_trans; [|apply Rmax_l]. lra.
    - fold d. unfold Rminus. rewrite Rplus_opp_r. rewrite Rmax_left; lra. }
  split; [exact He0|]. intros i k Hi Hk.
  destruct (gmw_factors _ _ _ _ _ _ He Hs E) as ((p & Hp) & _ & _ & HF). rewrite HF by assumption.
  replace (mmul n (mmul n P (mdiag e)) (tr P) i k) with 0; [lra|].
  symmetry. unfold mmul at 1. apply sumn_0. intros m Hm.
  replace (mmul n P (mdiag e) i m) with 0; [lra|].
  symmetry. unfold mmul. apply sumn_0. intros l Hl. unfold mdiag. destruct (Nat.eqb l m); [|lra]. rewrite He0 by assumption. lra.
Qed.
Print Assumptions C22_no_shift.

(** The bounds the method is made for, for any symmetric input. *)
Theorem C22_bounded : forall eps n A P L e, 0 < eps -> (2 <= n)%nat -> sym n A -> gmw_cholesky eps n A = (P, L, e) ->
  exists gamma xi, is_max_diag n A gamma /\ is_max_off n A xi /\
  let beta2 := Rmax (Rmax gamma (xi / sqrt (INR n ^ 2 - 1))) eps in let delta := eps * Rmax (gamma + xi) 1 in
  let grown := INR (n - 1) * beta2 in
  (forall i k, (k < i < n)%nat -> L i k ^ 2 <= beta2) /\ (forall i, (i < n)%nat -> delta <= L i i ^ 2) /\
  (forall j, (j < n)%nat -> e j <= Rmax (Rmax (gamma + grown) ((xi + grown) ^ 2 / beta2)) delta + (gamma + grown)).
Proof. exact gmw_bounded. Qed.
Print Assumptions C22_bounded.

(** A singular correlation matrix (variables 0 and 1 fully correlated). *)
Definition ex_sing : mat := of_rows [[1; 1; 0]; [1; 1; 0]; [0; 0; 1]].
Lemma ex_sing_corr : is_corr 3 ex_sing.
Proof.
  split.
  - intros i Hi. destruct i as [|[|[|i]]]; try lia; reflexivity.
  - intros i j Hi Hj. destruct i as [|[|[|i]]]; destruct j as [|[|[|j]]]; try lia; reflexivity.
  - intros x. unfold quad. cbn.
    pose proof (pow2_ge_0 (x 0%nat + x 1%nat)). pose proof (pow2_ge_0 (x 2%nat)). lra.
Qed.
Definition ex_corr2 : mat := fun i j => if Nat.eqb i j then 1 else 1/2.
Example C22_hypotheses_met :
  (sym 3 ex_sing /\ psd 3 ex_sing) /\
  (sym 2 ex_corr2 /\ is_max_diag 2 ex_corr2 1 /\ is_max_off 2 ex_corr2 (1/2) /\
   bounded_below 2 ex_corr2 (1/4 * Rmax (1 + 1/2) 1)).
Proof.
  split; [split; apply ex_sing_corr|]. split; [|split; [|split]].
  - intros i j _ _. unfold ex_corr2. now rewrite Nat.eqb_sym.
  - split.
    + intros i _. unfold ex_corr2. rewrite Nat.eqb_refl, Rabs_R1. lra.
    + right. exists 0%nat. split; [lia|]. unfold ex_corr2. cbn. now rewrite Rabs_R1.
  - split.
    + intros i j Hij _. unfold ex_corr2. destruct (Nat.eqb_spec i j); [lia|]. rewrite Rabs_right; lra.
    + right. exists 0%nat, 1%nat. split; [lia|split; [lia|]]. unfold ex_corr2. cbn. rewrite Rabs_right; lra.
  - intros x. rewrite Rmax_left by lra. unfold quad, sq, ex_corr2. cbn.
    pose proof (pow2_ge_0 (x 0%nat + x 1%nat)). pose proof (pow2_ge_0 (x 0%nat)). pose proof (pow2_ge_0 (x 1%nat)). lra.
Qed.

(** ** C23 *)
(** scipy's factor, when it exists, is a factor of the request. *)
Theorem C23_cholesky_induces : forall chol eps n corr C, cholesky_ok chol -> sym n corr ->
  chol n corr = Some C -> induces n (corr_factor chol eps n corr) corr.
Proof.
  intros chol eps n corr C Hok Hs E. pose proof (Hok n corr C Hs E) as H. unfold corr_factor. rewrite E.
  intros i j Hi Hj _. now apply H.
Qed.
Print Assumptions C23_cholesky_induces.

(** The fallback reproduces the correlations of rearranged variables. *)
Theorem C23_fallback_permutes : forall chol eps n corr, 0 < eps -> sym n corr -> chol n corr = None ->
  exists P p, perm_matrix n P p /\ forall i j, (i < n)%nat -> (j < n)%nat -> i <> j ->
    mmul n (tr (corr_factor chol eps n corr)) (corr_factor chol eps n corr) i j = corr (p i) (p j).
Proof.
  intros chol eps n corr He Hs E. destruct (final_inv eps n corr He Hs) as [p Hp].
  exists (sP (final eps n corr)), p. split; [apply Hp|]. intros i j Hi Hj Hne.
  unfold corr_factor. rewrite E, gmw_final.
  change (tr (tr (sr (final eps n corr)))) with (sr (final eps n corr)).
  rewrite (inv_gram n corr _ p Hp) by assumption. destruct (Nat.eqb_spec i j); [congruence|lra].
Qed.
Print Assumptions C23_fallback_permutes.

(** For unit-diagonal input the rearrangement is never trivial: the first
    variable is given the correlations of the last one. *)
Theorem C23_first_gets_last : forall chol eps n corr, 0 < eps -> (2 <= n)%nat -> sym n corr ->
  (forall i, (i < n)%nat -> corr i i = 1) -> chol n corr = None ->
  exists P p, perm_matrix n P p /\ p 0%nat = (n - 1)%nat /\
  forall j, (0 < j < n)%nat ->
    mmul n (tr (corr_factor chol eps n corr)) (corr_factor chol eps n corr) 0%nat j = corr (n - 1)%nat (p j).
Proof.
  intros chol eps n corr He Hn Hs H1 E. destruct (final_first eps n corr 1 He Hn Hs H1) as (p & Hp & Hp0).
  exists (sP (final eps n corr)), p. split; [apply Hp|split; [assumption|]]. intros j Hj.
  unfold corr_factor. rewrite E, gmw_final.
  change (tr (tr (sr (final eps n corr)))) with (sr (final eps n corr)).
  rewrite (inv_gram n corr _ p Hp) by lia. rewrite Hp0. destruct (Nat.eqb_spec 0 j); [lia|lra].
Qed.
Print Assumptions C23_first_gets_last.

(** So the claim that the factor induces the request fails. *)
Theorem C23_induces_refuted : forall chol eps, cholesky_ok chol -> 0 < eps ->
  exists n corr, is_corr n corr /\ ~ induces n (corr_factor chol eps n corr) corr.
Proof.
  intros chol eps Hok He. exists 3%nat, ex_sing. split; [apply ex_sing_corr|].
  destruct ex_sing_corr as [H1 Hs _].
  assert (E : chol 3%nat ex_sing = None).
  { destruct (chol 3%nat ex_sing) as [C|] eqn:E; [exfalso|reflexivity].
    destruct (Hok 3%nat ex_sing C Hs E) as (HG & HU & HD).
    pose proof (HG 0%nat 0%nat ltac:(lia) ltac:(lia)) as G00. pose proof (HG 0%nat 1%nat ltac:(lia) ltac:(lia)) as G01.
    pose proof (HG 1%nat 1%nat ltac:(lia) ltac:(lia)) as G11. unfold mmul, tr in *. cbn in *.
    rewrite !(HU 1%nat 0%nat), !(HU 2%nat 0%nat) in * by lia. rewrite !(HU 2%nat 1%nat) in * by lia.
    pose proof (HD 0%nat ltac:(lia)). pose proof (HD 1%nat ltac:(lia)).
    assert (C 0%nat 0%nat = 1) by nra. assert (C 0%nat 1%nat = 1) by nra. nra. }
  destruct (C23_first_gets_last chol eps 3 ex_sing He ltac:(lia) Hs H1 E) as (P & p & Hp & Hp0 & HG).
  intros Hind. pose proof (Hind 0%nat 1%nat ltac:(lia) ltac:(lia) ltac:(lia)) as H.
  rewrite HG in H by lia.
  destruct Hp as (P1 & P2 & _). pose proof (P1 1%nat ltac:(lia)) as Hp1.
  assert (p 1%nat <> 2)%nat. { intros Heq. assert (0 = 1)%nat by (apply P2; lia). lia. }
  destruct (p 1%nat) as [|[|[|k]]]; cbn in H; try lia; lra.
Qed.
Print Assumptions C23_induces_refuted.

(** Keeping the permutation would repair it. *)
Theorem C23_with_permutation_induces : forall eps n corr P L e, 0 < eps -> sym n corr ->
  gmw_cholesky eps n corr = (P, L, e) -> induces n (tr (mmul n P L)) corr.
Proof. intros eps n corr P L e He Hs E i j Hi Hj Hne. exact (C21_offdiag_exact eps n corr P L e He Hs E i j Hi Hj Hne). Qed.
Print Assumptions C23_with_permutation_induces.

Example C23_hypotheses_met :
  (cholesky_ok (fun n A => if Nat.eqb n 1 then if Rlt_dec 0 (A 0 0)%nat then Some (fun _ _ => sqrt (A 0 0)%nat) else None else None)) /\
  sym 3 ex_sing /\ (forall i, (i < 3)%nat -> ex_sing i i = 1).
Proof.
  split; [|split; apply ex_sing_corr].
  intros n A C Hs E. destruct (Nat.eqb_spec n 1) as [->|]; [|discriminate].
  destruct (Rlt_dec 0 (A 0%nat 0%nat)); [|discriminate]. injection E as <-. split; [|split].
  - intros i j Hi Hj. replace i with 0%nat by lia. replace j with 0%nat by lia. unfold mmul, tr. cbn.
    rewrite sqrt_sqrt by lra. lra.
  - intros; lia.
  - intros. now apply sqrt_lt_R0.
Qed.
