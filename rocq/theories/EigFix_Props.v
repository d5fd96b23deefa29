(** C27: eigenvalue repair of correlation matrices. *)
From Coq Require Import Reals Lra Lia Arith List.
From Verif Require Import Mat EigFix_Model EigFix_Spec EigFix_Proofs.
Import ListNotations.
Local Open Scope R_scope.

(** The external calls made for this matrix behave as documented. *)
Definition externals_ok (eigh : nat -> mat -> vec * mat) (inv : nat -> mat -> mat) (n : nat) (A : mat) : Prop :=
  let d := length (kept n A) in let B := block A (kept n A) in
  eigendecomposition d B (fst (eigh d B)) (snd (eigh d B)) /\ right_inverse d (snd (eigh d B)) (inv d (snd (eigh d B))).

(** The repaired matrix is symmetric and positive definite over the groups with
    positive diagonal. *)
Theorem C27_positive_definite : forall eigh inv n A R0, externals_ok eigh inv n A -> sym n A ->
  repaired eigh inv n A = Some R0 -> sym n R0 /\ exceeds n A R0 0.
Proof.
  intros eigh inv n A R0 [H1 H2] HA HR. split.
  - exact (repaired_sym eigh inv n A H1 H2 R0 HA HR).
  - exact (repaired_pd eigh inv n A H1 H2 R0 HR).
Qed.
Print Assumptions C27_positive_definite.

(** Rows and columns of the other groups are left as they were. *)
Theorem C27_untouched : forall eigh inv n A R0 i j, externals_ok eigh inv n A ->
  repaired eigh inv n A = Some R0 -> (i < n)%nat -> (j < n)%nat -> ~ used A i \/ ~ used A j -> R0 i j = A i j.
Proof. intros eigh inv n A R0 i j [H1 H2]. exact (repaired_untouched eigh inv n A H1 H2 R0 i j). Qed.
Print Assumptions C27_untouched.

(** A matrix whose used block exceeds 1e-8 in every direction is not changed. *)
Theorem C27_unchanged : forall eigh inv n A R0, externals_ok eigh inv n A -> exceeds n A A (/ 10 ^ 8) ->
  repaired eigh inv n A = Some R0 -> forall i j, (i < n)%nat -> (j < n)%nat -> R0 i j = A i j.
Proof.
  intros eigh inv n A R0 [H1 H2] HA. apply (repaired_unchanged eigh inv n A H1 H2).
  replace tiny with (/ 10 ^ 8); [exact HA|]. unfold tiny. f_equal. ring.
Qed.
Print Assumptions C27_unchanged.

(** The constructor raises exactly when no group has a positive diagonal. *)
Theorem C27_raises : forall eigh inv n A, externals_ok eigh inv n A ->
  (repaired eigh inv n A = None <-> forall i, (i < n)%nat -> ~ used A i).
Proof. intros eigh inv n A [H1 H2]. exact (repaired_raises eigh inv n A H1 H2). Qed.
Print Assumptions C27_raises.

(** The result is not a correlation matrix: whenever a matrix with unit diagonal
    is not positive definite, the repair leaves some diagonal entry above 1. *)
Theorem C27_unit_diagonal_refuted : forall eigh inv n A R0, externals_ok eigh inv n A ->
  repaired eigh inv n A = Some R0 -> (forall i, (i < n)%nat -> used A i -> A i i = 1) ->
  ~ exceeds n A A 0 -> exists i, (i < n)%nat /\ used A i /\ 1 < R0 i i.
Proof.
  intros eigh inv n A R0 [H1 H2] HR Hd Hn.
  apply (repaired_trace eigh inv n A H1 H2 R0 HR Hd).
  apply Classical_Prop.NNPP. intros Hno. apply Hn. intros x Hx Hne.
  apply Rnot_le_lt. intros Hle. apply Hno. exists x. split; [assumption|]. split; [assumption|]. lra.
Qed.
Print Assumptions C27_unit_diagonal_refuted.

(** Three groups, the middle one without data, the other two fully correlated. *)
Definition ex_A : mat := fun i j => nth j (nth i [[1; 0; 1]; [0; 0; 0]; [1; 0; 1]] []) 0.
Definition ex_w : vec := fun i => nth i [0; 2] 0.
Definition ex_P : mat := fun i j => / sqrt 2 * nth j (nth i [[1; 1]; [-1; 1]] []) 0.
Definition ex_eigh (d : nat) (B : mat) := (ex_w, ex_P).
Definition ex_inv (d : nat) (P : mat) := tr P.
Lemma ex_kept : kept 3 ex_A = [0; 2]%nat.
Proof.
  unfold kept, ex_A. cbn. destruct (Rlt_dec 0 1); [|lra]. destruct (Rlt_dec 0 0); [lra|]. reflexivity.
Qed.
Lemma ex_s : / sqrt 2 * / sqrt 2 = / 2.
Proof. rewrite <- Rinv_mult. now rewrite sqrt_sqrt by lra. Qed.
Example C27_hypotheses_met : sym 3 ex_A /\ externals_ok ex_eigh ex_inv 3 ex_A /\
  (exists R0, repaired ex_eigh ex_inv 3 ex_A = Some R0) /\
  (forall i, (i < 3)%nat -> used ex_A i -> ex_A i i = 1) /\ ~ exceeds 3 ex_A ex_A 0.
Proof.
  pose proof ex_s as Hs.
  assert (HE : externals_ok ex_eigh ex_inv 3 ex_A).
  { unfold externals_ok. rewrite ex_kept. cbn [length]. unfold ex_eigh, ex_inv. cbn [fst snd].
    split; [split; [|split]|]; intros i j Hi Hj;
      unfold mmul, tr, ex_P, block, ex_A, ex_w, meye, mdiag;
      do 2 (destruct i as [|i]; [do 2 (destruct j as [|j]; [cbn; nra|]); lia|]); lia. }
  split; [|split; [exact HE|split; [|split]]].
  - intros i j Hi Hj. unfold ex_A.
    do 3 (destruct i as [|i]; [do 3 (destruct j as [|j]; [reflexivity|]); lia|]); lia.
  - destruct (repaired ex_eigh ex_inv 3 ex_A) eqn:E; [eauto|].
    exfalso. apply (C27_raises _ _ _ _ HE) with (i := O) in E; [|lia]. apply E. unfold used, ex_A. cbn. lra.
  - intros i Hi Hu. unfold used, ex_A in *. do 3 (destruct i as [|i]; [cbn in *; lra|]). lia.
  - intros H. specialize (H (fun i => nth i [1; 0; -1] 0)).
    assert (0 * sq 3 (fun i => nth i [1; 0; -1] 0) < quad 3 ex_A (fun i => nth i [1; 0; -1] 0)).
    { apply H.
      - intros i Hi Hu. unfold used, ex_A in Hu. do 3 (destruct i as [|i]; [cbn in *; lra|]). lia.
      - exists O. split; [lia|cbn; lra]. }
    unfold quad, ex_A in H0. cbn in H0. lra.
Qed.
(** A block that exceeds the threshold: the 1 by 1 unit matrix. *)
Example C27_unchanged_hypotheses_met :
  externals_ok (fun _ _ => (fun _ => 1, meye)) (fun _ P => P) 1 meye /\ exceeds 1 meye meye (/ 10 ^ 8).
Proof.
  split.
  - unfold externals_ok. replace (kept 1 meye) with [O].
    + cbn [length fst snd]. split; [split; [|split]|]; intros i j Hi Hj; unfold mmul, tr, block, meye, mdiag;
      destruct i; try lia; destruct j; try lia; cbn; lra.
    + unfold kept, meye, mdiag. cbn. destruct (Rlt_dec 0 1); [reflexivity|lra].
  - intros x _ (i & Hi & Hne). destruct i; [|lia]. unfold sq, quad, meye, mdiag. cbn.
    assert (0 < x O * x O) by (apply Rsqr_pos_lt in Hne; exact Hne). lra.
Qed.
