(** Property theorems C08: the fission spectrum update. *)
From Verif Require Import Num Chi_Model Chi_Spec Chi_Proofs.
Local Open Scope Qc_scope.

(** On success every distribution is the requested one divided by one factor,
    its cdf ends at 1 and each step is accounted for; no negative value was asked for. *)
Theorem C08_renormalised : forall ds pdfs ds', all_fit ds pdfs -> set_chi ds pdfs = (ds', true) ->
  length pdfs = length ds /\ length ds' = length ds /\
  forall i d pdf, nth_error ds i = Some d -> nth_error pdfs i = Some pdf ->
    exists d', nth_error ds' i = Some d' /\ nonneg d pdf /\ renormalised d pdf d'.
Proof. exact set_chi_ok. Qed.
Print Assumptions C08_renormalised.

(** Right shapes, non-zero factors and no negative value always succeed. *)
Theorem C08_accepts : forall ds pdfs, ds <> [] -> length pdfs = length ds ->
  (forall i d pdf, nth_error ds i = Some d -> nth_error pdfs i = Some pdf -> fits d pdf /\ nonneg d pdf) ->
  snd (set_chi ds pdfs) = true.
Proof. exact set_chi_accepts. Qed.
Print Assumptions C08_accepts.

(** Setting the pdf already present on a normalised distribution: no change. *)
Theorem C08_same_pdf_noop : forall d,
  wf_dist d -> q (dc d) (length (dp d) - 1) = 1 -> (forall k, (k < length (dp d))%nat -> 0 <= q (dp d) k) ->
  dist_set d (dp d) = (d, true).
Proof. exact chi_noop. Qed.
Print Assumptions C08_same_pdf_noop.

(** Rejected before anything is written: wrong count, or wrong first length. *)
Theorem C08_rejects_upfront : forall ds pdfs,
  length pdfs <> length ds \/
  (exists d pdf, nth_error ds 0 = Some d /\ nth_error pdfs 0 = Some pdf /\ length pdf <> length (dx d)) ->
  set_chi ds pdfs = (ds, false).
Proof. exact set_chi_rejects. Qed.
Print Assumptions C08_rejects_upfront.

(** Otherwise an edit that raises stops at the first wrong length or negative value. *)
Theorem C08_stops : forall ds pdfs ds', ds <> [] -> length pdfs = length ds ->
  (forall i d pdf, nth_error ds i = Some d -> nth_error pdfs i = Some pdf -> usual d pdf) ->
  set_chi ds pdfs = (ds', false) -> length ds' = length ds /\ exists k, stopped ds pdfs ds' k.
Proof. exact set_chi_stops. Qed.
Print Assumptions C08_stops.

(** "An edit that raises changes nothing": a wrong length in a later distribution
    raises after earlier distributions were rewritten; *)
Theorem C08_rejects_atomically_refuted : exists ds pdfs,
  snd (set_chi ds pdfs) = false /\ fst (set_chi ds pdfs) <> ds.
Proof. exact set_chi_not_atomic. Qed.
Print Assumptions C08_rejects_atomically_refuted.

(** a negative value leaves the old pdf with a new cdf. *)
Theorem C08_negative_refuted : exists d pdf, fits d pdf /\ right_consistent d /\
  snd (set_chi [d] [pdf]) = false /\ exists d', fst (set_chi [d] [pdf]) = [d'] /\ dp d' = dp d /\ ~ right_consistent d'.
Proof.
  exists (mkDist [0; 1; qz 2] [0; qc 1 2; qc 1 2] [0; qc 1 2; 1]), [0; qz (-1); qz 3].
  split; [|split; [|split; [vm_compute; reflexivity|]]].
  - split; [split; [discriminate|split; reflexivity]|]. split; [reflexivity|]. intros H. apply (f_equal this) in H. vm_compute in H. discriminate.
  - intros k Hk. cbn in Hk. destruct k as [|[|k]]; [| |lia]; apply Qc_is_canon; vm_compute; reflexivity.
  - eexists. split; [vm_compute; reflexivity|]. split; [reflexivity|]. intros H. specialize (H 0%nat). cbn in H.
    assert (K : (1 < 3)%nat) by lia. apply H in K. apply (f_equal this) in K. vm_compute in K. discriminate.
Qed.
Print Assumptions C08_negative_refuted.

(** "Every wrong length is rejected": a single value for a later distribution is
    spread, and left as its whole pdf. *)
Theorem C08_wrong_length_refuted : exists ds pdfs ds', (forall d, In d ds -> wf_dist d) /\ set_chi ds pdfs = (ds', true) /\
  exists d', nth_error ds' 1 = Some d' /\ length (dp d') = 1%nat /\ length (dx d') = 3%nat.
Proof.
  exists [mkDist [0; 1; qz 2] [0; qc 1 2; qc 1 2] [0; qc 1 2; 1]; mkDist [0; 1; qz 2] [0; qc 1 2; qc 1 2] [0; qc 1 2; 1]], [[0; qc 1 2; qc 1 2]; [qz 3]].
  eexists. split; [intros d [<-|[<-|[]]]; (split; [discriminate|split; reflexivity])|]. split; [vm_compute; reflexivity|].
  eexists. split; [reflexivity|]. split; reflexivity.
Qed.
Print Assumptions C08_wrong_length_refuted.

(** Right-rectangle consistency is preserved, *)
Theorem C08_right_consistent : forall d pdf d', fits d pdf ->
  dist_set d pdf = (d', true) -> right_consistent d -> right_consistent d'.
Proof. exact chi_right_consistent. Qed.
Print Assumptions C08_right_consistent.

(** and then the cdf is non-decreasing. *)
Theorem C08_monotone : forall d pdf d', fits d pdf ->
  dist_set d pdf = (d', true) -> right_consistent d ->
  (forall k, (S k < length (dx d))%nat -> q (dx d) k <= q (dx d) (S k)) ->
  forall k, (S k < length (dc d'))%nat -> q (dc d') k <= q (dc d') (S k).
Proof. exact chi_monotone. Qed.
Print Assumptions C08_monotone.

(** The two interpolations an ACE file can declare are not preserved. *)
Theorem C08_histogram_consistency_refuted : exists d pdf d',
  wf_dist d /\ histogram_consistent d /\ q (dc d) (length (dp d) - 1) = 1 /\
  dist_set d pdf = (d', true) /\ ~ histogram_consistent d'.
Proof. exact chi_histogram_breaks. Qed.
Print Assumptions C08_histogram_consistency_refuted.

Theorem C08_linear_consistency_refuted : exists d pdf d',
  wf_dist d /\ linear_consistent d /\ q (dc d) (length (dp d) - 1) = 1 /\
  dist_set d pdf = (d', true) /\ ~ linear_consistent d'.
Proof. exact chi_linear_breaks. Qed.
Print Assumptions C08_linear_consistency_refuted.

(** Non-vacuity: two distributions, a changed pdf, a factor different from 1. *)
Definition ex_d : dist := mkDist [0; 1; qz 3] [0; qc 1 2; qc 1 4] [0; qc 1 2; 1].
Definition ex_pdfs : list (list Qc) := [[0; 1; qc 1 4]; [0; qc 1 2; 1]].
Lemma factor_ne d pdf : qeqb (factor d pdf) 0 = false -> factor d pdf <> 0.
Proof. apply qeqb_neq. Qed.
Example C08_hypotheses_met :
  wf_dist ex_d /\ q (dc ex_d) (length (dp ex_d) - 1) = 1 /\ right_consistent ex_d /\
  (forall i d pdf, nth_error [ex_d; ex_d] i = Some d -> nth_error ex_pdfs i = Some pdf -> fits d pdf /\ nonneg d pdf) /\
  snd (set_chi [ex_d; ex_d] ex_pdfs) = true /\
  this (factor ex_d [0; 1; qc 1 4]) = (3 # 2)%Q /\
  (exists d', dist_set ex_d [0; 1; qc 1 4] = (d', true) /\ map this (dc d') = [0; 2 # 3; 1]%Q).
Proof.
  assert (W : wf_dist ex_d) by (split; [discriminate|split; reflexivity]).
  split; [exact W|].
  split; [apply Qc_is_canon; vm_compute; reflexivity|].
  split; [intros k Hk; cbn in Hk; destruct k as [|[|k]]; [| |lia]; apply Qc_is_canon; vm_compute; reflexivity|].
  split; [|split; [vm_compute; reflexivity|]; split; [vm_compute; reflexivity|]].
  - intros [|[|[|i]]] d pdf; cbn; try discriminate; intros [= <-] [= <-]; (split; [split; [exact W|]; split; [reflexivity|]; apply factor_ne; vm_compute; reflexivity|]);
    apply negs_spec; [reflexivity | vm_compute; reflexivity | reflexivity | vm_compute; reflexivity].
  - eexists. split; [vm_compute; reflexivity|]. vm_compute. reflexivity.
Qed.
(** Edits that stop at the second distribution: by its length, by a negative value. *)
Example C08_stops_hypotheses_met : forall p, p = [0; 1] \/ p = [0; qz 2; qc (-1) 2] ->
  let pdfs := [[0; 1; qc 1 4]; p] in
  (forall i d pdf, nth_error [ex_d; ex_d] i = Some d -> nth_error pdfs i = Some pdf -> usual d pdf) /\
  snd (set_chi [ex_d; ex_d] pdfs) = false.
Proof.
  assert (W : wf_dist ex_d) by (split; [discriminate|split; reflexivity]).
  intros p [->| ->]; cbv zeta; (split; [|vm_compute; reflexivity]);
  intros [|[|[|i]]] d pdf; cbn; try discriminate; intros [= <-] [= <-]; (split; [exact W|]); (split; [cbn; lia|]); (split; [discriminate|]); intros L; try discriminate L; apply factor_ne; vm_compute; reflexivity.
Qed.
