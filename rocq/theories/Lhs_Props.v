(** C74: stratified draws. *)
From Verif Require Import Num XNum Text Sampler_Model Sampler_Spec Sampler_Proofs.
From Verif Require Import SampleCorr_Model SampleCorr_Spec SampleCorr_Proofs Lhs_Model Lhs_Spec Lhs_Proofs.
From Coq Require Import Sorting.Permutation.
Local Open Scope nat_scope.
Local Open Scope list_scope.

(** Correlating the draws does not disturb their distribution: in each sampled
    group exactly [j] of the [ns] values lie below the [j/ns] quantile; a group
    that is not sampled holds its mean. *)
Theorem C74_quantiles : forall latin x scores mean std dg ns distro d,
  let ln := eqt distro (str "lognormal") in
  fits mean std dg scores ns -> latin_contract latin -> ext_contract x -> dist_of distro = Some d ->
  exists out, sample_lhs latin x scores mean std dg ns distro = COk out /\ length out = length mean /\
    forall g, g < length mean ->
      (skipped mean std dg ln g -> nth g out [] = repeat (q mean g) ns) /\
      (~ skipped mean std dg ln g -> (d = LogNormal -> (0 < q mean g)%Qc) ->
       quantiles_met x d (q mean g) (q std g) ns (nth g out [])).
Proof.
  intros latin x scores mean std dg ns distro d ln Hf Hl Hx Hd.
  destruct (sample_lhs_groups latin x scores mean std dg ns distro d Hf Hl Hd) as (out & E & L & H).
  exists out. split; [exact E|]. split; [exact L|]. intros g Hg. destruct (H g Hg) as [A B].
  split; [exact A|]. intros Hs Hm. destruct (B Hs) as [k P].
  apply (draws_quantiles latin x d k); try assumption. eapply sampled_dev; exact Hs.
Qed.
Print Assumptions C74_quantiles.

(** A normal run with an even number of samples puts exactly half below the mean. *)
Theorem C74_half : forall latin x scores mean std dg j g,
  fits mean std dg scores (2 * j) -> latin_contract latin -> ext_contract x -> 0 < j -> g < length mean ->
  ~ skipped mean std dg false g ->
  exists out, sample_lhs latin x scores mean std dg (2 * j) (str "normal") = COk out /\
    length (nth g out []) = 2 * j /\ below (q mean g) (nth g out []) = j.
Proof.
  intros latin x scores mean std dg j g Hf Hl Hx Hj Hg Hs.
  destruct (C74_quantiles latin x scores mean std dg (2 * j) (str "normal") Normal Hf Hl Hx eq_refl) as (out & E & _ & H).
  exists out. split; [exact E|]. destruct (H g Hg) as [_ B].
  destruct (B Hs ltac:(discriminate)) as [L K]. split; [exact L|].
  specialize (K j Hj ltac:(lia)). destruct Hx as (_ & Z & _).
  assert (Eh : (qn j / qn (2 * j))%Qc = qc 1 2).
  { apply (mul_cancel (qn (2 * j))); [apply qn_pos; lia|]. rewrite mul_div_n by lia. rewrite qn_double.
    generalize (qn j). intros a. qclra. }
  rewrite Eh in K. cbn [quantile] in K. rewrite Z in K. replace (q mean g + q std g * 0)%Qc with (q mean g) in K by ring.
  exact K.
Qed.
Print Assumptions C74_half.

(** The uncorrelated normal sampler: every column meets the quantiles of its own
    mean and deviation. *)
Theorem C74_lhs_normal : forall latin x ns means devs,
  latin_contract latin -> ext_contract x ->
  length (lhs_normal_sample latin x ns means devs) = length means /\
  forall i, i < length means -> (0 < q devs i)%Qc ->
    quantiles_met x Normal (q means i) (q devs i) ns (nth i (lhs_normal_sample latin x ns means devs) []).
Proof.
  intros latin x ns means devs Hl Hx. unfold lhs_normal_sample, lhs_uniform_sample.
  split; [now rewrite map_length, seq_length|].
  intros i Hi Hs. rewrite (nth_map_lt _ _ i 0) by now rewrite seq_length. rewrite seq_nth by exact Hi. cbn [Nat.add].
  destruct (Hl 0 (length means) ns) as [_ K]. specialize (K i Hi). fold (q means i) (q devs i).
  split; [rewrite map_length; now apply strat_length|].
  intros j J0 J1. rewrite <- value_quantile.
  apply (strat_below ns _ (value_at x Normal (q means i) (q devs i)) j K J0 J1).
  apply value_incr; [exact Hx|exact Hs|discriminate].
Qed.
Print Assumptions C74_lhs_normal.

(** "Uniform samples scatter around the mean with the given deviation" fails for
    all data: every value of a sampled group lies strictly above the mean, less
    than one deviation away, and the average is half a deviation above the mean up
    to [std/(2 ns)]. *)
Theorem C74_uniform_refuted : forall latin x scores mean std dg ns distro g,
  fits mean std dg scores ns -> latin_contract latin -> 0 < ns -> lower distro = str "uniform" ->
  g < length mean -> ~ skipped mean std dg (eqt distro (str "lognormal")) g ->
  exists out, sample_lhs latin x scores mean std dg ns distro = COk out /\
    length (nth g out []) = ns /\
    (forall v, In v (nth g out []) -> (q mean g < v /\ v < q mean g + q std g)%Qc) /\
    (qn ns * (qz 2 * q mean g + q std g) - q std g <= qz 2 * qsum (nth g out []))%Qc /\
    (qz 2 * qsum (nth g out []) <= qn ns * (qz 2 * q mean g + q std g) + q std g)%Qc.
Proof.
  intros latin x scores mean std dg ns distro g Hf Hl N0 Hd Hg Hs.
  assert (Ed : dist_of distro = Some Uniform) by (unfold dist_of; rewrite Hd; reflexivity).
  destruct (sample_lhs_groups latin x scores mean std dg ns distro Uniform Hf Hl Ed) as (out & E & _ & H).
  exists out. split; [exact E|]. destruct (H g Hg) as [_ B]. destruct (B Hs) as [k P].
  destruct (uniform_values latin x k (q mean g) (q std g) ns _ Hl (sampled_dev _ _ _ _ _ Hs) N0 P) as [U V].
  split; [|split; [exact U|exact V]].
  rewrite (Permutation_length P). unfold draws, lhs_uniform_sample. rewrite map_length.
  apply strat_length. destruct (Hl k 1 ns) as [_ K]. apply K. lia.
Qed.
Print Assumptions C74_uniform_refuted.

(** The consequence for the written cross sections: with the type "uniform" and
    positive means every factor is at least one, above one where sampled, so no
    sample ever lowers a cross section.  All samples are kept. *)
Theorem C74_uniform_factors_refuted : forall latin x scores mean std dg st ns rb rn,
  lower st = str "uniform" -> fits mean std (dg true) (scores true) ns -> latin_contract latin -> 0 < ns ->
  (forall g, g < length mean -> (0 < q mean g)%Qc) ->
  exists rel full, sample_xsec_lhs latin x scores mean std dg st ns rb rn = SOk (rel, full) /\
    length (rows rel) = length mean /\ length (cols rel) = ns /\
    forall g j, g < length mean -> j < ns -> exists r, cell rel g j = Fin r /\ (1 <= r)%Qc /\
      (~ skipped mean std (dg true) false g -> (1 < r)%Qc).
Proof. exact uniform_cells. Qed.
Print Assumptions C74_uniform_factors_refuted.

(** Two groups, four samples; the second group has no deviation.  The external
    functions are rational stand-ins meeting the contracts. *)
Definition ex_strata (n : nat) : list Qc := rev (map (fun k => ((qn k + qc 1 2) / qn n)%Qc) (seq 0 n)).
Definition ex_latin (call nv n : nat) : list (list Qc) := repeat (ex_strata n) nv.
Definition ex_ext : ext :=
  {| z_of := fun p => (p - qc 1 2)%Qc; exp_of := fun a => a; mu_of := fun m s => m; sigma_of := fun m s => s |}.
Definition ex_m : list Qc := [qz 10; qz 5].
Definition ex_s : list Qc := [qz 2; qz 0].
Definition ex_d (c : bool) : list Qc := [qz 1; qz 1].
Definition ex_n (c : bool) (k : nat) : list (list Qc) := repeat [qz 3; qz 1; qz 2; qz 0] k.

Lemma ex_stratified n : stratified n (ex_strata n).
Proof.
  unfold ex_strata. split.
  - intros p Hp. apply in_rev in Hp. apply in_map_iff in Hp as (k & <- & Hk). apply in_seq in Hk.
    pose proof (qn_pos n ltac:(lia)) as Np. pose proof (mul_div_n n (qn k + qc 1 2)%Qc ltac:(lia)) as M.
    pose proof (qn_le 0 k ltac:(lia)) as K. change (qn 0) with 0%Qc in K. apply (mul_lt_l (qn n)); [exact Np|].
    rewrite M. assert ((0 < qc 1 2)%Qc) by reflexivity. qclra.
  - exists (map (fun k => ((qn k + qc 1 2) / qn n)%Qc) (seq 0 n)).
    split; [symmetry; apply Permutation_rev|]. split; [now rewrite map_length, seq_length|].
    intros k Hk. rewrite (nth_map_lt _ _ k 0) by now rewrite seq_length. rewrite seq_nth by exact Hk. cbn [Nat.add].
    rewrite mul_div_n by lia. rewrite qn_S. assert ((0 < qc 1 2)%Qc) by reflexivity.
    assert ((qc 1 2 < 1)%Qc) by reflexivity. split; qclra.
Qed.

Example C74_hypotheses_met :
  latin_contract ex_latin /\ ext_contract ex_ext /\
  (forall c, fits ex_m ex_s (ex_d c) (ex_n c) 4) /\
  ~ skipped ex_m ex_s (ex_d true) false 0 /\ skipped ex_m ex_s (ex_d true) false 1 /\
  (forall g, g < length ex_m -> (0 < q ex_m g)%Qc) /\
  match sample_lhs ex_latin ex_ext (ex_n true) ex_m ex_s (ex_d true) 4 (str "normal") with
  | COk out => map (map this) out =
      map (map this) [[qc 43 4; qc 39 4; qc 41 4; qc 37 4]; [qz 5; qz 5; qz 5; qz 5]]
  | CRaise _ => False
  end /\
  match sample_lhs ex_latin ex_ext (ex_n true) ex_m ex_s (ex_d true) 4 (str "uniform") with
  | COk out => map (map this) out =
      map (map this) [[qc 47 4; qc 43 4; qc 45 4; qc 41 4]; [qz 5; qz 5; qz 5; qz 5]]
  | CRaise _ => False
  end.
Proof.
  split; [|split; [|split; [|split; [|split; [|split; [|split; reflexivity]]]]]].
  - intros call nv n. split; [apply repeat_length|]. intros i Hi. unfold ex_latin.
    rewrite nth_indep with (d' := ex_strata n) by now rewrite repeat_length. rewrite nth_repeat. apply ex_stratified.
  - split; [cbn; intros; qclra|]. split; [apply Qc_is_canon; reflexivity|]. split; cbn; auto.
  - intros c. split; [reflexivity|]. split; [reflexivity|]. split; [discriminate|]. intros nv.
    split; [apply repeat_length|]. intros l Hl. apply repeat_spec in Hl. now subst l.
  - pose proof (mask_spec ex_m ex_s (ex_d true) false eq_refl eq_refl ltac:(discriminate)) as (om & E & H).
    vm_compute in E. injection E as <-. destruct H as (_ & _ & H). rewrite <- H by (cbn; lia). cbn. discriminate.
  - left. apply tinyb_iff. reflexivity.
  - intros [|[|g]] Hg; [reflexivity|reflexivity|cbn in Hg; lia].
Qed.
