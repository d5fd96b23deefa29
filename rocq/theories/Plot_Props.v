(** C68: the plots of a sampled reaction. *)
From Verif Require Import Num Chi_Model AceEdit_Model AceEdit_Spec MapGroups_Model MapGroups_Spec MapGroups_Proofs Samp_Model Samp_Spec Samp_Props AceRead_Proofs Plot_Model Plot_Spec Plot_Proofs.
From Coq Require Import ZArith Lia.
Local Open Scope nat_scope.

(** Variances: inside each group the squared standard deviation of the store and the
    variance of the samples, from the top down to half the lowest upper bound. *)
Theorem C68_variances : forall rs samples c1 c2, chained rs -> length samples = length rs -> covariance_figure rs samples = Some (c1, c2) ->
  forall i x r v, inside rs i x -> nth_error rs i = Some r -> nth_error samples i = Some v -> (S i = length rs -> (high r / qz 2 < x)%Qc) -> 2 <= length v ->
  (forall y, step_shown c1 x y <-> y = (sd r * sd r)%Qc) /\
  (forall y, step_shown c2 x (Some y) <-> (y * qz (Z.of_nat (length v) - 1))%Qc = scatter v).
Proof.
  intros rs samples c1 c2 CH L H i x r v I Er Ev Hx Lv. unfold covariance_figure, step_energies, step_values in H.
  destruct (snoc_cases rs) as [->|(l & w & El)]; [destruct CH; congruence|]. assert (Fr : final rs = Some w) by (rewrite El; apply final_snoc).
  assert (F1 : final (map high rs) = Some (high w)) by (rewrite El, map_app; apply final_snoc). rewrite F1 in H.
  assert (F2 : final (variances rs) = Some (sd w * sd w)%Qc) by (unfold variances; rewrite El, map_app; apply (final_snoc _ (sd w * sd w)%Qc)). rewrite F2 in H.
  destruct (final (map variance samples)) as [z|] eqn:F3; [|discriminate]. inversion H; subst c1 c2; clear H.
  assert (Hb : forall r, final rs = Some r -> (high w / qz 2 < high r)%Qc) by (intros q Q; rewrite Fr in Q; inversion Q; subst q; pose proof (halves (high w)); assert (Ew : nth_error rs (length l) = Some w) by (rewrite El, nth_error_app2, Nat.sub_diag by lia; reflexivity); destruct CH as (_ & B & _); destruct (B _ _ Ew); qclra).
  assert (Hy : S i = length rs -> (high w / qz 2 < x)%Qc). { intros E. assert (r = w) by (rewrite El in Er, E; rewrite app_length in E; cbn in E; rewrite nth_error_app2 in Er by lia; replace (i - length l) with 0 in Er by lia; cbn in Er; congruence). subst r. now apply Hx. }
  split; intros y.
  - rewrite (steps rs CH (variances rs) (high w / qz 2)%Qc (sd w * sd w)%Qc) with (i := i); [|unfold variances; now rewrite map_length|exact Hb|exact F2|exact I|exact Hy].
    unfold variances. rewrite (map_nth_error _ _ _ Er). split; [intros E; now inversion E|congruence].
  - rewrite (steps rs CH (map variance samples) (high w / qz 2)%Qc z) with (i := i); [|now rewrite map_length|exact Hb|exact F3|exact I|exact Hy].
    rewrite (map_nth_error _ _ _ Ev). unfold variance. cbv zeta. rewrite (proj2 (Z.leb_gt _ _)) by lia. fold (mean v). fold (scatter v).
    assert (N0 : qz (Z.of_nat (length v) - 1) <> 0%Qc) by (apply qz_nonzero; lia).
    split; intros E.
    + assert (y = (scatter v / qz (Z.of_nat (length v) - 1))%Qc) as -> by congruence. field. exact N0.
    + f_equal. f_equal. rewrite <- E. field. exact N0.
Qed.
Print Assumptions C68_variances.

(** The correlation plots: inside the groups [i] (across) and [j] (up) the correlation of
    the two in the store, and of the samples; 0 if one of them was not sampled. *)
Theorem C68_correlations : forall widest rs corr coef es m1 m2 col, chained rs -> correlation_figure false widest rs corr coef = Some (es, m1, m2, col) ->
  forall i j x y, inside rs i x -> inside rs j y -> (hd 0%Qc es < x)%Qc -> (hd 0%Qc es < y)%Qc ->
  (forall v, cell_shown es m1 x y v <-> corr j i = v) /\
  (forall v, corr i i <> Some 0%Qc -> corr j j <> Some 0%Qc -> coef j i = Some v -> cell_shown es m2 x y (Some v)) /\
  (corr i i = Some 0%Qc \/ corr j j = Some 0%Qc \/ coef j i = None -> forall v, cell_shown es m2 x y v <-> v = Some 0%Qc).
Proof.
  intros widest rs corr coef es m1 m2 col CH H i j x y Ix Iy Hx Hy. unfold correlation_figure in H. destruct (edges rs) as [es'|] eqn:E; [|discriminate]. cbn [option_map] in H. inversion H; subst es' m1 m2; clear H.
  assert (Un : forall k, match corr k k with Some v => qeqb v 0%Qc | None => false end = true <-> corr k k = Some 0%Qc).
  { intros k. destruct (corr k k) as [v|]; [rewrite qeqb_eq|]; split; try congruence. }
  split; [intros v; exact (cells rs CH es corr i j x y v E Ix Iy Hx Hy)|]. split.
  - intros v Ni Nj Ev. apply (cells rs CH es _ i j x y _ E Ix Iy Hx Hy). unfold second. rewrite <- (Un i) in Ni. rewrite <- (Un j) in Nj. apply not_true_is_false in Ni, Nj. rewrite Ni, Nj. cbn. now rewrite Ev.
  - intros C v. rewrite (cells rs CH es _ i j x y v E Ix Iy Hx Hy). unfold second. destruct C as [C|[C|C]].
    + rewrite (proj2 (Un i) C), orb_true_r. split; congruence.
    + rewrite (proj2 (Un j) C). split; cbn; congruence.
    + rewrite C. destruct (_ || _); split; congruence.
Qed.
Print Assumptions C68_correlations.
(** Asked for differences, the second plot shows how far the two correlations are apart. *)
Theorem C68_difference : forall widest rs corr coef es m1 m2 col, chained rs -> correlation_figure true widest rs corr coef = Some (es, m1, m2, col) ->
  forall i j x y a b, inside rs i x -> inside rs j y -> (hd 0%Qc es < x)%Qc -> (hd 0%Qc es < y)%Qc -> corr j i = Some a -> coef j i = Some b ->
  cell_shown es m1 x y (Some a) /\ forall v, cell_shown es m2 x y v <-> (v = Some (b - a)%Qc /\ (a <= b)%Qc) \/ (v = Some (a - b)%Qc /\ (b <= a)%Qc).
Proof.
  intros widest rs corr coef es m1 m2 col CH H i j x y a b Ix Iy Hx Hy Ea Eb. unfold correlation_figure in H. destruct (edges rs) as [es'|] eqn:E; [|discriminate]. cbn [option_map] in H. inversion H; subst es' m1 m2; clear H.
  split; [now apply (cells rs CH es corr i j x y _ E Ix Iy Hx Hy)|]. intros v. rewrite (cells rs CH es _ i j x y v E Ix Iy Hx Hy). unfold second. rewrite Ea, Eb.
  destruct (qabs_spec (b - a)) as [[K ->]|[K ->]]; split.
  - intros <-. left. split; [reflexivity|qclra].
  - intros [[-> _]|[-> Q]]; [reflexivity|]. assert (a = b) as -> by (apply Qcle_antisym; qclra). reflexivity.
  - intros <-. right. split; [f_equal; ring|qclra].
  - intros [[-> Q]|[-> _]]; [|f_equal; ring]. exfalso. qclra.
Qed.
Print Assumptions C68_difference.
(** The edges are all positive (the axes are logarithmic); the lowest is the lower bound of
    the last group unless that is 0. *)
Theorem C68_edges : forall rs es r, chained rs -> edges rs = Some es -> final rs = Some r ->
  (forall e, In e es -> (0 < e)%Qc) /\ ((0 < low r)%Qc -> hd 0%Qc es = low r) /\ length es = S (length rs).
Proof.
  intros rs es r CH H F. destruct (edge_place rs CH es H) as (e & -> & He). destruct (He r F) as (_ & _ & H1 & H2). split; [|split].
  - intros q I. apply in_rev in I. apply in_app_iff in I. destruct I as [I|[<-|[]]]; [|exact H2]. apply in_map_iff in I. destruct I as (s & <- & I). apply In_nth_error in I. destruct I as (i & I). destruct CH as (_ & B & _). destruct (B i s I). qclra.
  - intros L. rewrite rev_app_distr. cbn. now apply H1.
  - rewrite rev_length, app_length, map_length. cbn. lia.
Qed.
Print Assumptions C68_edges.
(** With the widest range of colours every value shown has its own colour. *)
Theorem C68_colours : forall rs corr coef es m1 m2 col, rs <> [] -> correlation_figure false true rs corr coef = Some (es, m1, m2, col) ->
  (forall i j v, i < length rs -> j < length rs -> corr i j = Some v -> (qz (-1) <= v /\ v <= qz 1)%Qc) ->
  forall i j v, i < length rs -> j < length rs -> m1 i j = Some v \/ m2 i j = Some v -> in_range col v.
Proof.
  intros rs corr coef es m1 m2 col NE H B i j v Hi Hj HV. unfold correlation_figure in H. destruct (edges rs) as [es'|]; [|discriminate]. cbn [option_map] in H. inversion H; subst m1 m2 col; clear H.
  apply (colours_cover _ _ _ (length rs - 1 - i) (length rs - 1 - j)); [lia|apply second_finite|lia|lia|]. destruct HV as [E|E]; [left|right; exact E]. unfold flipped in E. split; [exact E|]. apply (B (length rs - 1 - i) (length rs - 1 - j)); [lia|lia|exact E].
Qed.
Print Assumptions C68_colours.

(** Cross sections: as many curves as there are samples, ten at most; each is the base curve
    times the factors of the groups. *)
Theorem C68_samples : forall t mt rs cols es ys lo vs, data_of t mt = Some (es, ys) -> length ys = length es -> ~ In lo es ->
  Forall2 (fun c v => good_groups (factors_of rs c) lo v) cols vs ->
  exists cs, sample_curves t mt rs cols = Some (points es ys, cs) /\ length cs = Nat.min (length cols) 10 /\
    forall k c, nth_error cs k = Some c -> exists col v pdf, nth_error cols k = Some col /\ nth_error vs k = Some v /\ c = points es pdf /\ scaled_pdf (factors_of rs col) lo v (mkDist es ys []) pdf.
Proof. exact curves. Qed.
Print Assumptions C68_samples.
(** The base curve of a reaction is that of the file, if no energy is within tolerance of an
    end. *)
Theorem C68_base : forall t mt rx, mt <> 452%Z -> mt <> 1018%Z -> lookup mt (reactions t) = Some rx -> tx rx <> [] -> length (ty rx) = length (tx rx) -> increasing (tx rx) -> ends_separated (tx rx) ->
  data_of t mt = Some (tx rx, ty rx).
Proof. exact data_reaction. Qed.
Print Assumptions C68_base.
(** The curve of a sample is what its file holds, where the cross section is not 0. *)
Theorem C68_same_as_file : forall t mt rs cols vs lo rx cs k c rq s v col, wf_table t -> mt <> 452%Z -> mt <> 1018%Z -> lookup mt (reactions t) = Some rx -> increasing (tx rx) -> ends_separated (tx rx) -> ~ In lo (tx rx) ->
  Forall2 (fun c v => good_groups (factors_of rs c) lo v) cols vs -> sample_curves t mt rs cols = Some cs -> nth_error (snd cs) k = Some c -> nth_error cols k = Some col -> nth_error vs k = Some v ->
  NoDup (map rq_mt rq) -> In (mkReq mt (map high rs) (map low rs) col) rq -> alone t rq (mkReq mt (map high rs) (map low rs) col) -> sample_file t rq = Some s ->
  exists ys, get_sigma s mt None false = Some ys /\ length ys = length (tx rx) /\ length c = length (tx rx) /\
    forall i, i < length (tx rx) -> nth i (ty rx) 0%Qc <> 0%Qc -> nth_error c i = Some (nth i (tx rx) 0%Qc, nth i ys 0%Qc).
Proof.
  intros t mt rs cols vs lo rx cs k c rq s v col W N1 N2 Lk Inc Sep Nlo F Hc Hk Hcol Hv ND Ir Al Sf.
  assert (In0 : In (mt, rx) (reactions t)). { clear - Lk. induction (reactions t) as [|(a, b) l IH]; cbn in Lk; [discriminate|]. destruct (Z.eqb_spec mt a) as [->|_]; [inversion Lk; now left|right; auto]. }
  destruct (proj2 W mt rx In0) as (_ & _ & NE & Le). pose proof (data_reaction t mt rx N1 N2 Lk NE Le Inc Sep) as D. destruct (curves t mt rs cols (tx rx) (ty rx) lo vs D Le Nlo F) as (cs' & E & _ & P). rewrite E in Hc. inversion Hc; subst cs; clear Hc. cbn [snd] in Hk.
  destruct (P k c Hk) as (col' & v' & pdf & E1 & E2 & -> & (Lp & Vp)). assert (col' = col) by congruence. assert (v' = v) by congruence. subst col' v'. cbn [dx dp] in Lp, Vp.
  assert (G : good_groups (factors_of rs col) lo v). { clear - F Hcol Hv. revert k Hcol Hv. induction F as [|a b cols vs G F IH]; intros [|k] H1 H2; cbn in *; try discriminate; [congruence|eauto]. }
  destruct (C57_values t rq s (mkReq mt (map high rs) (map low rs) col) rx lo v W ND Sf Ir Al N2) as (ys & _ & Gs & Ls & Vs); [unfold rdata; cbn; rewrite (proj2 (Z.eqb_neq _ _) N1); exact Lk|exact Le|exact G|exact Nlo|]. cbn [rq_mt] in Gs.
  exists ys. split; [exact Gs|]. split; [exact Ls|]. split; [unfold points; rewrite combine_length; lia|]. intros i Hi Ny. destruct (Vp i Hi) as (f & R & Ep). destruct (Vs i Hi) as (f' & R' & V1 & _). cbn [rq_high] in R, R'.
  unfold factors_of in R. cbn [rq_high] in R. destruct G as (G1 & G2 & G3 & _). cbn [rq_high factors_of] in G1, G2, G3.
  assert (f = f') as -> by (apply (factor_one _ v lo (nth i (tx rx) 0%Qc) f f' G1 G2 G3); [intros Q; apply Nlo; rewrite <- Q; now apply nth_In|exact R|exact R']).
  unfold points. apply nth_combine. split; [now apply nth_error_nth'|]. rewrite (V1 Ny), <- Ep. apply nth_error_nth'. lia.
Qed.
Print Assumptions C68_same_as_file.

(** Relative deviations in percent, from the top down to the first energy of the reaction;
    the last group is left out if the reaction starts above it. *)
Theorem C68_deviations : forall rs e0 c last_row, chained rs -> deviations rs e0 = Some c -> final rs = Some last_row ->
  ((e0 < high last_row)%Qc -> forall i x r, inside rs i x -> nth_error rs i = Some r -> (S i = length rs -> (e0 < x)%Qc) -> forall y, step_shown c x y <-> y = (rel r * qz 100)%Qc) /\
  ((high last_row <= e0)%Qc -> forall x y, inside rs (length rs - 1) x -> ~ step_shown c x y).
Proof.
  intros rs e0 c w CH D F. split.
  - intros He i x r I Er Hx y. unfold deviations in D. destruct (snoc_cases rs) as [->|(l & v & El)]; [discriminate|]. assert (v = w) by (rewrite El, final_snoc in F; now inversion F). subst v.
    assert (F1 : final (map high rs) = Some (high w)) by (rewrite El, map_app; apply final_snoc). assert (F2 : final (map (fun q => rel q * qz 100)%Qc rs) = Some (rel w * qz 100)%Qc) by (rewrite El, map_app; apply (final_snoc _ (rel w * qz 100)%Qc)).
    rewrite F1, F2, (proj2 (qltb_lt _ _) He) in D. inversion D; subst c.
    rewrite (steps rs CH (map (fun q => rel q * qz 100)%Qc rs) e0 (rel w * qz 100)%Qc) with (i := i); [|now rewrite map_length|intros q Q; rewrite F in Q; inversion Q; subst q; exact He|exact F2|exact I|exact Hx].
    rewrite (map_nth_error _ _ _ Er). split; [intros E; now inversion E|congruence].
  - intros He x y I. exact (undrawn rs e0 c x y w CH D F He I).
Qed.
Print Assumptions C68_deviations.
(** The scale of the cross sections is logarithmic exactly if they span more than three
    decades; no plot is made if all are 0. *)
Theorem C68_log : forall ys, (forall y, In y ys -> (0 <= y)%Qc) ->
  ((exists b, log_values ys = Some b) <-> exists y, In y ys /\ y <> 0%Qc) /\
  (log_values ys = Some true <-> exists a b, In a ys /\ In b ys /\ (0 < b)%Qc /\ (qz 1000 * b < a)%Qc).
Proof.
  intros ys P. unfold log_values. set (l := filter _ ys). assert (Il : forall y, In y l <-> In y ys /\ y <> 0%Qc).
  { intros y. unfold l. rewrite filter_In. assert (negb (qeqb y 0%Qc) = true <-> y <> 0%Qc); [|tauto]. destruct (qeqb y 0%Qc) eqn:Q; cbn; [apply qeqb_eq in Q; split; [discriminate|contradiction]|]. split; [intros _ E; rewrite E in Q; discriminate Q|reflexivity]. }
  assert (Pl : forall y, In y l -> (0 < y)%Qc) by (intros y I; apply Il in I; destruct I as [I N]; specialize (P y I); apply Qcnot_le_lt; intros K; apply N; now apply Qcle_antisym).
  destruct (list_max l) as [a|] eqn:Ea; destruct (list_min l) as [b|] eqn:Eb.
  - destruct (list_max_spec l a Ea) as [Ia Ba]. destruct (list_min_spec l b Eb) as [Ib Bb]. pose proof (Pl b Ib) as Pb. split; [split; [intros _; exists a; now apply Il|eauto]|].
    assert (Q : forall u v, (0 < v)%Qc -> ((qz 1000 < u / v)%Qc <-> (qz 1000 * v < u)%Qc)).
    { intros u v Pv. assert (E : (u / v * v)%Qc = u) by (field; intros K; rewrite K in Pv; discriminate Pv). split; intros K.
      - rewrite <- E. apply Qcmult_lt_compat_r; assumption.
      - apply Qcnot_le_lt. intros K2. apply (Qcmult_le_compat_r _ _ v) in K2; [|now apply Qclt_le_weak]. rewrite E in K2. qclra. }
    split.
    + intros H. exists a, b. apply Il in Ia. destruct Ia as [Ia _]. pose proof (proj1 (Il b) Ib) as [Ib' _]. split; [exact Ia|]. split; [exact Ib'|]. split; [exact Pb|]. apply Q; [exact Pb|]. apply qltb_lt. congruence.
    + intros (u & v & Iu & Iv & Pv & K). f_equal. apply qltb_lt. apply Q; [exact Pb|]. assert (Il1 : In u l) by (apply Il; split; [exact Iu|intros E; rewrite E in K; qclra]). assert (Il2 : In v l) by (apply Il; split; [exact Iv|intros E; rewrite E in Pv; discriminate Pv]).
      specialize (Ba u Il1). specialize (Bb v Il2). qclra.
  - apply list_min_nil in Eb. rewrite Eb in Ea. discriminate.
  - apply list_max_nil in Ea. rewrite Ea in Eb. discriminate.
  - apply list_max_nil in Ea. split; split; try discriminate.
    + intros (q & H). discriminate.
    + intros (y & I & N). assert (In y l) by now apply Il. rewrite Ea in H. destruct H.
    + intros (u & v & Iu & Iv & Pv & K). assert (H : In v l) by (apply Il; split; [exact Iv|intros E; rewrite E in Pv; discriminate Pv]). rewrite Ea in H. destruct H.
Qed.
Print Assumptions C68_log.

(** ** A case *)
Definition ex_rs : list row := [mkRow (qz 10) (qz 100) (qz 2) (qc 1 10); mkRow (qz 1) (qz 10) (qz 3) (qc 1 5)].
Lemma ex_chained : chained ex_rs.
Proof.
  split; [discriminate|]. split.
  - intros [|[|i]] r H; cbn in H; [| |destruct i; discriminate]; inversion H; subst r; cbn; split; qclra.
  - intros [|[|i]] r s H1 H2; cbn in H1, H2; [|discriminate|destruct i; discriminate]. inversion H1; inversion H2; reflexivity.
Qed.
Definition ex_samples : list (list Qc) := [[qz 1; qz 2; qz 6]; [qz 3; qz 5; qz 7]].
Definition ex_corr : matrix := fun i j => Some (if i =? j then qz 1 else qc 1 2).
Definition ex_coef : matrix := fun i j => Some (if i =? j then qz 1 else qc 9 10).
Example C68_variances_hypotheses_met : chained ex_rs /\ length ex_samples = length ex_rs /\ (exists c1 c2, covariance_figure ex_rs ex_samples = Some (c1, c2)) /\
  inside ex_rs 0 (qz 50) /\ inside ex_rs 1 (qz 7) /\ (qz 10 / qz 2 < qz 7)%Qc /\ map this (map scatter ex_samples) = map this [qz 14; qz 8].
Proof.
  split; [exact ex_chained|]. split; [reflexivity|]. split; [eexists; eexists; vm_compute; reflexivity|]. split; [eexists; split; [reflexivity|cbn; split; qclra]|]. split; [eexists; split; [reflexivity|cbn; split; qclra]|].
  split; [apply qltb_lt; reflexivity|reflexivity].
Qed.
Example C68_correlations_hypotheses_met : chained ex_rs /\ (exists es m1 m2 col, correlation_figure false true ex_rs ex_corr ex_coef = Some (es, m1, m2, col) /\ hd 0%Qc es = qz 1) /\
  inside ex_rs 0 (qz 50) /\ inside ex_rs 1 (qz 7) /\ final ex_rs = Some (mkRow (qz 1) (qz 10) (qz 3) (qc 1 5)) /\ (forall i j v, i < 2 -> j < 2 -> ex_corr i j = Some v -> (qz (-1) <= v /\ v <= qz 1)%Qc).
Proof.
  split; [exact ex_chained|]. split; [eexists; eexists; eexists; eexists; split; reflexivity|]. split; [eexists; split; [reflexivity|cbn; split; qclra]|]. split; [eexists; split; [reflexivity|cbn; split; qclra]|]. split; [reflexivity|].
  intros i j v _ _ E. unfold ex_corr in E. destruct (i =? j); inversion E; subst v; split; apply qleb_le; reflexivity.
Qed.
Example C68_difference_hypotheses_met : chained ex_rs /\ (exists es m1 m2 col, correlation_figure true true ex_rs ex_corr ex_coef = Some (es, m1, m2, col) /\ hd 0%Qc es = qz 1) /\
  inside ex_rs 0 (qz 50) /\ inside ex_rs 1 (qz 7) /\ ex_corr 1 0 = Some (qc 1 2) /\ ex_coef 1 0 = Some (qc 9 10).
Proof. split; [exact ex_chained|]. split; [eexists; eexists; eexists; eexists; split; reflexivity|]. split; [eexists; split; [reflexivity|cbn; split; qclra]|]. split; [eexists; split; [reflexivity|cbn; split; qclra]|]. split; reflexivity. Qed.
(** Capture, 0 at the first energy. *)
Definition ex_rx : tab := mkTab [qz 2; qz 20; qz 50] [qz 0; qz 5; qz 6].
Definition ex_t : table := mkTable [(102%Z, ex_rx)] None None.
Definition ex_v (g : nat) : Qc := match g with 1 => qc 11 10 | _ => qz 2 end.
Definition ex_col (z : Z) : option Qc := if (z =? 1)%Z then Some (qc 11 10) else if (z =? 2)%Z then Some (qz 2) else None.
Definition ex_rq : request := mkReq 102 (map high ex_rs) (map low ex_rs) ex_col.
Lemma ex_groups : good_groups (factors_of ex_rs ex_col) (qz 1) ex_v.
Proof.
  split; [discriminate|]. split; [cbn; split; [reflexivity|exact I]|]. split; [reflexivity|]. split; [split; [right; now left|intros x [<-|[<-|[]]]; [apply Qclt_le_weak; reflexivity|apply Qcle_refl]]|].
  intros g Hg. cbn in Hg. destruct g as [|[|[|g]]]; try lia; reflexivity.
Qed.
Lemma ex_wf : wf_table ex_t.
Proof. split; [repeat constructor; intros []|]. intros m rx [E|[]]. inversion E; subst. repeat split; discriminate. Qed.
Lemma ex_increasing : increasing (tx ex_rx).
Proof. intros i j H. cbn in H. assert (C : (i = 0 /\ j = 1) \/ (i = 0 /\ j = 2) \/ (i = 1 /\ j = 2)) by lia. destruct C as [[-> ->]|[[-> ->]|[-> ->]]]; cbn; qclra. Qed.
Lemma ex_separated : ends_separated (tx ex_rx).
Proof.
  intros i H. cbn in H. assert (C : i = 0 \/ i = 1 \/ i = 2) by lia.
  destruct C as [->|[->| ->]]; cbn; split; intros N; try congruence; unfold far; (split; [first [left; apply qltb_lt; reflexivity | right; apply qltb_lt; reflexivity]|apply qleb_le; reflexivity]).
Qed.
Lemma ex_lo : ~ In (qz 1) (tx ex_rx).
Proof. cbn. intros H. repeat destruct H as [H|H]; try (apply (f_equal this) in H; discriminate). exact H. Qed.
Lemma ex_alone : alone ex_t [ex_rq] ex_rq.
Proof. intros r [<-|[]] N. now destruct N. Qed.
Example C68_same_as_file_hypotheses_met : wf_table ex_t /\ lookup 102%Z (reactions ex_t) = Some ex_rx /\ increasing (tx ex_rx) /\ ends_separated (tx ex_rx) /\ ~ In (qz 1) (tx ex_rx) /\
  Forall2 (fun c v => good_groups (factors_of ex_rs c) (qz 1) v) [ex_col] [ex_v] /\ (exists base c, sample_curves ex_t 102 ex_rs [ex_col] = Some (base, [c])) /\
  NoDup (map rq_mt [ex_rq]) /\ alone ex_t [ex_rq] ex_rq /\ (exists s, sample_file ex_t [ex_rq] = Some s) /\ nth 1 (ty ex_rx) 0%Qc <> 0%Qc.
Proof.
  split; [exact ex_wf|]. split; [reflexivity|]. split; [exact ex_increasing|]. split; [exact ex_separated|]. split; [exact ex_lo|]. split; [constructor; [exact ex_groups|constructor]|].
  split; [eexists; eexists; vm_compute; reflexivity|]. split; [repeat constructor; intros []|]. split; [exact ex_alone|]. split; [eexists; vm_compute; reflexivity|discriminate].
Qed.
Example C68_deviations_hypotheses_met : chained ex_rs /\ (exists c, deviations ex_rs (qz 2) = Some c) /\ (qz 2 < qz 10)%Qc /\ inside ex_rs 1 (qz 7) /\ (exists c, deviations ex_rs (qz 20) = Some c) /\ (qz 10 <= qz 20)%Qc.
Proof.
  split; [exact ex_chained|]. split; [eexists; vm_compute; reflexivity|]. split; [qclra|]. split; [eexists; split; [reflexivity|cbn; split; qclra]|]. split; [eexists; vm_compute; reflexivity|qclra].
Qed.
Example C68_log_hypotheses_met : (forall y, In y [qz 0; qc 1 10; qz 200] -> (0 <= y)%Qc) /\ log_values [qz 0; qc 1 10; qz 200] = Some true /\ log_values [qz 1; qz 200] = Some false /\ log_values [qz 0; qz 0] = None.
Proof. split; [|repeat split; vm_compute; reflexivity]. intros y [<-|[<-|[<-|[]]]]; apply qleb_le; reflexivity. Qed.

(** ** What does not hold *)
(** Without the widest range, values of the store may be outside the range of colours: the
    two ends of the range are swapped. *)
Theorem C68_colours_refuted : exists rs corr coef es m1 m2 col v, chained rs /\ correlation_figure false false rs corr coef = Some (es, m1, m2, col) /\
  (forall i j w, i < length rs -> j < length rs -> corr i j = Some w -> (qz (-1) <= w /\ w <= qz 1)%Qc) /\ m1 0 1 = Some v /\ ~ in_range col v.
Proof.
  exists ex_rs, ex_corr, ex_coef. eexists. eexists. eexists. eexists. exists (qc 1 2). split; [exact ex_chained|]. split; [reflexivity|]. split; [|split; [reflexivity|]].
  - intros i j v _ _ E. unfold ex_corr in E. destruct (i =? j); inversion E; subst v; split; apply qleb_le; reflexivity.
  - intros (a & b & E & H1 & H2). assert (K : a = qc 9 10). { assert (fst (Some a, Some b) = Some (qc 9 10)) by (rewrite <- E; vm_compute; reflexivity). cbn in H. congruence. } subst a. apply qleb_le in H1. vm_compute in H1. discriminate.
Qed.
Print Assumptions C68_colours_refuted.
(** The last group is not drawn down to its lower bound, but to half its upper one. *)
Theorem C68_variances_refuted : exists rs samples c1 c2 i x, chained rs /\ covariance_figure rs samples = Some (c1, c2) /\ inside rs i x /\ forall y, ~ step_shown c1 x y.
Proof.
  exists ex_rs, ex_samples. eexists. eexists. exists 1, (qz 2). split; [exact ex_chained|]. split; [reflexivity|]. split; [eexists; split; [reflexivity|cbn; split; qclra]|].
  intros y (i & a & b & z & P1 & P2 & Bt). apply nth_combine in P1. apply nth_combine in P2. destruct P1 as [X1 _], P2 as [X2 _]. pose proof (halves (qz 10)) as H.
  destruct i as [|[|i]]; cbn in X1, X2; [| |destruct i; discriminate]; inversion X1; inversion X2; subst a b; destruct Bt as [[? ?]|[? ?]]; qclra.
Qed.
Print Assumptions C68_variances_refuted.
(** Where the cross section is 0 the file holds the factor, the plot shows 0. *)
Theorem C68_same_as_file_refuted : exists base c s ys, sample_curves ex_t 102 ex_rs [ex_col] = Some (base, [c]) /\ alone ex_t [ex_rq] ex_rq /\ sample_file ex_t [ex_rq] = Some s /\ get_sigma s 102 None false = Some ys /\
  nth_error c 0 = Some (qz 2, 0%Qc) /\ nth 0 ys 0%Qc = qz 2.
Proof.
  eexists. eexists. eexists. eexists. split; [vm_compute; reflexivity|]. split; [exact ex_alone|]. split; [vm_compute; reflexivity|]. split; [vm_compute; reflexivity|]. split; cbn; [f_equal; f_equal; apply Qc_is_canon; reflexivity|apply Qc_is_canon; reflexivity].
Qed.
Print Assumptions C68_same_as_file_refuted.
