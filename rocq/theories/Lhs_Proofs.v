From Verif Require Import Num XNum Text Sampler_Model Sampler_Spec Sampler_Proofs.
From Verif Require Import SampleCorr_Model SampleCorr_Spec SampleCorr_Proofs Lhs_Model Lhs_Spec.
From Coq Require Import Sorting.Permutation.
Local Open Scope nat_scope.
Local Open Scope list_scope.

Lemma qn_le a b : a <= b -> (qn a <= qn b)%Qc.
Proof. intros H. unfold qn, qz, Qcle. rewrite !this_Q2Qc. unfold Qle. cbn. lia. Qed.
Lemma qn_lt a b : a < b -> (qn a < qn b)%Qc.
Proof. intros H. unfold qn, qz, Qclt. rewrite !this_Q2Qc. unfold Qlt. cbn. lia. Qed.
Lemma qn_pos a : 0 < a -> (0 < qn a)%Qc.
Proof. intros H. change 0%Qc with (qn 0). now apply qn_lt. Qed.
Lemma qn_S a : qn (S a) = (qn a + 1)%Qc.
Proof.
  unfold qn, qz. apply Qc_is_canon. rewrite this_add, !this_Q2Qc. change (this 1%Qc) with 1%Q.
  rewrite Nat2Z.inj_succ. unfold Qeq, Qplus. cbn. lia.
Qed.
Lemma qn_ne a : 0 < a -> qn a <> 0%Qc.
Proof. intros H E. pose proof (qn_pos a H) as K. rewrite E in K. discriminate. Qed.

Lemma mul_lt_l c a b : (0 < c)%Qc -> (c * a < c * b)%Qc -> (a < b)%Qc.
Proof. intros Hc H. destruct (qltb_spec a b) as [K|K]; [exact K|]. exfalso. qcnra. Qed.
Lemma mul_lt_r c a b : (0 < c)%Qc -> (a < b)%Qc -> (c * a < c * b)%Qc.
Proof. intros Hc H. qcnra. Qed.
Lemma mul_le_r c a b : (0 <= c)%Qc -> (a <= b)%Qc -> (c * a <= c * b)%Qc.
Proof. intros Hc H. qcnra. Qed.
Lemma mul_div_n n a : 0 < n -> (qn n * (a / qn n))%Qc = a.
Proof. intros H. apply Qcmult_div_r. now apply qn_ne. Qed.

Lemma mul_cancel c a b : (0 < c)%Qc -> (c * a)%Qc = (c * b)%Qc -> a = b.
Proof.
  intros Hc H. destruct (qltb_spec a b) as [K|K].
  - pose proof (mul_lt_r c _ _ Hc K) as M. rewrite H in M. exfalso. qclra.
  - destruct (qltb_spec b a) as [L|L]; [|qclra]. pose proof (mul_lt_r c _ _ Hc L) as M. rewrite H in M. exfalso. qclra.
Qed.
Lemma qn_double j : qn (2 * j) = (qz 2 * qn j)%Qc.
Proof.
  unfold qn, qz. apply Qc_is_canon. rewrite this_mul, !this_Q2Qc. unfold Qeq, Qmult. cbn [Qnum Qden]. lia.
Qed.

(** ** Counting *)
Lemma filter_perm {A} (p : A -> bool) l l' : Permutation l l' -> length (filter p l) = length (filter p l').
Proof.
  induction 1; cbn; [reflexivity| | |congruence].
  - destruct (p x); cbn; congruence.
  - destruct (p x), (p y); reflexivity.
Qed.
Lemma filter_count {A} (p : A -> bool) (l : list A) d j : j <= length l ->
  (forall k, k < length l -> p (nth k l d) = (k <? j)) -> length (filter p l) = j.
Proof.
  revert j. induction l as [|a l IH]; intros j Hj H; cbn in *; [lia|].
  pose proof (H 0 ltac:(lia)) as H0. cbn in H0.
  destruct j as [|j].
  - cbn in H0. rewrite H0. apply IH; [lia|]. intros k Hk. apply (H (S k)). lia.
  - cbn in H0. rewrite H0. cbn. f_equal. apply IH; [lia|]. intros k Hk. apply (H (S k)). lia.
Qed.
Lemma below_map (f : Qc -> Qc) t l : below t (map f l) = length (filter (fun v => qltb (f v) t) l).
Proof. unfold below. induction l as [|a l IH]; cbn; [reflexivity|]. destruct (qltb (f a) t); cbn; now rewrite IH. Qed.
Lemma below_perm t l l' : Permutation l l' -> below t l = below t l'.
Proof. apply filter_perm. Qed.

Lemma strat_length n ps : stratified n ps -> length ps = n.
Proof. intros (_ & qs & P & L & _). rewrite <- L. now apply Permutation_length. Qed.
Lemma strat_bounds n ps p : stratified n ps -> In p ps -> (0 < p /\ p < 1)%Qc.
Proof.
  intros (H0 & qs & P & L & H) Hp. split; [now apply H0|].
  pose proof (Permutation_in _ P Hp) as Hq. apply (In_nth _ _ 0%Qc) in Hq as (k & Hk & <-). rewrite L in Hk.
  destruct (H k Hk) as [_ K]. pose proof (qn_pos n ltac:(lia)). pose proof (qn_le (S k) n Hk).
  apply (mul_lt_l (qn n)); [assumption|]. qclra.
Qed.

(** Increasing images of stratified numbers. *)
Lemma strat_below n ps (f : Qc -> Qc) j : stratified n ps -> 0 < j -> j < n ->
  (forall p p', (0 < p)%Qc -> (p < p')%Qc -> (p' < 1)%Qc -> (f p < f p')%Qc) ->
  below (f (qn j / qn n)%Qc) (map f ps) = j.
Proof.
  intros Hs Hj Hn Hf. pose proof (strat_bounds n ps) as Hb. 
  assert (Hb' : forall p, In p ps -> (0 < p /\ p < 1)%Qc) by (intros; now apply Hb).
  destruct Hs as (H0 & qs & P & L & H). clear Hb.
  pose proof (qn_pos n ltac:(lia)) as Np.
  set (t := (qn j / qn n)%Qc). assert (Et : (qn n * t)%Qc = qn j) by (apply mul_div_n; lia).
  assert (T0 : (0 < t)%Qc).
  { apply (mul_lt_l (qn n)); [assumption|]. rewrite Et. pose proof (qn_pos j Hj). qclra. }
  assert (T1 : (t < 1)%Qc).
  { apply (mul_lt_l (qn n)); [assumption|]. rewrite Et. pose proof (qn_lt j n Hn). qclra. }
  rewrite below_map. rewrite (filter_perm _ _ _ P). apply (filter_count _ qs 0%Qc); [lia|].
  intros k Hk. assert (Hin : In (nth k qs 0%Qc) ps).
  { apply (Permutation_in _ (Permutation_sym P)). now apply nth_In. }
  destruct (Hb' _ Hin) as [B0 B1]. rewrite L in Hk. destruct (H k Hk) as [K1 K2].
  destruct (k <? j) eqn:E.
  - apply Nat.ltb_lt in E. apply qltb_lt. apply Hf; [assumption| |assumption].
    apply (mul_lt_l (qn n)); [assumption|]. rewrite Et. pose proof (qn_le (S k) j E). qclra.
  - apply Nat.ltb_ge in E. apply qltb_nlt. pose proof (qn_le j k E).
    destruct (qltb_spec t (nth k qs 0%Qc)) as [Q|Q].
    + apply Qclt_le_weak. now apply Hf.
    + assert (EQ : nth k qs 0%Qc = t).
      { destruct (qltb_spec (nth k qs 0%Qc) t) as [R|R]; [|qclra].
        exfalso. pose proof (mul_lt_r (qn n) _ _ Np R). qclra. }
      rewrite EQ. apply Qcle_refl.
Qed.

Lemma value_quantile x d m s p : value_at x d m s p = quantile x d m s p.
Proof. destruct d; unfold value_at, quantile, norm_ppf, uniform_ppf; [|f_equal|]; ring. Qed.

Lemma value_incr x d m s : ext_contract x -> (0 < s)%Qc -> (d = LogNormal -> (0 < m)%Qc) ->
  forall p p', (0 < p)%Qc -> (p < p')%Qc -> (p' < 1)%Qc -> (value_at x d m s p < value_at x d m s p')%Qc.
Proof.
  intros (Hz & _ & He & Hs) S0 M0 p p' P0 P1 P2. pose proof (Hz p p' P0 P1 P2) as K.
  destruct d; unfold value_at, norm_ppf, uniform_ppf.
  - pose proof (mul_lt_r s _ _ S0 K). qclra.
  - apply He. pose proof (mul_lt_r _ _ _ (Hs m s (M0 eq_refl) S0) K). qclra.
  - pose proof (mul_lt_r s _ _ S0 P1). qclra.
Qed.

Lemma draws_quantiles latin x d i m s ns l : latin_contract latin -> ext_contract x ->
  (0 < s)%Qc -> (d = LogNormal -> (0 < m)%Qc) ->
  Permutation l (draws latin x ns d i m s) -> quantiles_met x d m s ns l.
Proof.
  intros Hl Hx S0 M0 P. destruct (Hl i 1 ns) as [_ K]. specialize (K 0 ltac:(lia)).
  split.
  - rewrite (Permutation_length P). unfold draws, lhs_uniform_sample. rewrite map_length. now apply strat_length.
  - intros j J0 J1. rewrite (below_perm _ _ _ P). rewrite <- value_quantile. unfold draws, lhs_uniform_sample.
    apply (strat_below ns _ (value_at x d m s) j K J0 J1). now apply value_incr.
Qed.

Lemma tiny_pos : (0 < Q2Qc (1 # (10 ^ 30)))%Qc.
Proof. reflexivity. Qed.
Lemma not_tiny s : ~ tiny_dev s -> (0 < s)%Qc.
Proof. unfold tiny_dev. intros H. apply Qcnot_le_lt in H. pose proof tiny_pos. eapply Qclt_trans; eassumption. Qed.
Lemma sampled_dev mean std dg ln g : ~ skipped mean std dg ln g -> (0 < q std g)%Qc.
Proof. intros H. apply not_tiny. intros K. apply H. now left. Qed.

Lemma nth_sampled_total (sk : nat -> Prop) g : (forall i, i < g -> sk i \/ ~ sk i) -> exists k, nth_sampled sk g k.
Proof.
  induction g as [|g IH]; intros dec; [exists 0; constructor|].
  destruct IH as [k IH]; [intros i Hi; apply dec; lia|].
  destruct (dec g ltac:(lia)); eexists; [apply ns_skip|apply ns_take]; eassumption.
Qed.

Lemma sample_lhs_groups latin x scores mean std dg ns distro d :
  let ln := eqt distro (str "lognormal") in
  fits mean std dg scores ns -> latin_contract latin -> dist_of distro = Some d ->
  exists out, sample_lhs latin x scores mean std dg ns distro = COk out /\ length out = length mean /\
    forall g, g < length mean ->
      (skipped mean std dg ln g -> nth g out [] = repeat (q mean g) ns) /\
      (~ skipped mean std dg ln g -> exists k, Permutation (nth g out []) (draws latin x ns d k (q mean g) (q std g))).
Proof.
  intros ln (F1 & F2 & F3 & F4) Hl Hd.
  destruct (nth_sampled_total (skipped mean std dg ln) (length mean)) as [nv Hnv].
  { intros i Hi. now apply skipped_dec. }
  destruct (F4 nv) as [S1 S2].
  destruct (sample_with_corr_spec scores (draws latin x ns) mean std dg ns distro d nv F1 F2 F3 Hd Hnv S1 S2)
    as (out & E & L & H).
  { intros i m s. unfold draws, lhs_uniform_sample. rewrite map_length. apply strat_length.
    destruct (Hl i 1 ns) as [_ K]. apply K. lia. }
  exists out. split; [exact E|]. split; [exact L|]. intros g Hg. destruct (H g Hg) as [A B].
  split; [exact A|]. intros Hsk. destruct (B Hsk) as (k & _ & _ & (P & _)). now exists k.
Qed.

(** ** Sums *)
Lemma qsum_perm l l' : Permutation l l' -> qsum l = qsum l'.
Proof.
  induction 1; rewrite ?qsum_cons; [reflexivity|now rewrite IHPermutation|ring|congruence].
Qed.
Lemma sum_bounds N qs a :
  (forall k, k < length qs -> (qn (a + k) <= N * nth k qs 0%Qc /\ N * nth k qs 0%Qc < qn (S (a + k)))%Qc) ->
  (qsum (map qn (seq a (length qs))) <= N * qsum qs /\
   N * qsum qs <= qsum (map qn (seq (S a) (length qs))))%Qc.
Proof.
  revert a. induction qs as [|x qs IH]; intros a H.
  - cbn. rewrite Qcmult_0_r. split; apply Qcle_refl.
  - cbn [length seq map]. rewrite !qsum_cons.
    destruct (IH (S a)) as [I1 I2].
    { intros k Hk. specialize (H (S k)). cbn [length nth] in H. rewrite Nat.add_succ_r in H. apply H. lia. }
    destruct (H 0) as [H1 H2]; [cbn; lia|]. rewrite Nat.add_0_r in H1, H2. cbn [nth] in H1, H2.
    set (u := qsum (map qn (seq (S a) (length qs)))) in *. set (w := qsum (map qn (seq (S (S a)) (length qs)))) in *.
    set (y := qsum qs) in *. set (r := qn a) in *. set (t := qn (S a)) in *. clearbody u w y r t.
    split; qclra.
Qed.
Lemma sum_seq a n : (qz 2 * qsum (map qn (seq a n)))%Qc = (qn n * (qz 2 * qn a + qn n - 1))%Qc.
Proof.
  revert a. induction n as [|n IH]; intros a.
  - cbn [seq map qsum fold_right]. replace (qn 0) with 0%Qc by (apply Qc_is_canon; reflexivity). ring.
  - cbn [seq map]. rewrite qsum_cons, Qcmult_plus_distr_r, IH, !qn_S.
    replace (qz 2) with (1 + 1)%Qc by (apply Qc_is_canon; reflexivity). ring.
Qed.
Lemma strat_sum n ps : 0 < n -> stratified n ps ->
  (qn n - 1 <= qz 2 * qsum ps /\ qz 2 * qsum ps <= qn n + 1)%Qc.
Proof.
  intros Hn (_ & qs & P & L & H). rewrite (qsum_perm _ _ P).
  destruct (sum_bounds (qn n) qs 0) as [B1 B2]. { rewrite L. intros k Hk. apply H. exact Hk. }
  rewrite L in B1, B2. pose proof (sum_seq 0 n) as E0. pose proof (sum_seq 1 n) as E1.
  pose proof (qn_pos n Hn) as Np. change (qn 0) with 0%Qc in E0. change (qn 1) with 1%Qc in E1.
  set (u := qsum (map qn (seq 0 n))) in *. set (w := qsum (map qn (seq 1 n))) in *.
  set (N := qn n) in *. set (y := qsum qs) in *. clearbody u w N y. clear - B1 B2 E0 E1 Np.
  split; qcnra.
Qed.

Lemma sum_uniform m s ps :
  qsum (map (fun p => uniform_ppf p m s) ps) = (qn (length ps) * m + s * qsum ps)%Qc.
Proof.
  induction ps as [|p ps IH].
  - cbn. replace (qn 0) with 0%Qc by (apply Qc_is_canon; reflexivity). ring.
  - cbn [map length]. rewrite !qsum_cons, IH, qn_S. unfold uniform_ppf. ring.
Qed.

Lemma uniform_values latin x i m s ns l : latin_contract latin -> (0 < s)%Qc -> 0 < ns ->
  Permutation l (draws latin x ns Uniform i m s) ->
  (forall v, In v l -> (m < v /\ v < m + s)%Qc) /\
  (qn ns * (qz 2 * m + s) - s <= qz 2 * qsum l /\ qz 2 * qsum l <= qn ns * (qz 2 * m + s) + s)%Qc.
Proof.
  intros Hl S0 N0 P. destruct (Hl i 1 ns) as [_ K]. specialize (K 0 ltac:(lia)).
  unfold draws, lhs_uniform_sample in P. set (ps := nth 0 (latin i 1 ns) []) in *. clearbody ps.
  change (value_at x Uniform m s) with (fun p => uniform_ppf p m s) in P. split.
  - intros v Hv. apply (Permutation_in _ P) in Hv. apply in_map_iff in Hv as (p & <- & Hp).
    destruct (strat_bounds ns ps p K Hp) as [B0 B1]. unfold uniform_ppf.
    pose proof (mul_lt_r s _ _ S0 B0). pose proof (mul_lt_r s _ _ S0 B1). split; qclra.
  - rewrite (qsum_perm _ _ P), sum_uniform, (strat_length _ _ K).
    destruct (strat_sum ns ps N0 K) as [B1 B2].
    pose proof (mul_le_r s _ _ (Qclt_le_weak _ _ S0) B1). pose proof (mul_le_r s _ _ (Qclt_le_weak _ _ S0) B2).
    set (N := qn ns) in *. set (y := qsum ps) in *. clearbody N y. split; qcnra.
Qed.

(** ** Through sample_xsec *)
Lemma ones_value k s g : g < k -> rel_value (repeat (Fin 1%Qc) k) s g = nth g s NaN.
Proof.
  intros H. unfold rel_value. replace (nth g (repeat (Fin 1%Qc) k) NaN) with (Fin 1%Qc); [apply xdiv_1|].
  symmetry. rewrite nth_indep with (d' := Fin 1%Qc) by now rewrite repeat_length. apply nth_repeat.
Qed.
Lemma filter_true {A} (p : A -> bool) l : (forall x, In x l -> p x = true) -> filter p l = l.
Proof.
  induction l as [|a l IH]; intros H; cbn; [reflexivity|]. rewrite (H a (or_introl eq_refl)). f_equal. apply IH.
  intros; apply H; now right.
Qed.
Lemma check_nonneg samples k rn :
  (forall s g, In s samples -> g < k -> exists v, nth g s NaN = Fin v /\ (0 <= v)%Qc) ->
  rows (sample_check samples (repeat (Fin 1%Qc) k) rn) = map (row_of (repeat (Fin 1%Qc) k) samples) (seq 0 k) /\
  length (cols (sample_check samples (repeat (Fin 1%Qc) k) rn)) = length samples.
Proof.
  intros H. set (m := repeat (Fin 1%Qc) k).
  assert (Lm : length m = k) by apply repeat_length.
  assert (Hg : filter (goodb m) samples = samples).
  { apply filter_true. intros s Hs. apply goodb_good. intros g Hg. rewrite Lm in Hg.
    unfold m. rewrite ones_value by exact Hg. destruct (H s g Hs Hg) as (v & -> & Hv). cbn. now apply qltb_nlt. }
  assert (Hr : regular m samples).
  { split.
    - intros g Hl. rewrite Lm in Hl. exists 1%Qc. split; [|discriminate]. unfold m.
      rewrite nth_indep with (d' := Fin 1%Qc) by now rewrite repeat_length. apply nth_repeat.
    - intros s g Hs Hl. rewrite Lm in Hl. destruct (H s g Hs Hl) as (v & E & _). now exists v. }
  split.
  - destruct rn.
    + destruct (check_keeps samples m) as [_ ->]. rewrite Hg.
      rewrite (regular_no_nan m samples Hr); [now rewrite Lm|apply incl_refl].
    + destruct (check_all samples m) as [_ ->]. now rewrite Lm.
  - rewrite check_cols_length. destruct rn; [now rewrite Hg|reflexivity].
Qed.

Lemma drawn_rows latin x scores mean std dg c d ns out :
  sample_lhs latin x (scores c) mean std (dg c) ns (dist_name d) = COk out ->
  drawn latin x scores mean std dg c d ns = map (fun k => map (fun col => Fin (nth k col 0%Qc)) out) (seq 0 ns).
Proof. intros E. unfold drawn. now rewrite E. Qed.

Lemma uniform_cells latin x scores mean std dg st ns rb rn : lower st = str "uniform" ->
  fits mean std (dg true) (scores true) ns -> latin_contract latin -> 0 < ns ->
  (forall g, g < length mean -> (0 < q mean g)%Qc) ->
  exists rel full, sample_xsec_lhs latin x scores mean std dg st ns rb rn = SOk (rel, full) /\
    length (rows rel) = length mean /\ length (cols rel) = ns /\
    forall g j, g < length mean -> j < ns -> exists r, cell rel g j = Fin r /\ (1 <= r)%Qc /\
      (~ skipped mean std (dg true) false g -> (1 < r)%Qc).
Proof.
  intros Hst Hf Hl N0 Hpos.
  destruct (sample_lhs_groups latin x (scores true) mean std (dg true) ns (str "uniform") Uniform Hf Hl eq_refl)
    as (out & E & Lo & Hg).
  change (eqt (str "uniform") (str "lognormal")) with false in Hg.
  assert (Hfits := Hf). destruct Hf as (F1 & F2 & F3 & _).
  assert (V : forall g v, g < length mean -> In v (nth g out []) -> (q mean g <= v)%Qc /\
    (~ skipped mean std (dg true) false g -> (q mean g < v)%Qc)).
  { intros g v Hlt Hv. destruct (Hg g Hlt) as [A B]. destruct (skipped_dec mean std (dg true) false g F1 F2 F3 Hlt) as [Hs|Hs].
    - rewrite (A Hs) in Hv. apply repeat_spec in Hv. subst v. split; [apply Qcle_refl|tauto].
    - destruct (B Hs) as [k P]. pose proof (sampled_dev _ _ _ _ _ Hs) as S0.
      destruct (uniform_values _ _ _ _ _ _ _ Hl S0 N0 P) as [U _]. destruct (U v Hv) as [U1 _].
      split; [now apply Qclt_le_weak|auto]. }
  assert (Lc : forall g, g < length mean -> length (nth g out []) = ns).
  { intros g Hlt. destruct (Hg g Hlt) as [A B]. destruct (skipped_dec mean std (dg true) false g F1 F2 F3 Hlt) as [Hs|Hs].
    - rewrite (A Hs). apply repeat_length.
    - destruct (B Hs) as [k P]. rewrite (Permutation_length P). unfold draws, lhs_uniform_sample. rewrite map_length.
      apply strat_length. destruct (Hl k 1 ns) as [_ K]. apply K. lia. }
  set (dr := drawn latin x scores mean std dg).
  set (samples := map (fun k => map (fun col => Fin (nth k col 0%Qc)) out) (seq 0 ns)).
  assert (ES : dr true Uniform ns = samples) by (apply drawn_rows; exact E).
  assert (Cell : forall g j, g < length mean -> j < ns ->
    nth g (nth j samples []) NaN = Fin (nth j (nth g out []) 0%Qc)).
  { intros g j Hlt Hj. unfold samples. rewrite (nth_map_lt _ _ j 0) by now rewrite seq_length.
    rewrite seq_nth by exact Hj. cbn [Nat.add]. rewrite (nth_map_lt _ _ g []) by lia. reflexivity. }
  assert (Val : forall g j, g < length mean -> j < ns -> (q mean g <= nth j (nth g out []) 0%Qc)%Qc /\
    (~ skipped mean std (dg true) false g -> (q mean g < nth j (nth g out []) 0%Qc)%Qc)).
  { intros g j Hlt Hj. apply V; [exact Hlt|]. apply nth_In. now rewrite Lc. }
  assert (Ls : length samples = ns) by (unfold samples; now rewrite map_length, seq_length).
  destruct (check_nonneg samples (length mean) rn) as [CR CC].
  { intros s g Hs Hlt. apply (In_nth _ _ []) in Hs as (j & Hj & <-). rewrite Ls in Hj.
    eexists. split; [now apply Cell|]. destruct (Val g j Hlt Hj) as [K _]. pose proof (Hpos g Hlt).
    apply Qclt_le_weak. eapply Qclt_le_trans; eassumption. }
  assert (Hch : choose st = Some (true, Uniform)) by (apply choose_kind; rewrite Hst; cbn; tauto).
  set (full := {| cols := seq 0 ns; rows := map (row_of (repeat (Fin 1%Qc) (length mean)) samples) (seq 0 (length mean)) |}).
  assert (Efull : sample dr (map Fin mean) st ns rb rn false false = SOk full).
  { unfold sample. rewrite Hch, map_length, ES, CC, Ls. rewrite Nat.ltb_irrefl. cbn [andb]. now rewrite CR. }
  assert (Lfull : length (rows full) = length mean) by (cbn; now rewrite map_length, seq_length).
  set (rel := patch_nan (sample_check (columns full) (map Fin mean) false) full).
  assert (Ex : sample_xsec dr (map Fin mean) st ns rb rn = SOk (rel, full)).
  { unfold sample_xsec. rewrite Efull, Lfull, map_length, Nat.eqb_refl. reflexivity. }
  exists rel, full. split; [exact Ex|].
  set (dr' := fun (c : bool) (d : dist) (n : nat) => samples).
  assert (Ex' : sample_xsec dr' (map Fin mean) st ns rb rn = SOk (rel, full)).
  { rewrite <- Ex. unfold sample_xsec, sample. rewrite Hch, ES. reflexivity. }
  assert (Hl' : forall c d, length (dr' c d ns) = ns) by (intros; exact Ls).
  destruct (xsec_shape dr' _ _ _ _ _ _ _ Hl' Ex') as (_ & _ & S3 & S4 & _).
  rewrite map_length in S3. split; [exact S3|]. split; [rewrite S4; cbn; apply seq_length|].
  intros g j Hlt Hj. 
  assert (Cf : cell full g j = Fin (nth j (nth g out []) 0%Qc)).
  { unfold cell, full. cbn [rows]. rewrite (nth_map_lt _ _ g 0) by now rewrite seq_length.
    rewrite seq_nth by exact Hlt. cbn [Nat.add row_of snd]. rewrite (nth_map_lt _ _ j []) by lia.
    rewrite ones_value by exact Hlt. now apply Cell. }
  rewrite (xsec_cell dr' _ _ _ _ _ _ _ g j Hl' Ex'); [|now rewrite map_length|cbn; now rewrite seq_length].
  rewrite Cf. rewrite (nth_map_lt Fin mean g 0%Qc) by exact Hlt. fold (q mean g).
  pose proof (Hpos g Hlt) as Mp. destruct (Val g j Hlt Hj) as [V1 V2].
  set (v := nth j (nth g out []) 0%Qc) in *. set (m := q mean g) in *.
  assert (Mn : m <> 0%Qc) by (intros Z; rewrite Z in Mp; discriminate).
  cbn [xdiv]. destruct (qeqb m 0%Qc) eqn:Em; [apply qeqb_eq in Em; contradiction|]. cbn [xisnan].
  assert (Ev : (m * (v / m))%Qc = v) by (now apply Qcmult_div_r).
  exists (v / m)%Qc. split; [reflexivity|]. set (r := (v / m)%Qc) in *. clearbody r v m. split.
  - destruct (qleb_spec 1 r) as [K|K]; [exact K|]. exfalso. apply Qcnot_le_lt in K.
    pose proof (mul_lt_r m _ _ Mp K). qclra.
  - intros Hs. specialize (V2 Hs). apply (mul_lt_l m); [exact Mp|]. qclra.
Qed.
