(** Proofs about the fission spectrum update. *)
From Verif Require Import Num Chi_Model Chi_Spec.
Local Open Scope Qc_scope.

Lemma zipw_length f a b : length a = length b -> length (zipw f a b) = length a.
Proof. revert b; induction a as [|x a IH]; intros [|y b]; cbn; try congruence; intros H. f_equal. apply IH. lia. Qed.

Lemma zipw_nth f a b k : length a = length b -> (k < length a)%nat ->
  q (zipw f a b) k = f (q a k) (q b k).
Proof.
  unfold q. revert b k; induction a as [|x a IH]; intros [|y b] [|k]; cbn; try lia; try reflexivity.
  intros L Hk. apply IH; lia.
Qed.

Lemma running_length acc l : length (running acc l) = length l.
Proof. revert acc; induction l as [|a r IH]; cbn; congruence. Qed.

Lemma running_0 acc l : l <> [] -> q (running acc l) 0 = acc + q l 0.
Proof. destruct l; [congruence|reflexivity]. Qed.

Lemma running_S acc l k : (S k < length l)%nat ->
  q (running acc l) (S k) = q (running acc l) k + q l (S k).
Proof.
  unfold q. revert acc k; induction l as [|a r IH]; intros acc k Hk; cbn [length] in Hk; [lia|].
  destruct k as [|k].
  - destruct r as [|b r]; cbn [length] in Hk; [lia|]. reflexivity.
  - cbn [running nth]. apply (IH (acc + a) k). lia.
Qed.

Lemma running_last acc l : l <> [] -> q (running acc l) (length l - 1) = acc + qsum l.
Proof.
  unfold q. revert acc; induction l as [|a r IH]; intros acc Hne; [congruence|].
  destruct r as [|b r].
  - cbn. rewrite Qcplus_0_r. reflexivity.
  - cbn [length]. replace (S (S (length r)) - 1)%nat with (S (length (b :: r) - 1)) by (cbn; lia).
    change (running acc (a :: b :: r)) with ((acc + a) :: running (acc + a) (b :: r)).
    change (nth (S (length (b :: r) - 1)) ((acc + a) :: running (acc + a) (b :: r)) 0)
      with (nth (length (b :: r) - 1) (running (acc + a) (b :: r)) 0).
    rewrite IH by congruence. rewrite !qsum_cons. ring.
Qed.

Lemma diffs_length l : length (diffs l) = (length l - 1)%nat.
Proof.
  induction l as [|a [|b r] IH]; [reflexivity|reflexivity|].
  change (diffs (a :: b :: r)) with (b - a :: diffs (b :: r)).
  cbn [length] in *. rewrite IH. lia.
Qed.
Lemma diffs_nth l k : (S k < length l)%nat -> q (diffs l) k = q l (S k) - q l k.
Proof.
  unfold q. revert k; induction l as [|a [|b r] IH]; intros k Hk; cbn [length] in Hk; try lia.
  change (diffs (a :: b :: r)) with (b - a :: diffs (b :: r)). destruct k as [|k]; [reflexivity|].
  change (nth (S k) (b - a :: diffs (b :: r)) 0) with (nth k (diffs (b :: r)) 0).
  rewrite IH by (cbn; lia). reflexivity.
Qed.

Lemma last_q (l : list Qc) : last l 0 = q l (length l - 1).
Proof.
  unfold q. induction l as [|a r IH]; [reflexivity|]. destruct r as [|b r']; [reflexivity|].
  change (last (a :: b :: r') 0) with (last (b :: r') 0). rewrite IH. cbn [length].
  now replace (S (S (length r')) - 1)%nat with (S (S (length r') - 1))%nat by lia.
Qed.

Lemma qsum_nth (l : list Qc) : qsum l = qsum (map (q l) (seq 0 (length l))).
Proof.
  induction l as [|a r IH]; [reflexivity|]. cbn [length seq map]. rewrite !qsum_cons. f_equal.
  rewrite IH. f_equal. rewrite <- seq_shift, map_map. apply map_ext. reflexivity.
Qed.

Lemma map_q f l k : (k < length l)%nat -> q (map f l) k = f (q l k).
Proof.
  unfold q. intros H. rewrite nth_indep with (d' := f 0) by now rewrite map_length. apply map_nth.
Qed.

Section One.
Variables (d : dist) (pdf : list Qc).
Hypothesis Hwf : wf_dist d.
Hypothesis Hl : length pdf = length (dp d).
Let n := length (dp d).
Let dcdf := zipw Qcmult (zipw Qcminus pdf (dp d)) (delta_e (dx d)).

Lemma n_pos : (0 < n)%nat.
Proof. unfold n. destruct Hwf as (H & _). destruct (dp d); [congruence|cbn; lia]. Qed.

Lemma de_len : length (delta_e (dx d)) = n.
Proof.
  unfold delta_e. cbn [length]. rewrite diffs_length. destruct Hwf as (_ & H & _). rewrite H.
  pose proof n_pos. unfold n in *. lia.
Qed.

Lemma dpdf_len : length (zipw Qcminus pdf (dp d)) = n.
Proof. rewrite zipw_length by exact Hl. exact Hl. Qed.

Lemma dcdf_len : length dcdf = n.
Proof. unfold dcdf. rewrite zipw_length; rewrite dpdf_len; [reflexivity|now rewrite de_len]. Qed.

Lemma dcdf_0 : q dcdf 0 = 0.
Proof.
  unfold dcdf. rewrite zipw_nth; [|now rewrite dpdf_len, de_len|rewrite dpdf_len; apply n_pos].
  unfold delta_e at 1. unfold q at 2. cbn [nth]. ring.
Qed.

Lemma dcdf_S k : (S k < n)%nat ->
  q dcdf (S k) = (q pdf (S k) - q (dp d) (S k)) * (q (dx d) (S k) - q (dx d) k).
Proof.
  intros Hk. unfold dcdf. rewrite zipw_nth; [|now rewrite dpdf_len, de_len|rewrite dpdf_len; exact Hk].
  rewrite zipw_nth; [|exact Hl|rewrite Hl; exact Hk].
  unfold delta_e at 1. unfold q at 3. cbn [nth]. fold (q (diffs (dx d)) k).
  rewrite diffs_nth; [reflexivity|]. destruct Hwf as (_ & -> & _). exact Hk.
Qed.

Lemma norm_factor : last (dc d) 0 + last (running 0 dcdf) 0 = factor d pdf.
Proof.
  pose proof n_pos as Hn. unfold factor. rewrite !last_q, running_length. f_equal.
  - destruct Hwf as (_ & _ & ->). reflexivity.
  - rewrite running_last; [|intros E; pose proof dcdf_len as L; rewrite E in L; cbn in L; lia].
    rewrite Qcplus_0_l, qsum_nth, dcdf_len. fold n.
    replace n with (S (n - 1)) at 1 by lia. cbn [seq map]. rewrite qsum_cons, dcdf_0, Qcplus_0_l.
    f_equal. apply map_ext_in. intros k Hk. apply in_seq in Hk.
    destruct k as [|k]; [lia|]. rewrite dcdf_S by lia. cbn [Nat.sub]. now rewrite Nat.sub_0_r.
Qed.

Lemma bzip_eq f (a b : list Qc) : length a = length b -> bzip f a b = Some (zipw f a b).
Proof. intros E. unfold bzip. now rewrite E, Nat.eqb_refl. Qed.

Definition negs (d : dist) (pdf : list Qc) : bool := existsb (fun v => qltb v 0) (map (fun v => v / factor d pdf) pdf).
Lemma negs_spec : negs d pdf = false <-> nonneg d pdf.
Proof.
  unfold negs, nonneg. split.
  - intros E k Hk. assert (K : existsb (fun v => qltb v 0) (map (fun v => v / factor d pdf) pdf) = false) by exact E.
    destruct (qltb (q pdf k / factor d pdf) 0) eqn:Q; [|now apply qltb_nlt].
    assert (T : existsb (fun v => qltb v 0) (map (fun v => v / factor d pdf) pdf) = true); [|congruence].
    apply existsb_exists. exists (q pdf k / factor d pdf). split; [|exact Q]. apply (in_map (fun v => v / factor d pdf)). apply nth_In. lia.
  - intros H. destruct (existsb _ _) eqn:E; [|reflexivity]. apply existsb_exists in E as (v & I & Q). apply in_map_iff in I as (u & <- & I).
    apply (In_nth _ _ 0) in I as (k & Hk & U). apply qltb_lt in Q. rewrite Hl in Hk. specialize (H k Hk). unfold q in H. rewrite U in H. qclra.
Qed.

Lemma dist_set_gen : factor d pdf <> 0 ->
  exists d', dist_set d pdf = (d', negb (negs d pdf)) /\ dx d' = dx d /\ new_cdf d pdf d' /\
    dp d' = if negs d pdf then dp d else map (fun v => v / factor d pdf) pdf.
Proof.
  intros Hf. pose proof n_pos as Hn. unfold dist_set. destruct Hwf as (W1 & W2 & W3).
  rewrite bzip_eq by exact Hl. rewrite bzip_eq by (rewrite dpdf_len, de_len; reflexivity). fold dcdf. cbv zeta.
  assert (Hne : dcdf <> []).
  { intros E. pose proof dcdf_len as L. rewrite E in L. cbn in L. lia. }
  assert (Lr : length (dc d) = length (running 0 dcdf)) by (rewrite running_length, dcdf_len; exact W3).
  rewrite bzip_eq by exact Lr. rewrite norm_factor. apply qeqb_neq in Hf as Hf'. rewrite Hf'.
  set (f := factor d pdf) in *.
  assert (Lz : length (zipw Qcplus (dc d) (running 0 dcdf)) = n).
  { rewrite zipw_length; rewrite ?running_length, ?dcdf_len; exact W3. }
  assert (Hc : forall k, (k < n)%nat ->
     q (map (fun v => v / f) (zipw Qcplus (dc d) (running 0 dcdf))) k
     = (q (dc d) k + q (running 0 dcdf) k) / f).
  { intros k Hk. rewrite map_q by now rewrite Lz. rewrite zipw_nth; [reflexivity|exact Lr|].
    rewrite W3. exact Hk. }
  assert (NC : forall p', new_cdf d pdf {| dx := dx d; dp := p'; dc := map (fun v => v / f) (zipw Qcplus (dc d) (running 0 dcdf)) |}).
  { intros p'. unfold new_cdf. cbn [dx dp dc]. fold f n.
    split; [now rewrite map_length|]. split; [|split].
    - rewrite Hc by lia. rewrite running_0 by exact Hne. rewrite dcdf_0. f_equal. ring.
    - rewrite Hc by lia.
      assert (E : q (dc d) (n - 1) + q (running 0 dcdf) (n - 1) = f).
      { unfold f. rewrite <- norm_factor. rewrite !last_q, running_length, dcdf_len, W3. reflexivity. }
      rewrite E. field. exact Hf.
    - intros k Hk. rewrite !Hc by lia. rewrite running_S by (rewrite dcdf_len; exact Hk).
      rewrite dcdf_S by exact Hk. field. exact Hf. }
  assert (C0 : dc d <> []) by (intros E; rewrite E in W3; cbn in W3; unfold n in Hn; lia).
  assert (R0 : running 0 dcdf <> []) by (intros E; apply (f_equal (@length Qc)) in E; rewrite running_length, dcdf_len in E; cbn in E; lia).
  fold (negs d pdf) || unfold negs. fold f.
  destruct (dc d) as [|c0 cr] eqn:EC; [congruence|]. destruct (running 0 dcdf) as [|r0 rr] eqn:ER; [congruence|].
  destruct (existsb (fun v => qltb v 0) (map (fun v => v / f) pdf)); eexists; (split; [reflexivity|]); cbn [dx dp negb]; (split; [reflexivity|]); (split; [apply NC | reflexivity]).
Qed.

Lemma dist_set_ok : factor d pdf <> 0 -> nonneg d pdf ->
  exists d', dist_set d pdf = (d', true) /\ renormalised d pdf d'.
Proof.
  intros Hf NN. apply negs_spec in NN. destruct (dist_set_gen Hf) as (d' & E & X & C & P). rewrite NN in E, P. exists d'. split; [exact E|].
  split; [exact X|]. split; [rewrite P, map_length; exact Hl|]. split; [|exact C]. intros k Hk. rewrite P. apply map_q. now rewrite Hl.
Qed.
Lemma dist_set_neg : factor d pdf <> 0 -> ~ nonneg d pdf ->
  exists d', dist_set d pdf = (d', false) /\ dx d' = dx d /\ dp d' = dp d /\ new_cdf d pdf d'.
Proof.
  intros Hf NN. destruct (negs d pdf) eqn:N; [|apply negs_spec in N; contradiction]. destruct (dist_set_gen Hf) as (d' & E & X & C & P). rewrite N in E, P. exists d'. auto.
Qed.
End One.

Lemma dist_set_inv d pdf d' : fits d pdf -> dist_set d pdf = (d', true) -> nonneg d pdf /\ renormalised d pdf d'.
Proof.
  intros (W & L & F) H. destruct (negs d pdf) eqn:N.
  - destruct (dist_set_gen d pdf W L F) as (d1 & E & _). rewrite N, H in E. discriminate.
  - apply (negs_spec d pdf L) in N. destruct (dist_set_ok d pdf W L F N) as (d1 & E & R). rewrite H in E. injection E as <-. auto.
Qed.
(** A wrong length, not 1, of a distribution with two points or more. *)
Lemma dist_set_wrong d pdf : (2 <= length (dp d))%nat -> length pdf <> length (dp d) -> length pdf <> 1%nat -> dist_set d pdf = (d, false).
Proof.
  intros N L1 L2. unfold dist_set.
  assert (E : bzip Qcminus pdf (dp d) = None); [|now rewrite E].
  unfold bzip. apply Nat.eqb_neq in L1. rewrite L1. destruct pdf as [|x [|y r]]; destruct (dp d) as [|a [|b r']]; cbn in N, L2; try lia; reflexivity.
Qed.

(** All distributions, on success. *)
Lemma chi_loop_ok ds : forall pdfs ds', length ds = length pdfs -> all_fit ds pdfs ->
  chi_loop ds pdfs = (ds', true) ->
  length ds' = length ds /\
  forall i d pdf, nth_error ds i = Some d -> nth_error pdfs i = Some pdf ->
    exists d', nth_error ds' i = Some d' /\ nonneg d pdf /\ renormalised d pdf d'.
Proof.
  induction ds as [|d ds IH]; intros [|pdf pdfs] ds' L A; cbn [length] in L; try lia; cbn [chi_loop].
  - intros [= <-]. split; [reflexivity|]. intros [|i]; discriminate.
  - destruct (dist_set d pdf) as [d1 [|]] eqn:E; [|discriminate].
    destruct (chi_loop ds pdfs) as [r ok] eqn:El. intros [= <- ->].
    destruct (IH pdfs r ltac:(lia) (fun i => A (S i)) El) as [Lr Hr]. split; [cbn; lia|].
    intros [|i] d0 pdf0; cbn [nth_error]; [|apply Hr].
    intros [= <-] [= <-]. exists d1. split; [reflexivity|]. apply dist_set_inv; [|exact E]. now apply (A 0%nat).
Qed.

Lemma set_chi_ok ds pdfs ds' : all_fit ds pdfs -> set_chi ds pdfs = (ds', true) ->
  length pdfs = length ds /\ length ds' = length ds /\
  forall i d pdf, nth_error ds i = Some d -> nth_error pdfs i = Some pdf ->
    exists d', nth_error ds' i = Some d' /\ nonneg d pdf /\ renormalised d pdf d'.
Proof.
  intros A. unfold set_chi. destruct (Nat.eqb_spec (length ds) (length pdfs)) as [L|L]; cbn [negb]; [|discriminate].
  destruct ds as [|d ds], pdfs as [|pdf pdfs]; try discriminate.
  destruct (Nat.eqb_spec (length (dx d)) (length pdf)); cbn [negb]; [|discriminate].
  intros H. split; [auto|]. now apply chi_loop_ok.
Qed.

(** Conversely, good shapes and values always succeed. *)
Lemma chi_loop_accepts ds : forall pdfs, length ds = length pdfs ->
  (forall i d pdf, nth_error ds i = Some d -> nth_error pdfs i = Some pdf -> fits d pdf /\ nonneg d pdf) ->
  snd (chi_loop ds pdfs) = true.
Proof.
  induction ds as [|d ds IH]; intros [|pdf pdfs] L H; cbn [length] in L; try lia; cbn [chi_loop]; [reflexivity|].
  destruct (H 0%nat d pdf eq_refl eq_refl) as ((W & Hl & Hf) & NN).
  destruct (dist_set_ok d pdf W Hl Hf NN) as (d1 & -> & _).
  specialize (IH pdfs ltac:(lia)). destruct (chi_loop ds pdfs) as [r ok]. cbn [snd] in *.
  apply IH. intros i d0 p0 A B. apply (H (S i)); assumption.
Qed.

Lemma set_chi_accepts ds pdfs : ds <> [] -> length pdfs = length ds ->
  (forall i d pdf, nth_error ds i = Some d -> nth_error pdfs i = Some pdf -> fits d pdf /\ nonneg d pdf) ->
  snd (set_chi ds pdfs) = true.
Proof.
  intros Hne L H. unfold set_chi. rewrite L, Nat.eqb_refl. cbn [negb].
  destruct ds as [|d ds], pdfs as [|pdf pdfs]; try congruence; try discriminate.
  destruct (H 0%nat d pdf eq_refl eq_refl) as (((_ & W & _) & Hl & _) & _).
  rewrite W, Hl, Nat.eqb_refl. cbn [negb]. now apply chi_loop_accepts.
Qed.

(** Rejected without effect: wrong number of distributions, or wrong number of
    points in the first. *)
Lemma set_chi_rejects ds pdfs :
  length pdfs <> length ds \/
  (exists d pdf, nth_error ds 0 = Some d /\ nth_error pdfs 0 = Some pdf /\ length pdf <> length (dx d)) ->
  set_chi ds pdfs = (ds, false).
Proof.
  unfold set_chi. intros [H|(d & pdf & E1 & E2 & H)].
  - destruct (Nat.eqb_spec (length ds) (length pdfs)); [congruence|reflexivity].
  - destruct (Nat.eqb_spec (length ds) (length pdfs)); [|reflexivity]. cbn [negb].
    destruct ds, pdfs; try discriminate. injection E1 as ->. injection E2 as ->.
    destruct (Nat.eqb_spec (length (dx d)) (length pdf)); [congruence|reflexivity].
Qed.

Lemma chi_loop_stops ds : forall pdfs ds', length ds = length pdfs ->
  (forall i d pdf, nth_error ds i = Some d -> nth_error pdfs i = Some pdf -> usual d pdf) ->
  chi_loop ds pdfs = (ds', false) -> length ds' = length ds /\ exists k, stopped ds pdfs ds' k.
Proof.
  induction ds as [|d ds IH]; intros [|pdf pdfs] ds' L A; cbn [length] in L; try lia; cbn [chi_loop]; [discriminate|].
  destruct (A 0%nat d pdf eq_refl eq_refl) as (W & N & L1 & F).
  destruct (dist_set d pdf) as [d1 ok] eqn:E. destruct ok.
  - destruct (chi_loop ds pdfs) as [r ok] eqn:El. intros [= <- ->].
    destruct (IH pdfs r ltac:(lia) (fun i => A (S i)) El) as (LR & k & (SA & SB & SC)). split; [cbn; lia|]. exists (S k).
    destruct (Nat.eq_dec (length pdf) (length (dp d))) as [LP|LP]; [|rewrite dist_set_wrong in E by assumption; discriminate].
    split; [exact SA|]. split.
    + intros [|i] d0 p0 Hi; cbn [nth_error]; [|apply SB; lia]. intros [= <-] [= <-]. exists d1. split; [reflexivity|]. apply dist_set_inv; [|exact E]. repeat split; auto; apply W.
    + intros [|i] Hi; [lia|]. cbn [nth_error]. apply SC. lia.
  - intros [= <-]. split; [reflexivity|]. exists 0%nat. split; [|split].
    + exists d, pdf, d1. split; [reflexivity|]. split; [reflexivity|]. split; [reflexivity|].
      destruct (Nat.eq_dec (length pdf) (length (dp d))) as [LP|LP].
      * right. split; [exact LP|]. assert (NN : ~ nonneg d pdf).
        { intros NN. destruct (dist_set_ok d pdf W LP (F LP) NN) as (d2 & E2 & _). congruence. }
        split; [exact NN|]. destruct (dist_set_neg d pdf W LP (F LP) NN) as (d2 & E2 & R). rewrite E in E2. injection E2 as <-. exact R.
      * left. split; [exact LP|]. rewrite dist_set_wrong in E by assumption. congruence.
    + intros i d0 p0 Hi. lia.
    + intros [|i] Hi; [lia|reflexivity].
Qed.
Lemma set_chi_stops ds pdfs ds' : ds <> [] -> length pdfs = length ds ->
  (forall i d pdf, nth_error ds i = Some d -> nth_error pdfs i = Some pdf -> usual d pdf) ->
  set_chi ds pdfs = (ds', false) -> length ds' = length ds /\ exists k, stopped ds pdfs ds' k.
Proof.
  intros NE L A. unfold set_chi. rewrite L, Nat.eqb_refl. cbn [negb].
  destruct ds as [|d ds], pdfs as [|pdf pdfs]; try congruence; try discriminate.
  destruct (Nat.eqb_spec (length (dx d)) (length pdf)) as [E|E]; cbn [negb].
  - apply chi_loop_stops; auto.
  - intros [= <-]. split; [reflexivity|]. destruct (A 0%nat d pdf eq_refl eq_refl) as ((_ & W & _) & _). exists 0%nat. split; [|split].
    + exists d, pdf, d. repeat (split; [reflexivity|]). left. split; [congruence|reflexivity].
    + intros i d0 p0 Hi. lia.
    + reflexivity.
Qed.

(** A later distribution of the wrong length: raised, but the earlier ones have
    been rewritten. *)
Lemma set_chi_not_atomic : exists ds pdfs,
  snd (set_chi ds pdfs) = false /\ fst (set_chi ds pdfs) <> ds.
Proof.
  exists [mkDist [0; 1] [1; 1] [0; 1]; mkDist [0; 1] [1; 1] [0; 1]], [[1; qz 3]; [1; 1; 1]].
  split; [vm_compute; reflexivity|].
  intros H. apply (f_equal (fun l => match l with d :: _ => map this (dp d) | [] => [] end)) in H.
  vm_compute in H. discriminate.
Qed.

(** ** Consequences for one distribution *)
Lemma q_ext (a b : list Qc) : length a = length b ->
  (forall k, (k < length a)%nat -> q a k = q b k) -> a = b.
Proof.
  intros L H. apply (nth_ext a b 0 0 L). exact H.
Qed.

Lemma same_pdf_factor d : wf_dist d -> factor d (dp d) = q (dc d) (length (dp d) - 1).
Proof.
  intros _. unfold factor.
  assert (E : forall l, qsum (map (fun k => (q (dp d) k - q (dp d) k) * (q (dx d) k - q (dx d) (k - 1))) l) = 0).
  { induction l as [|a r IH]; cbn [map]; [reflexivity|]. rewrite qsum_cons, IH. ring. }
  rewrite E. ring.
Qed.

Lemma chi_noop d : wf_dist d -> q (dc d) (length (dp d) - 1) = 1 -> (forall k, (k < length (dp d))%nat -> 0 <= q (dp d) k) ->
  dist_set d (dp d) = (d, true).
Proof.
  intros W Hc Hp0. pose proof (same_pdf_factor d W) as Hf. rewrite Hc in Hf.
  destruct (dist_set_ok d (dp d) W eq_refl) as (d' & E & R).
  { rewrite Hf. discriminate. }
  { intros k Hk. rewrite Hf. unfold Qcdiv. change (/ 1) with 1. rewrite Qcmult_1_r. now apply Hp0. }
  rewrite E. f_equal. destruct W as (W1 & W2 & W3).
  unfold renormalised in R. rewrite Hf in R. destruct R as (R1 & R2 & R4 & R3 & R5 & R6 & R7). rewrite Hf in R5, R7.
  assert (Hp : dp d' = dp d).
  { apply q_ext; [exact R2|]. intros k Hk. rewrite R4 by lia. unfold Qcdiv.
    change (/ 1) with 1. ring. }
  assert (Hcc : dc d' = dc d).
  { apply q_ext; [congruence|]. rewrite R3. intros k. induction k as [|k IH]; intros Hk.
    - rewrite R5. unfold Qcdiv. change (/ 1) with 1. ring.
    - specialize (R7 k Hk). rewrite IH in R7 by lia.
      replace (q (dc d') (S k)) with (q (dc d) k + (q (dc d') (S k) - q (dc d) k)) by ring.
      rewrite R7. unfold Qcdiv. change (/ 1) with 1. ring. }
  destruct d as [x p c], d' as [x' p' c']. cbn in *. congruence.
Qed.

Lemma mult_nonneg a b : 0 <= a -> 0 <= b -> 0 <= a * b.
Proof. intros Ha Hb. rewrite <- (Qcmult_0_l b). apply Qcmult_le_compat_r; assumption. Qed.

Lemma chi_right_consistent d pdf d' : fits d pdf ->
  dist_set d pdf = (d', true) -> right_consistent d -> right_consistent d'.
Proof.
  intros Fi E Hr. apply dist_set_inv in E as (_ & R1 & R2 & R4 & R3 & R5 & R6 & R7); [|exact Fi].
  intros k Hk. rewrite R2 in Hk. rewrite R7, R1, (R4 (S k)), (Hr k) by exact Hk. unfold Qcdiv. ring.
Qed.

Lemma chi_monotone d pdf d' : fits d pdf ->
  dist_set d pdf = (d', true) -> right_consistent d ->
  (forall k, (S k < length (dx d))%nat -> q (dx d) k <= q (dx d) (S k)) ->
  forall k, (S k < length (dc d'))%nat -> q (dc d') k <= q (dc d') (S k).
Proof.
  intros Fi E Hr Hx k Hk.
  pose proof (chi_right_consistent _ _ _ Fi E Hr) as Hr'.
  apply dist_set_inv in E as (NN & R1 & R2 & R4 & R3 & R5 & R6 & R7); [|exact Fi]. destruct Fi as ((W1 & W2 & W3) & L & Hfz).
  rewrite R3 in Hk.
  assert (Hr1 := Hr' k). rewrite R2 in Hr1. specialize (Hr1 Hk).
  assert (0 <= q (dp d') (S k) * (q (dx d') (S k) - q (dx d') k)).
  { apply mult_nonneg.
    - rewrite R4 by exact Hk. now apply NN.
    - rewrite R1. specialize (Hx k). rewrite W2 in Hx. specialize (Hx Hk). qclra. }
  rewrite <- Hr1 in H. qclra.
Qed.

Lemma chi_histogram_breaks : exists d pdf d',
  wf_dist d /\ histogram_consistent d /\ q (dc d) (length (dp d) - 1) = 1 /\
  dist_set d pdf = (d', true) /\ ~ histogram_consistent d'.
Proof.
  exists (mkDist [0; 1; qz 2] [qc 1 2; qc 1 2; 0] [0; qc 1 2; 1]), [qc 1 4; qc 3 4; 0].
  eexists. split; [|split; [|split; [|split; [vm_compute; reflexivity|]]]].
  - split; [discriminate|split; reflexivity].
  - intros k Hk. cbn in Hk. destruct k as [|[|k]]; [| |lia]; apply Qc_is_canon; vm_compute; reflexivity.
  - apply Qc_is_canon; vm_compute; reflexivity.
  - intros H. specialize (H 0%nat). cbn in H.
    assert (K : (1 < 3)%nat) by lia. apply H in K. apply (f_equal this) in K. vm_compute in K. discriminate.
Qed.

Lemma chi_linear_breaks : exists d pdf d',
  wf_dist d /\ linear_consistent d /\ q (dc d) (length (dp d) - 1) = 1 /\
  dist_set d pdf = (d', true) /\ ~ linear_consistent d'.
Proof.
  exists (mkDist [0; 1; qz 2] [qc 1 2; qc 1 2; qc 1 2] [0; qc 1 2; 1]), [qc 1 4; qc 3 4; qc 1 4].
  eexists. split; [|split; [|split; [|split; [vm_compute; reflexivity|]]]].
  - split; [discriminate|split; reflexivity].
  - intros k Hk. cbn in Hk. destruct k as [|[|k]]; [| |lia]; apply Qc_is_canon; vm_compute; reflexivity.
  - apply Qc_is_canon; vm_compute; reflexivity.
  - intros H. specialize (H 0%nat). cbn in H.
    assert (K : (1 < 3)%nat) by lia. apply H in K. apply (f_equal this) in K. vm_compute in K. discriminate.
Qed.
