From Coq Require Import Reals Lra Lia Arith.
From Verif Require Import Mat CovCorr_Model CovCorr_Spec.
Local Open Scope R_scope.

(** The double loop filling the strict upper triangle. *)
Definition fill (n : nat) (v : mat) (c : mat) : mat :=
  range 0 n (fun i c => range (S i) n (fun j c => upd c i j (v i j)) c) c.

Lemma fill_row : forall n v i c a b, (i < n)%nat ->
  range (S i) n (fun j c => upd c i j (v i j)) c a b =
  if (Nat.eqb a i && Nat.ltb i b && Nat.ltb b n)%bool then v a b else c a b.
Proof.
  intros n v i c a b Hi.
  set (P := fun (m : nat) (d : mat) => forall a b, d a b =
    if (Nat.eqb a i && Nat.ltb i b && Nat.ltb b m)%bool then v a b else c a b).
  enough (P n (range (S i) n (fun j c => upd c i j (v i j)) c)) by auto.
  apply range_inv.
  - lia.
  - intros a' b'. destruct (Nat.eqb a' i); [|reflexivity].
    destruct (Nat.ltb_spec i b'), (Nat.ltb_spec b' (S i)); try lia; reflexivity.
  - intros j d Hj IH a' b'. unfold upd. pose proof (IH a' b') as E. cbn beta in E. rewrite !E. clear E.
    destruct (Nat.eqb_spec a' i) as [->|]; [|reflexivity].
    destruct (Nat.eqb_spec b' j) as [->|].
    + destruct (Nat.ltb_spec i j), (Nat.ltb_spec j (S j)); try lia. reflexivity.
    + destruct (Nat.ltb_spec i b'), (Nat.ltb_spec b' j), (Nat.ltb_spec b' (S j)); try lia; reflexivity.
Qed.

Lemma fill_spec : forall n v c a b,
  fill n v c a b = if (Nat.ltb a b && Nat.ltb b n)%bool then v a b else c a b.
Proof.
  intros n v c.
  set (P := fun (m : nat) (d : mat) => forall a b, d a b =
    if (Nat.ltb a m && Nat.ltb a b && Nat.ltb b n)%bool then v a b else c a b).
  assert (HP : P n (fill n v c)).
  { unfold fill. apply range_inv; [lia|intros a b; reflexivity|].
    intros i d Hi IH a b. cbn beta. rewrite (fill_row n v i d a b) by lia. rewrite (IH a b).
    destruct (Nat.eqb_spec a i) as [->|].
    - destruct (Nat.ltb_spec i (S i)), (Nat.ltb_spec i i); try lia. reflexivity.
    - destruct (Nat.ltb_spec a i), (Nat.ltb_spec a (S i)); try lia; reflexivity. }
  intros a b. rewrite HP.
  destruct (Nat.ltb_spec a n), (Nat.ltb_spec a b), (Nat.ltb_spec b n); try lia; reflexivity.
Qed.

(** The symmetrisation after the loop. *)
Lemma fill_sym : forall n v d i j, (i < n)%nat -> (j < n)%nat ->
  let c := fill n v (mdiag d) in
  msub (madd c (tr c)) (mdiag (diagonal c)) i j =
  if Nat.eqb i j then d i else if Nat.ltb i j then v i j else v j i.
Proof.
  intros n v d i j Hi Hj c. unfold msub, madd, tr, mdiag at 1, diagonal. subst c. rewrite !fill_spec. unfold mdiag.
  destruct (Nat.eqb_spec i j) as [->|Hne].
  - rewrite Nat.ltb_irrefl, Nat.eqb_refl. cbn. lra.
  - destruct (Nat.eqb_spec j i); [lia|].
    destruct (Nat.ltb_spec i j), (Nat.ltb_spec j i), (Nat.ltb_spec i n), (Nat.ltb_spec j n); try lia; cbn; lra.
Qed.

Lemma correlation_to_cov_entry : forall n std corr i j, (i < n)%nat -> (j < n)%nat ->
  correlation_to_cov n std corr i j =
  if Nat.eqb i j then std i ^ 2
  else if Nat.ltb i j then corr i j * std i * std j else corr j i * std j * std i.
Proof.
  intros. unfold correlation_to_cov.
  apply (fill_sym n (fun i j => corr i j * std i * std j) (fun i => std i ^ 2)); assumption.
Qed.

Lemma cov_to_correlation_entry : forall n cov i j, (i < n)%nat -> (j < n)%nat ->
  cov_to_correlation n cov i j =
  if Nat.eqb i j then 1
  else if Nat.ltb i j then cov i j / sqrt (Rabs (cov i i * cov j j))
  else cov j i / sqrt (Rabs (cov j j * cov i i)).
Proof.
  intros. unfold cov_to_correlation.
  apply (fill_sym n (fun i j => cov i j / sqrt (Rabs (cov i i * cov j j))) (fun _ => 1)); assumption.
Qed.

Lemma correlation_to_cov_is_cov : forall n std corr, is_cov n std corr (correlation_to_cov n std corr).
Proof.
  intros n std corr. split.
  - intros i Hi. rewrite correlation_to_cov_entry by assumption. rewrite Nat.eqb_refl. cbn. lra.
  - intros i j Hij Hj. rewrite correlation_to_cov_entry by lia.
    destruct (Nat.eqb_spec i j); [lia|]. destruct (Nat.ltb_spec i j); [reflexivity|lia].
  - intros i j Hi Hj. rewrite !correlation_to_cov_entry by assumption.
    rewrite (Nat.eqb_sym j i). destruct (Nat.eqb_spec i j) as [->|]; [reflexivity|].
    destruct (Nat.ltb_spec i j), (Nat.ltb_spec j i); try lia; reflexivity.
Qed.

Lemma is_cov_scaled : forall n std corr cov, is_cov n std corr cov ->
  (forall i, (i < n)%nat -> corr i i = 1) -> sym n corr ->
  forall i j, (i < n)%nat -> (j < n)%nat -> cov i j = std i * corr i j * std j.
Proof.
  intros n std corr cov [Hd Hu Hs] H1 Hc i j Hi Hj.
  destruct (Nat.lt_trichotomy i j) as [H|[->|H]].
  - rewrite Hu by assumption. lra.
  - rewrite Hd, H1 by assumption. lra.
  - rewrite Hs, Hu by assumption. rewrite (Hc i j) by assumption. lra.
Qed.

Lemma quad_scaled : forall n m d x, quad n (fun i j => d i * m i j * d j) x = quad n m (fun i => d i * x i).
Proof. intros. unfold quad. apply sumn_ext; intros. apply sumn_ext; intros. lra. Qed.

Lemma correlation_to_cov_psd : forall n std corr, is_corr n corr -> psd n (correlation_to_cov n std corr).
Proof.
  intros n std corr [H1 Hs Hp] x.
  rewrite (quad_ext n _ (fun i j => std i * corr i j * std j) x x).
  - rewrite quad_scaled. apply Hp.
  - apply is_cov_scaled; auto. apply correlation_to_cov_is_cov.
  - reflexivity.
Qed.

Lemma cov_to_correlation_sym : forall n cov, sym n (cov_to_correlation n cov).
Proof.
  intros n cov i j Hi Hj. rewrite !cov_to_correlation_entry by assumption.
  rewrite (Nat.eqb_sym j i). destruct (Nat.eqb_spec i j) as [->|]; [reflexivity|].
  destruct (Nat.ltb_spec i j), (Nat.ltb_spec j i); try lia; reflexivity.
Qed.

Lemma cov_to_correlation_unit : forall n cov i, (i < n)%nat -> cov_to_correlation n cov i i = 1.
Proof. intros. rewrite cov_to_correlation_entry by assumption. now rewrite Nat.eqb_refl. Qed.

Lemma cov_to_correlation_pos : forall n cov, sym n cov -> (forall i, (i < n)%nat -> 0 < cov i i) ->
  forall i j, (i < n)%nat -> (j < n)%nat ->
  cov_to_correlation n cov i j = / sqrt (cov i i) * cov i j * / sqrt (cov j j).
Proof.
  intros n cov Hs Hp i j Hi Hj. rewrite cov_to_correlation_entry by assumption.
  pose proof (Hp i Hi) as Hpi. pose proof (Hp j Hj) as Hpj.
  assert (Hsi : 0 < sqrt (cov i i)) by now apply sqrt_lt_R0.
  assert (Hsj : 0 < sqrt (cov j j)) by now apply sqrt_lt_R0.
  assert (Hm : forall a b, 0 < a -> 0 < b -> sqrt (Rabs (a * b)) = sqrt a * sqrt b).
  { intros a b Ha Hb. rewrite Rabs_right by (apply Rle_ge, Rmult_le_pos; lra). apply sqrt_mult; lra. }
  destruct (Nat.eqb_spec i j) as [->|Hne].
  - rewrite <- (sqrt_sqrt (cov j j)) at 2 by lra. field. lra.
  - destruct (Nat.ltb_spec i j).
    + rewrite Hm by assumption. field. lra.
    + rewrite Hm by assumption. rewrite (Hs i j) by assumption. field. lra.
Qed.

Lemma cov_corr_cov : forall n cov, sym n cov -> (forall i, (i < n)%nat -> 0 < cov i i) ->
  forall i j, (i < n)%nat -> (j < n)%nat ->
  correlation_to_cov n (fun i => sqrt (cov i i)) (cov_to_correlation n cov) i j = cov i j.
Proof.
  intros n cov Hs Hp i j Hi Hj.
  rewrite (is_cov_scaled n (fun i => sqrt (cov i i)) (cov_to_correlation n cov)); auto.
  - rewrite cov_to_correlation_pos by assumption.
    pose proof (sqrt_lt_R0 _ (Hp i Hi)). pose proof (sqrt_lt_R0 _ (Hp j Hj)). field. lra.
  - apply correlation_to_cov_is_cov.
  - intros. now apply cov_to_correlation_unit.
  - apply cov_to_correlation_sym.
Qed.

Lemma corr_cov_corr : forall n std corr, (forall i, (i < n)%nat -> 0 < std i) ->
  (forall i, (i < n)%nat -> corr i i = 1) -> sym n corr ->
  forall i j, (i < n)%nat -> (j < n)%nat ->
  cov_to_correlation n (correlation_to_cov n std corr) i j = corr i j.
Proof.
  intros n std corr Hp H1 Hs i j Hi Hj.
  pose proof (correlation_to_cov_is_cov n std corr) as Hc.
  assert (Hd : forall k, (k < n)%nat -> correlation_to_cov n std corr k k = std k * std k) by apply Hc.
  rewrite cov_to_correlation_pos; auto.
  - rewrite !Hd by assumption. rewrite (is_cov_scaled _ _ _ _ Hc H1 Hs) by assumption.
    pose proof (Hp i Hi). pose proof (Hp j Hj). rewrite !sqrt_square by lra. field. lra.
  - intros a b Ha Hb. now apply Hc.
  - intros k Hk. rewrite Hd by assumption. pose proof (Hp k Hk). nra.
Qed.

(** *** Two-variable sections of a quadratic form *)
Definition two (i j : nat) (s t : R) : vec := fun k => if Nat.eqb k i then s else if Nat.eqb k j then t else 0.

Lemma quad_two : forall n m i j s t, (i < n)%nat -> (j < n)%nat -> i <> j ->
  quad n m (two i j s t) = s * s * m i i + s * t * m i j + s * t * m j i + t * t * m j j.
Proof.
  intros n m i j s t Hi Hj Hne. unfold quad.
  assert (Hin : forall a, sumn n (fun b => two i j s t a * m a b * two i j s t b) =
     two i j s t a * (m a i * s + m a j * t)).
  { intros a. rewrite (sumn_out n i) by assumption. rewrite (sumn_out n j) by assumption.
    destruct (Nat.eqb_spec j i); [congruence|]. rewrite sumn_0.
    - unfold two at 2 4. rewrite !Nat.eqb_refl. destruct (Nat.eqb_spec j i); [congruence|]. lra.
    - intros b _. destruct (Nat.eqb_spec b j); [lra|]. destruct (Nat.eqb_spec b i); [lra|].
      unfold two at 2. destruct (Nat.eqb_spec b i); [congruence|]. destruct (Nat.eqb_spec b j); [congruence|]. lra. }
  rewrite (sumn_ext _ _ _ (fun a _ => Hin a)).
  rewrite (sumn_out n i) by assumption. rewrite (sumn_out n j) by assumption.
  destruct (Nat.eqb_spec j i); [congruence|]. rewrite sumn_0.
  - unfold two. rewrite !Nat.eqb_refl. destruct (Nat.eqb_spec j i); [congruence|]. lra.
  - intros a _. destruct (Nat.eqb_spec a j); [lra|]. destruct (Nat.eqb_spec a i); [lra|].
    unfold two. destruct (Nat.eqb_spec a i); [congruence|]. destruct (Nat.eqb_spec a j); [congruence|]. lra.
Qed.

Lemma quad_one : forall n m i s, (i < n)%nat -> quad n m (fun k => if Nat.eqb k i then s else 0) = s * s * m i i.
Proof.
  intros n m i s Hi. unfold quad. rewrite (sumn_single n i) by
    (try assumption; intros a _ Ha; apply sumn_0; intros; apply Nat.eqb_neq in Ha; rewrite Ha; lra).
  rewrite (sumn_single n i) by (try assumption; intros b _ Hb; apply Nat.eqb_neq in Hb; rewrite Hb; lra).
  rewrite Nat.eqb_refl. lra.
Qed.

Lemma psd_minor : forall n m i j, psd n m -> sym n m -> (i < n)%nat -> (j < n)%nat ->
  0 <= m i i /\ (m i j) ^ 2 <= m i i * m j j.
Proof.
  intros n m i j Hp Hs Hi Hj.
  assert (Hd : forall k, (k < n)%nat -> 0 <= m k k).
  { intros k Hk. pose proof (Hp (fun a => if Nat.eqb a k then 1 else 0)) as H. rewrite quad_one in H by assumption. lra. }
  split; [auto|]. destruct (Nat.eq_dec i j) as [->|Hne]; [right; ring|].
  pose proof (Hd i Hi) as Hii. pose proof (Hd j Hj) as Hjj. pose proof (Hs i j Hi Hj) as He.
  assert (HQ : forall s t, 0 <= s * s * m i i + 2 * (s * t * m i j) + t * t * m j j).
  { intros s t. pose proof (Hp (two i j s t)) as H. rewrite quad_two in H by assumption. rewrite <- He in H. lra. }
  destruct (Req_dec (m i i) 0) as [H0|H0].
  - assert (m i j = 0).
    { destruct (Req_dec (m i j) 0) as [|Hx]; [assumption|exfalso].
      pose proof (HQ (- (m j j + 1) / (2 * m i j)) 1) as H. rewrite H0 in H.
      replace (- (m j j + 1) / (2 * m i j) * (- (m j j + 1) / (2 * m i j)) * 0 +
               2 * (- (m j j + 1) / (2 * m i j) * 1 * m i j) + 1 * 1 * m j j) with (-1) in H by (field; assumption). lra. }
    rewrite H, H0. lra.
  - pose proof (HQ (- m i j) (m i i)) as H. nra.
Qed.

Lemma cov_to_correlation_bound : forall n cov, sym n cov -> psd n cov ->
  (forall i, (i < n)%nat -> 0 < cov i i) ->
  forall i j, (i < n)%nat -> (j < n)%nat -> -1 <= cov_to_correlation n cov i j <= 1.
Proof.
  intros n cov Hs Hp Hd i j Hi Hj. rewrite cov_to_correlation_pos by assumption.
  destruct (psd_minor n cov i j Hp Hs Hi Hj) as [_ Hm].
  pose proof (Hd i Hi) as Hpi. pose proof (Hd j Hj) as Hpj.
  pose proof (sqrt_lt_R0 _ Hpi) as Ha. pose proof (sqrt_lt_R0 _ Hpj) as Hb.
  rewrite <- (sqrt_sqrt (cov i i)), <- (sqrt_sqrt (cov j j)) in Hm by lra.
  set (a := sqrt (cov i i)) in *. set (b := sqrt (cov j j)) in *.
  assert (Hab : 0 < a * b) by nra.
  assert (Hx : / a * cov i j * / b * (a * b) = cov i j) by (field; lra).
  set (x := / a * cov i j * / b) in *. set (p := a * b) in *.
  assert (Hm' : (cov i j) ^ 2 <= p * p) by (unfold p; lra).
  rewrite <- Hx in Hm'.
  split; apply Rnot_lt_le; intros Hlt.
  - assert (x * p < - p) by nra. nra.
  - assert (p < x * p) by nra. nra.
Qed.

Lemma cov_to_correlation_psd : forall n cov, sym n cov -> psd n cov ->
  (forall i, (i < n)%nat -> 0 < cov i i) -> psd n (cov_to_correlation n cov).
Proof.
  intros n cov Hs Hp Hd x.
  rewrite (quad_ext n _ (fun i j => / sqrt (cov i i) * cov i j * / sqrt (cov j j)) x x).
  - rewrite (quad_scaled n cov (fun i => / sqrt (cov i i))). apply Hp.
  - intros. now apply cov_to_correlation_pos.
  - reflexivity.
Qed.
