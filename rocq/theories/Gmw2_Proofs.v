From Coq Require Import Reals Lra Lia Arith Bool.
From Verif Require Import Mat CovCorr_Spec CovCorr_Proofs Gmw_Model Gmw_Spec Gmw_Proofs.
Local Open Scope R_scope.

(** ** gamma and xi *)
Lemma gamma_xi_spec : forall n A,
  is_max_diag n A (fst (gamma_xi n A)) /\ is_max_off n A (snd (gamma_xi n A)) /\
  0 <= fst (gamma_xi n A) /\ 0 <= snd (gamma_xi n A).
Proof.
  intros n A. unfold gamma_xi.
  set (D := fun (m : nat) (g : R) => 0 <= g /\ (forall i, (i < m)%nat -> Rabs (A i i) <= g) /\
     (g = 0 \/ exists i, (i < m)%nat /\ g = Rabs (A i i))).
  set (O := fun (m c : nat) (x : R) => 0 <= x /\
     (forall i j, (i < j)%nat -> (j < n)%nat -> (i < m \/ (i = m /\ j < c))%nat -> Rabs (A i j) <= x) /\
     (x = 0 \/ exists i j, (i < j)%nat /\ (j < n)%nat /\ x = Rabs (A i j))).
  set (I := fun (m : nat) (gx : R * R) => D m (fst gx) /\ O m 0%nat (snd gx)).
  assert (H : I n (gamma_xi n A)).
  { unfold gamma_xi. apply range_inv; [lia| |].
    - split; cbn.
      + split; [lra|split; [intros; lia|now left]].
      + split; [lra|split; [intros; lia|now left]].
    - intros i [g x] Hi [(D0 & D1 & D2) HO]. cbn [fst snd] in *.
      set (I2 := fun (c : nat) (gx : R * R) => D (S i) (fst gx) /\ O i c (snd gx)).
      assert (H2 : I2 n (range (S i) n (fun j gx => (fst gx, Rmax (Rabs (A i j)) (snd gx))) (Rmax (Rabs (A i i)) g, x))).
      { apply range_inv; [lia| |].
        - split; cbn [fst snd].
          + split; [|split].
            * eapply Rle_trans; [exact D0|apply Rmax_r].
            * intros k Hk. destruct (Nat.eq_dec k i) as [->|]; [apply Rmax_l|].
              eapply Rle_trans; [apply D1; lia|apply Rmax_r].
            * unfold Rmax. destruct (Rle_dec (Rabs (A i i)) g).
              -- destruct D2 as [->|(k & Hk & E)]; [now left|right]. exists k. split; [lia|assumption].
              -- right. exists i. split; [lia|reflexivity].
          + destruct HO as (O0 & O1 & O2). split; [assumption|split; [|assumption]].
            intros a b H1 H2 H3. apply O1; lia.
        - intros c [g' x'] Hc [HD (O0 & O1 & O2)]. cbn [fst snd] in *. split; cbn [fst snd]; [assumption|].
          split; [|split].
          + eapply Rle_trans; [exact O0|apply Rmax_r].
          + intros a b H1 H2 H3. destruct (Nat.eq_dec a i) as [->|].
            * destruct (Nat.eq_dec b c) as [->|]; [apply Rmax_l|].
              eapply Rle_trans; [apply O1; lia|apply Rmax_r].
            * eapply Rle_trans; [apply O1; lia|apply Rmax_r].
          + unfold Rmax. destruct (Rle_dec (Rabs (A i c)) x').
            * exact O2.
            * right. exists i, c. repeat split; lia || reflexivity. }
      destruct H2 as [HD (O0 & O1 & O2)]. split; [exact HD|].
      split; [exact O0|split; [|exact O2]]. intros a b H1 H2 H3. apply O1; lia. }
  destruct H as [(D0 & D1 & D2) (O0 & O1 & O2)].
  fold (gamma_xi n A). repeat split; auto. intros i j H1 H2. apply O1; lia.
Qed.

Lemma beta_ge : forall eps n g x, 0 < eps -> 0 < gmw_beta eps n g x /\ g <= gmw_beta eps n g x ^ 2.
Proof.
  intros eps n g x He. unfold gmw_beta.
  assert (G : forall m, g <= m -> eps <= m -> 0 < sqrt m /\ g <= sqrt m ^ 2).
  { intros m H1 H2. split; [apply sqrt_lt_R0; lra|]. cbn. rewrite Rmult_1_r, sqrt_sqrt by lra. assumption. }
  destruct (Nat.eqb n 1); apply G.
  - apply Rmax_l.
  - apply Rmax_r.
  - eapply Rle_trans; [apply Rmax_l|apply Rmax_l].
  - apply Rmax_r.
Qed.

Lemma delta_pos : forall eps g x, 0 < eps -> 0 < gmw_delta eps g x.
Proof.
  intros eps g x He. unfold gmw_delta. apply Rmult_lt_0_compat; [assumption|].
  eapply Rlt_le_trans; [|apply Rmax_r]. lra.
Qed.

(** ** Factorisation *)
Definition final (eps : R) (n : nat) (A : mat) : st :=
  let gx := gamma_xi n A in
  range 0 n (gmw_step n (gmw_beta eps n (fst gx) (snd gx)) (gmw_delta eps (fst gx) (snd gx)))
    (mkst A (fun _ _ => 0) (fun _ => 0) meye).

Lemma gmw_final : forall eps n A, gmw_cholesky eps n A = (sP (final eps n A), tr (sr (final eps n A)), se (final eps n A)).
Proof. reflexivity. Qed.

Lemma final_inv : forall eps n A, 0 < eps -> sym n A -> exists p, inv n A n (final eps n A) p.
Proof.
  intros eps n A He Hs. unfold final. set (gx := gamma_xi n A).
  set (I := fun (j : nat) (s : st) => exists p, inv n A j s p).
  match goal with |- context [range ?lo ?hi ?f ?s] => enough (I n (range lo hi f s)) by assumption end.
  apply range_inv; [lia| |].
  - exists (fun i => i). now apply inv0.
  - intros j s Hj [p Hp].
    destruct (gmw_step_spec n j (gmw_beta eps n (fst gx) (snd gx)) (gmw_delta eps (fst gx) (snd gx)) s ltac:(lia)) as (q & dj & Hst).
    exists (fun i => p (swapi j q i)).
    refine (stepped_inv _ _ _ _ _ _ _ _ _ _ _ _ Hst Hp); [now apply delta_pos|lia].
Qed.

Lemma perm_mul : forall n P p L k j, perm_matrix n P p -> (k < n)%nat -> mmul n P L (p k) j = L k j.
Proof.
  intros n P p L k j (P1 & P2 & P4 & P3) Hk. unfold mmul. rewrite (sumn_single n k); auto.
  - rewrite P3 by auto. rewrite Nat.eqb_refl. lra.
  - intros l Hl Hne. rewrite P3 by auto. destruct (Nat.eqb_spec (p k) (p l)) as [E|]; [|lra].
    apply P2 in E; auto. congruence.
Qed.

Lemma inv_factors : forall n A s p, inv n A n s p -> factors n A (sP s) (tr (sr s)) (se s).
Proof.
  intros n A s p [_ Hperm _ _ _ _ Hfac] i k Hi Hk.
  pose proof Hperm as (P1 & P2 & P4 & P3).
  destruct (P4 i Hi) as (i' & Hi' & <-). destruct (P4 k Hk) as (k' & Hk' & <-).
  pose proof (Hfac i' k' Hi' Hk') as F. unfold lo in F.
  destruct (Nat.leb_spec n i'); [lia|]. destruct (Nat.ltb_spec i' n); [|lia].
  cbn [andb] in F. rewrite andb_true_r in F. rewrite Rplus_0_r in F.
  unfold mmul at 1. erewrite sumn_ext.
  2:{ intros m Hm. unfold tr at 2. rewrite !(perm_mul n (sP s) p) by assumption. unfold tr. reflexivity. }
  rewrite <- F. f_equal.
  unfold mmul at 1. erewrite sumn_ext.
  2:{ intros m Hm. rewrite (perm_mul n (sP s) p) by assumption. unfold tr, mdiag. reflexivity. }
  rewrite (sumn_single n k') .
  2: assumption.
  2:{ intros m Hm Hne. rewrite P3 by auto.
      destruct (Nat.eqb_spec (p k') (p m)) as [E|]; [|lra]. apply P2 in E; auto. congruence. }
  rewrite P3 by auto. rewrite Nat.eqb_refl. destruct (Nat.eqb i' k'); lra.
Qed.

Lemma gmw_factors : forall eps n A P L e, 0 < eps -> sym n A -> gmw_cholesky eps n A = (P, L, e) ->
  (exists p, perm_matrix n P p) /\ lower n L /\ (forall j, (j < n)%nat -> 0 <= e j) /\ factors n A P L e.
Proof.
  intros eps n A P L e He Hs E. rewrite gmw_final in E. injection E as <- <- <-.
  destruct (final_inv eps n A He Hs) as [p Hp]. split; [|split; [|split]].
  - exists p. apply Hp.
  - split.
    + intros i k Hik Hk. unfold tr. apply (iv_low _ _ _ _ _ Hp); lia.
    + intros i Hi. unfold tr. now apply (iv_pos _ _ _ _ _ Hp).
  - intros j Hj. now apply (iv_e _ _ _ _ _ Hp).
  - eapply inv_factors. eassumption.
Qed.

(** ** Positive semi-definite input *)
Lemma sumn_swapi : forall n a b f, (a < n)%nat -> (b < n)%nat -> sumn n (fun i => f (swapi a b i)) = sumn n f.
Proof.
  intros n a b f Ha Hb. destruct (Nat.eq_dec a b) as [->|Hab].
  { apply sumn_ext. intros k _. f_equal. unfold swapi. beq. }
  rewrite (sumn_out n a) by assumption. rewrite (sumn_out n b (fun i => if Nat.eqb i a then 0 else _)) by assumption.
  rewrite (sumn_out n a f) by assumption. rewrite (sumn_out n b (fun i => if Nat.eqb i a then 0 else f i)) by assumption.
  destruct (Nat.eqb_spec b a); [congruence|]. rewrite swapi_l, swapi_r.
  match goal with |- _ + (_ + ?x) = _ + (_ + ?y) => assert (E : x = y) end.
  { apply sumn_ext. intros k _. beq. now rewrite swapi_o. }
  rewrite E. lra.
Qed.

Lemma quad_swapi : forall n a b m x, (a < n)%nat -> (b < n)%nat ->
  quad n (fun i k => m (swapi a b i) (swapi a b k)) x = quad n m (fun i => x (swapi a b i)).
Proof.
  intros n a b m x Ha Hb. unfold quad.
  rewrite <- (sumn_swapi n a b (fun i => sumn n (fun j => x (swapi a b i) * m i j * x (swapi a b j)))) by assumption.
  apply sumn_ext. intros i _.
  rewrite <- (sumn_swapi n a b (fun j => x (swapi a b (swapi a b i)) * m (swapi a b i) j * x (swapi a b j))) by assumption.
  apply sumn_ext. intros k _. now rewrite !swapi_invol.
Qed.

Lemma sq_swapi : forall n a b x, (a < n)%nat -> (b < n)%nat -> sq n (fun i => x (swapi a b i)) = sq n x.
Proof. intros. unfold sq. now rewrite (sumn_swapi n a b (fun i => x i * x i)). Qed.

Definition unit (j : nat) (t : R) : vec := fun i => if Nat.eqb i j then t else 0.

Lemma sumn_unit : forall n j t f, (j < n)%nat -> sumn n (fun i => unit j t i * f i) = t * f j.
Proof.
  intros n j t f Hj. rewrite (sumn_single n j); auto; unfold unit.
  - now rewrite Nat.eqb_refl.
  - intros i _ Hi. apply Nat.eqb_neq in Hi. rewrite Hi. lra.
Qed.

Lemma quad_shift : forall n m x j t, (j < n)%nat -> sym n m ->
  quad n m (fun i => x i + unit j t i) =
  quad n m x + 2 * t * sumn n (fun i => m j i * x i) + t * t * m j j.
Proof.
  intros n m x j t Hj Hs. unfold quad.
  transitivity (sumn n (fun a => sumn n (fun b => x a * m a b * x b) + (x a * m a j) * t +
                                 unit j t a * (sumn n (fun b => m a b * x b) + m a j * t))).
  { apply sumn_ext. intros a Ha.
    transitivity (sumn n (fun b => x a * m a b * x b + (unit j t b * (x a * m a b)) +
                    unit j t a * (m a b * x b) + unit j t b * (unit j t a * m a b))).
    { apply sumn_ext. intros; lra. }
    rewrite !sumn_add. rewrite (sumn_unit n j t (fun b => x a * m a b)) by assumption.
    rewrite (sumn_unit n j t (fun b => unit j t a * m a b)) by assumption.
    rewrite sumn_scal. lra. }
  rewrite !sumn_add. rewrite (sumn_unit n j t (fun a => sumn n (fun b => m a b * x b) + m a j * t)) by assumption.
  rewrite sumn_scal_r.
  rewrite (sumn_ext n (fun a => x a * m a j) (fun a => m j a * x a)) by (intros; rewrite (Hs k j) by assumption; lra).
  lra.
Qed.

Lemma sq_shift : forall n x j t, (j < n)%nat -> x j = 0 -> sq n (fun i => x i + unit j t i) = sq n x + t * t.
Proof.
  intros n x j t Hj Hx. unfold sq.
  transitivity (sumn n (fun i => x i * x i + unit j t i * (2 * x i + unit j t i))).
  { apply sumn_ext. intros. lra. }
  rewrite sumn_add, (sumn_unit n j t (fun i => 2 * x i + unit j t i)) by assumption.
  unfold unit. rewrite Nat.eqb_refl, Hx. lra.
Qed.

(** The part of the matrix still to be eliminated is bounded below by [lam]. *)
Record tail_ok (n j : nat) (a : mat) (lam g : R) : Prop := {
  tk_low : forall x, (forall i, (i < j)%nat -> x i = 0) -> lam * sq n x <= quad n a x;
  tk_diag : forall i, (j <= i < n)%nat -> a i i <= g }.

Lemma sq_nonneg : forall n x, 0 <= sq n x.
Proof. intros. unfold sq. apply sumn_nonneg. intros. nra. Qed.

Lemma quad_rank1 : forall n (a : mat) (v x : vec),
  quad n (fun i k => a i k - v i * v k) x = quad n a x - (sumn n (fun i => v i * x i)) ^ 2.
Proof.
  intros n a v x. unfold quad.
  transitivity (sumn n (fun i => sumn n (fun j => x i * a i j * x j) - (v i * x i) * sumn n (fun j => v j * x j))).
  { apply sumn_ext. intros i _. rewrite <- sumn_scal, <- sumn_sub. apply sumn_ext. intros. lra. }
  rewrite sumn_sub, sumn_scal_r. lra.
Qed.

(** Schur complement with an enlarged pivot. *)
Lemma schur_low : forall n j (a : mat) lam dj, (j < n)%nat -> 0 <= lam -> sym n a ->
  (forall x, (forall i, (i < j)%nat -> x i = 0) -> lam * sq n x <= quad n a x) ->
  0 < dj -> a j j <= dj ->
  forall x, (forall i, (i <= j)%nat -> x i = 0) ->
  lam * sq n x <= quad n (fun i k => a i k - a j i / sqrt dj * (a j k / sqrt dj)) x.
Proof.
  intros n j a lam dj Hj Hlam Hs Hlow Hd Hge x Hx.
  rewrite (quad_rank1 n a (fun i => a j i / sqrt dj)).
  set (sg := sumn n (fun i => a j i * x i)).
  assert (E : sumn n (fun i => a j i / sqrt dj * x i) = sg / sqrt dj).
  { unfold sg, Rdiv. rewrite <- sumn_scal_r. apply sumn_ext. intros. lra. }
  rewrite E.
  assert (Hsq : 0 < sqrt dj) by now apply sqrt_lt_R0.
  assert (E2 : (sg / sqrt dj) ^ 2 = sg * sg / dj).
  { replace (sg * sg / dj) with (sg * sg / (sqrt dj * sqrt dj)) by (rewrite sqrt_sqrt by lra; reflexivity). field. lra. }
  rewrite E2.
  set (t := - sg / dj).
  pose proof (Hlow (fun i => x i + unit j t i)) as H.
  rewrite quad_shift in H by assumption. rewrite sq_shift in H by (auto; apply Hx; lia).
  assert (H' : lam * (sq n x + t * t) <= quad n a x + 2 * t * sg + t * t * a j j).
  { apply H. intros i Hi. unfold unit. destruct (Nat.eqb_spec i j); [lia|]. rewrite Hx by lia. lra. }
  assert (Et : t * dj = - sg) by (unfold t; field; lra).
  assert (Es : sg * sg / dj = t * t * dj).
  { unfold t. field. lra. }
  rewrite Es.
  assert (0 <= lam * (t * t)) by (apply Rmult_le_pos; nra).
  assert (t * t * a j j <= t * t * dj) by (apply Rmult_le_compat_l; nra).
  assert (2 * t * sg = - 2 * (t * t * dj)) by nra.
  lra.
Qed.

Lemma theta_le : forall n j a M, 0 <= M -> (forall i, (j < i < n)%nat -> Rabs (a j i) <= M) -> 0 <= theta n j a <= M.
Proof.
  intros n j a M HM H. unfold theta. destruct (Nat.ltb_spec j (n - 1)); [|lra].
  set (I := fun (_ : nat) (t : R) => 0 <= t <= M).
  match goal with |- context [range ?lo ?hi ?f ?s] => enough (I n (range lo hi f s)) by assumption end.
  apply range_inv; [lia|unfold I; lra|].
  intros i t Hi [H1 H2]. split.
  - eapply Rle_trans; [exact H1|apply Rmax_l].
  - apply Rmax_lub; [assumption|apply H; lia].
Qed.

Lemma quad_supp : forall n m m' x,
  (forall i k, (i < n)%nat -> (k < n)%nat -> m i k = m' i k \/ x i = 0 \/ x k = 0) -> quad n m x = quad n m' x.
Proof.
  intros n m m' x H. unfold quad. apply sumn_ext; intros i Hi. apply sumn_ext; intros k Hk.
  destruct (H i k Hi Hk) as [->|[->| ->]]; lra.
Qed.

Lemma stepped_tail : forall n j beta delta s s' q dj lam g, 0 <= lam -> 0 < delta -> 0 < beta -> g <= beta ^ 2 ->
  (j < n)%nat -> stepped n j beta delta s s' q dj ->
  (forall i k, (j <= i < n)%nat -> (j <= k < n)%nat -> sa s i k = sa s k i) ->
  tail_ok n j (sa s) lam g ->
  tail_ok n (S j) (sa s') lam g /\ dj - sa s q q <= Rmax 0 (delta - lam).
Proof.
  intros n j beta delta s s' q dj lam g Hlam Hdelta Hbeta Hg Hj [Hq Hqm Hdj _ _ _ Ha] Hsym [Hlow Hdg].
  (* entries outside the tail do not matter: cut them *)
  set (c := fun i k => lo j i k (sa s i k)).
  assert (Hc : forall i k, (j <= i)%nat -> (j <= k)%nat -> c i k = sa s i k).
  { intros i k Hi Hk. unfold c, lo. destruct (Nat.leb_spec j i), (Nat.leb_spec j k); try lia. reflexivity. }
  assert (Hcs : sym n c).
  { intros i k Hi Hk. unfold c, lo. rewrite (andb_comm (Nat.leb j k)).
    destruct (Nat.leb_spec j i), (Nat.leb_spec j k); cbn [andb]; try reflexivity. apply Hsym; lia. }
  assert (Hcl : forall x, (forall i, (i < j)%nat -> x i = 0) -> lam * sq n x <= quad n c x).
  { intros x Hx. rewrite (quad_supp n c (sa s) x); auto. intros i k Hi Hk.
    destruct (Nat.lt_ge_cases i j); [right; left; auto|]. destruct (Nat.lt_ge_cases k j); [right; right; auto|].
    left. now apply Hc. }
  assert (Hcp : psd n c).
  { intros x.
    replace (quad n c x) with (quad n c (fun i => if Nat.ltb i j then 0 else x i)).
    - eapply Rle_trans; [|apply Hcl].
      + apply Rmult_le_pos; [assumption|apply sq_nonneg].
      + intros i Hi. apply Nat.ltb_lt in Hi. now rewrite Hi.
    - unfold quad. apply sumn_ext; intros i Hi. apply sumn_ext; intros k Hk. unfold c, lo.
      destruct (Nat.ltb_spec i j), (Nat.ltb_spec k j), (Nat.leb_spec j i), (Nat.leb_spec j k); try lia; cbn [andb]; lra. }
  assert (Hsw : forall i, (i < n)%nat -> (swapi j q i < n)%nat) by (intros; apply swapi_lt; lia).
  assert (Hsw2 : forall i, (j <= i)%nat -> (j <= swapi j q i)%nat) by (intros; unfold swapi; beq).
  assert (Hsw3 : forall i, (i < j)%nat -> swapi j q i = i) by (intros; apply swapi_o; lia).
  set (a' := fun i k => c (swapi j q i) (swapi j q k)).
  assert (Has : sym n a') by (intros i k Hi Hk; apply Hcs; auto).
  assert (Hal : forall x, (forall i, (i < j)%nat -> x i = 0) -> lam * sq n x <= quad n a' x).
  { intros x Hx. unfold a'. rewrite quad_swapi by lia. rewrite <- (sq_swapi n j q x) by lia.
    apply Hcl. intros i Hi. rewrite Hsw3 by assumption. auto. }
  assert (Hdgl : forall i, (j <= i < n)%nat -> lam <= sa s i i).
  { intros i Hi. pose proof (Hcl (fun k => if Nat.eqb k i then 1 else 0)) as H.
    rewrite quad_one in H by lia. rewrite Hc in H by lia.
    assert (E : sq n (fun k => if Nat.eqb k i then 1 else 0) = 1).
    { unfold sq. rewrite (sumn_single n i); [rewrite Nat.eqb_refl; lra|lia|].
      intros k _ Hk. apply Nat.eqb_neq in Hk. rewrite Hk. lra. }
    rewrite E in H. rewrite !Rmult_1_r, Rmult_1_l in H. apply H. intros k Hk. destruct (Nat.eqb_spec k i); [lia|reflexivity]. }
  pose proof (Hdgl q ltac:(lia)) as Hlq.
  assert (Hmax : forall i, (j <= i < n)%nat -> sa s i i <= sa s q q).
  { intros i Hi. pose proof (Hqm i Hi) as H. pose proof (Hdgl i Hi). rewrite !Rabs_right in H by lra. exact H. }
  assert (Hoff : forall i, (j <= i < n)%nat -> Rabs (sa s q i) <= sa s q q).
  { intros i Hi. destruct (psd_minor n c q i Hcp Hcs ltac:(lia) ltac:(lia)) as [_ H].
    rewrite !Hc in H by lia. pose proof (Hmax i Hi). pose proof (Hdgl i Hi).
    assert (sa s q i ^ 2 <= sa s q q * sa s q q) by (eapply Rle_trans; [exact H|apply Rmult_le_compat_l; lra]).
    apply Rabs_le. split; apply Rnot_lt_le; intros Hlt; nra. }
  destruct (theta_le n j (fun i k => sa s (swapi j q i) (swapi j q k)) (sa s q q) ltac:(lra)) as [Hth0 Hth].
  { intros i Hi. rewrite swapi_l. apply Hoff. split; [apply Hsw2; lia|apply Hsw; lia]. }
  set (th := theta _ _ _) in *.
  pose proof (Hdg q ltac:(lia)) as Hqg.
  assert (Hratio : (th / beta) ^ 2 <= sa s q q).
  { assert (Hb2 : 0 < beta ^ 2) by nra.
    replace ((th / beta) ^ 2) with (th * th / beta ^ 2) by (field; lra).
    apply (Rmult_le_reg_r (beta ^ 2)); [assumption|]. unfold Rdiv. rewrite Rmult_assoc, Rinv_l by lra.
    rewrite Rmult_1_r. assert (th * th <= sa s q q * sa s q q) by nra.
    assert (sa s q q * sa s q q <= sa s q q * beta ^ 2) by (apply Rmult_le_compat_l; lra). lra. }
  assert (Hd : dj = Rmax (sa s q q) delta).
  { rewrite Hdj. unfold pivot_value. rewrite (Rabs_right (sa s q q)) by lra. now rewrite (Rmax_left (sa s q q)) by assumption. }
  assert (Hdp : 0 < dj) by (rewrite Hd; eapply Rlt_le_trans; [exact Hdelta|apply Rmax_r]).
  assert (Hdq : sa s q q <= dj) by (rewrite Hd; apply Rmax_l).
  split.
  - assert (Hent : forall i k, (j < i < n)%nat -> (j < k < n)%nat ->
      sa s' i k = a' i k - a' j i / sqrt dj * (a' j k / sqrt dj)).
    { intros i k Hi Hk. rewrite Ha by assumption. unfold a'. rewrite swapi_l.
      rewrite !Hc by (try apply Hsw2; lia). f_equal.
      destruct (Nat.le_ge_cases i k).
      - now rewrite Nat.min_l, Nat.max_r by lia.
      - rewrite Nat.min_r, Nat.max_l by lia. apply Hsym; split; try apply Hsw2; try apply Hsw; lia. }
    split.
    + intros x Hx. rewrite (quad_supp n (sa s') (fun i k => a' i k - a' j i / sqrt dj * (a' j k / sqrt dj)) x).
      * apply schur_low; auto.
        -- unfold a'. rewrite swapi_l, Hc by lia. assumption.
        -- intros i Hi. apply Hx. lia.
      * intros i k Hi Hk. destruct (Nat.lt_ge_cases i (S j)); [right; left; auto|].
        destruct (Nat.lt_ge_cases k (S j)); [right; right; auto|]. left. apply Hent; lia.
    + intros i Hi. rewrite Hent by lia.
      pose proof (Hdg (swapi j q i) (conj (Hsw2 i ltac:(lia)) (Hsw i ltac:(lia)))) as H.
      unfold a' at 1. rewrite Hc by (apply Hsw2; lia).
      assert (0 <= a' j i / sqrt dj * (a' j i / sqrt dj)) by nra. lra.
  - rewrite Hd. unfold Rmax. destruct (Rle_dec (sa s q q) delta), (Rle_dec 0 (delta - lam)); lra.
Qed.

Lemma final_tail : forall eps n A lam, 0 < eps -> 0 <= lam -> sym n A -> bounded_below n A lam ->
  forall j, (j < n)%nat ->
  se (final eps n A) j <= Rmax 0 (gmw_delta eps (fst (gamma_xi n A)) (snd (gamma_xi n A)) - lam).
Proof.
  intros eps n A lam He Hlam Hs Hb. unfold final.
  destruct (gamma_xi_spec n A) as ((G1 & _) & _ & _ & _).
  set (g := fst (gamma_xi n A)) in *. set (x := snd (gamma_xi n A)) in *.
  destruct (beta_ge eps n g x He) as [B1 B2]. pose proof (delta_pos eps g x He) as D1.
  set (beta := gmw_beta eps n g x) in *. set (delta := gmw_delta eps g x) in *.
  set (I := fun (j : nat) (s : st) => (exists p, inv n A j s p) /\ tail_ok n j (sa s) lam g /\
     forall i, (i < j)%nat -> se s i <= Rmax 0 (delta - lam)).
  match goal with |- context [range ?lo ?hi ?f ?s] => assert (H : I n (range lo hi f s)) end.
  { apply range_inv; [lia| |].
    - split; [|split].
      + exists (fun i => i). now apply inv0.
      + split; cbn [sa].
        * intros y _. apply Hb.
        * intros i Hi. eapply Rle_trans; [apply Rle_abs|]. apply G1. lia.
      + intros i Hi. lia.
    - intros j s Hj ((p & Hp) & Ht & Hse).
      destruct (gmw_step_spec n j beta delta s ltac:(lia)) as (q & dj & Hst).
      destruct (stepped_tail n j beta delta s _ q dj lam g Hlam D1 B1 B2 ltac:(lia) Hst (iv_sym _ _ _ _ _ Hp) Ht) as [Ht' He'].
      split; [|split].
      + exists (fun i => p (swapi j q i)). refine (stepped_inv _ _ _ _ _ _ _ _ _ _ D1 _ Hst Hp). lia.
      + exact Ht'.
      + intros i Hi. rewrite (sd_e _ _ _ _ _ _ _ _ Hst). destruct (Nat.eqb_spec i j); [assumption|]. apply Hse. lia. }
  destruct H as (_ & _ & H). exact H.
Qed.

(** ** The permutation is never trivial for equal diagonals *)
Lemma final_first : forall eps n A d, 0 < eps -> (2 <= n)%nat -> sym n A -> (forall i, (i < n)%nat -> A i i = d) ->
  exists p, inv n A n (final eps n A) p /\ p 0%nat = (n - 1)%nat.
Proof.
  intros eps n A d He Hn Hs Hd. unfold final.
  set (g := fst (gamma_xi n A)) in *. set (x := snd (gamma_xi n A)) in *.
  pose proof (delta_pos eps g x He) as D1.
  set (beta := gmw_beta eps n g x) in *. set (delta := gmw_delta eps g x) in *.
  set (s0 := mkst A (fun _ _ => 0) (fun _ => 0) meye).
  rewrite range_first by lia.
  assert (H1 : exists p, inv n A 1 (gmw_step n beta delta 0 s0) p /\ p 0%nat = (n - 1)%nat).
  { assert (Hp : pivot n 0 (sa s0) = (n - 1)%nat).
    { destruct (pivot_spec n 0 (sa s0) ltac:(lia)) as (Hq & _ & Hl).
      destruct (Nat.eq_dec (pivot n 0 (sa s0)) (n - 1)) as [|Hne]; [assumption|exfalso].
      pose proof (Hl (n - 1)%nat ltac:(lia)) as H. cbn [sa s0] in H. unfold s0 in H. cbn [sa] in H.
      rewrite !Hd in H by (fold s0; unfold s0 in Hq; cbn [sa] in *; lia). lra. }
    destruct (gmw_step_spec n 0 beta delta s0 ltac:(lia)) as (q & dj & Hst).
    exists (fun i => swapi 0 q i). split.
    - refine (stepped_inv n A 0 beta delta s0 _ q dj (fun i => i) D1 _ Hst _); [lia|now apply inv0].
    - rewrite swapi_l.
      pose proof (sd_q _ _ _ _ _ _ _ _ Hst) as Hq.
      (* the pivot of the step is the one selected *)
      assert (HPq : sP (gmw_step n beta delta 0 s0) q 0%nat = 1).
      { rewrite (sd_P _ _ _ _ _ _ _ _ Hst) by lia. rewrite swapi_l. unfold s0, meye, mdiag. cbn. now rewrite Nat.eqb_refl. }
      assert (HPn : forall i, (i < n)%nat -> sP (gmw_step n beta delta 0 s0) i 0%nat = meye i (n - 1)%nat).
      { intros i Hi. unfold gmw_step. rewrite Hp. cbn [sP].
        destruct (interchange_spec n 0 (n - 1) s0 ltac:(lia) ltac:(lia)) as (_ & _ & _ & IP).
        rewrite IP by lia. rewrite swapi_l. reflexivity. }
      rewrite HPn in HPq by lia. unfold meye, mdiag in HPq. destruct (Nat.eqb_spec q (n - 1)); [assumption|lra]. }
  set (I := fun (j : nat) (s : st) => (1 <= j)%nat /\ exists p, inv n A j s p /\ p 0%nat = (n - 1)%nat).
  match goal with |- context [range ?lo ?hi ?f ?s] => assert (H : I n (range lo hi f s)) end.
  { apply range_inv; [lia|split; [lia|assumption]|].
    intros j s Hj (Hj1 & p & Hp & Hp0). split; [lia|].
    destruct (gmw_step_spec n j beta delta s ltac:(lia)) as (q & dj & Hst).
    exists (fun i => p (swapi j q i)). split.
    - refine (stepped_inv _ _ _ _ _ _ _ _ _ _ D1 _ Hst Hp). lia.
    - pose proof (sd_q _ _ _ _ _ _ _ _ Hst). rewrite swapi_o by lia. assumption. }
  apply H.
Qed.

Lemma inv_gram : forall n A s p, inv n A n s p -> forall i k, (i < n)%nat -> (k < n)%nat ->
  mmul n (tr (sr s)) (sr s) i k = A (p i) (p k) + (if Nat.eqb i k then se s i else 0).
Proof.
  intros n A s p [_ _ _ _ _ _ Hfac] i k Hi Hk. pose proof (Hfac i k Hi Hk) as F.
  unfold lo in F. destruct (Nat.leb_spec n i); [lia|]. destruct (Nat.ltb_spec i n); [|lia].
  rewrite andb_true_r in F. cbn [andb] in F. rewrite F. unfold mmul, tr. lra.
Qed.

Lemma mmul_tr_tr : forall n L i k, mmul n (tr (tr L)) (tr L) i k = mmul n L (tr L) i k.
Proof. reflexivity. Qed.
