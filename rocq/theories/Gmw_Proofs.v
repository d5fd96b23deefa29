From Coq Require Import Reals Lra Lia Arith Bool.
From Verif Require Import Mat CovCorr_Proofs Gmw_Model Gmw_Spec.
Local Open Scope R_scope.

(** ** Elimination *)
Ltac beq := repeat match goal with
  | |- context [Nat.eqb ?a ?b] => destruct (Nat.eqb_spec a b); subst; cbn [andb orb]
  | |- context [Nat.ltb ?a ?b] => destruct (Nat.ltb_spec a b); cbn [andb orb]
  | |- context [Nat.leb ?a ?b] => destruct (Nat.leb_spec a b); cbn [andb orb]
  end; try lia; try reflexivity.

Lemma inner_spec : forall j i (rj : vec) (a : mat) x y, (j < i)%nat ->
  range (S j) (S i) (fun k (a : mat) => let v := a k i - rj i * rj k in upd (upd a i k v) k i v) a x y =
  if (Nat.eqb x i && Nat.ltb j y && Nat.leb y i)%bool then a y i - rj i * rj y
  else if (Nat.eqb y i && Nat.ltb j x && Nat.leb x i)%bool then a x i - rj i * rj x
  else a x y.
Proof.
  intros j i rj a x y Hji.
  set (I := fun (m : nat) (d : mat) => forall x y, d x y =
    if (Nat.eqb x i && Nat.ltb j y && Nat.ltb y m)%bool then a y i - rj i * rj y
    else if (Nat.eqb y i && Nat.ltb j x && Nat.ltb x m)%bool then a x i - rj i * rj x
    else a x y).
  assert (H : I (S i) (range (S j) (S i) (fun k (a : mat) => let v := a k i - rj i * rj k in upd (upd a i k v) k i v) a)).
  { apply range_inv; [lia| |].
    - intros x' y'. beq.
    - intros k d Hk IH x' y'. cbn zeta. unfold upd.
      assert (Eki : d k i = a k i).
      { rewrite (IH k i). beq. }
      rewrite Eki. rewrite (IH x' y'). beq. }
  rewrite (H x y). beq.
Qed.

Lemma eliminate_spec : forall n j a r, (j < n)%nat ->
  let rr := fun y => a j y / r j j in
  let ar := eliminate n j (a, r) in
  (forall x y, snd ar x y = if (Nat.eqb x j && Nat.ltb j y && Nat.ltb y n)%bool then rr y else r x y) /\
  (forall x y, fst ar x y =
     if (Nat.ltb j x && Nat.ltb j y && Nat.ltb x n && Nat.ltb y n)%bool
     then a (Nat.min x y) (Nat.max x y) - rr x * rr y else a x y).
Proof.
  intros n j a r Hj rr ar. subst ar. unfold eliminate.
  set (I := fun (m : nat) (p : mat * mat) =>
    (forall x y, snd p x y = if (Nat.eqb x j && Nat.ltb j y && Nat.ltb y m)%bool then rr y else r x y) /\
    (forall x y, fst p x y =
       if (Nat.ltb j x && Nat.ltb j y && Nat.ltb x m && Nat.ltb y m)%bool
       then a (Nat.min x y) (Nat.max x y) - rr x * rr y else a x y)).
  match goal with |- context [range ?lo ?hi ?f ?s] => set (F := f) end.
  enough (I n (range (S j) n F (a, r))) by assumption.
  apply range_inv; [lia| |].
  - split; intros x y; cbn [fst snd]; beq.
  - intros i p Hi [Hr Ha]. destruct p as [a1 r1]. cbn [fst snd] in *. unfold F, I. cbn beta zeta. cbn [fst snd].
    assert (E1 : a1 j i = a j i). { rewrite Ha. beq. }
    assert (E2 : r1 j j = r j j). { rewrite Hr. beq. }
    assert (Hr' : forall x y, upd r1 j i (a1 j i / r1 j j) x y =
       if (Nat.eqb x j && Nat.ltb j y && Nat.ltb y (S i))%bool then rr y else r x y).
    { intros x y. rewrite E1, E2. unfold upd. rewrite (Hr x y). beq. }
    split; [exact Hr'|].
    intros x y.
    etransitivity; [apply (inner_spec j i (fun k => upd r1 j i (a1 j i / r1 j j) j k) a1 x y); lia|].
    cbn beta. rewrite !Hr'. rewrite !(Ha _ _).
    assert (Eq : forall y, (j < y <= i)%nat -> a1 y i = a y i). { intros y0 Hy. rewrite Ha. beq. }
    destruct (Nat.eqb_spec x i) as [->|Hx]; cbn [andb].
    + beq; rewrite ?Nat.min_r, ?Nat.max_l by lia; try lra.
    + beq; rewrite ?Nat.min_l, ?Nat.max_r by lia; try lra.
Qed.

(** ** Interchange *)
Lemma swap_rows_eye : forall q j i k, swap_rows meye q j i k = if Nat.eqb (swapi j q i) k then 1 else 0.
Proof. intros. unfold swap_rows, meye, mdiag, swapi. beq. Qed.

Lemma mmul_swap_r : forall n q j m i k, (q < n)%nat -> (j < n)%nat -> (k < n)%nat ->
  mmul n m (swap_rows meye q j) i k = m i (swapi j q k).
Proof.
  intros n q j m i k Hq Hj Hk. unfold mmul. rewrite (sumn_single n (swapi j q k)).
  - rewrite swap_rows_eye, swapi_invol, Nat.eqb_refl. lra.
  - now apply swapi_lt.
  - intros l _ Hl. rewrite swap_rows_eye. destruct (Nat.eqb_spec (swapi j q l) k) as [E|]; [|lra].
    exfalso. apply Hl. rewrite <- E. symmetry. apply swapi_invol.
Qed.
Lemma mmul_swap_l : forall n q j m i k, (q < n)%nat -> (j < n)%nat -> (i < n)%nat ->
  mmul n (swap_rows meye q j) m i k = m (swapi j q i) k.
Proof.
  intros n q j m i k Hq Hj Hi. unfold mmul. rewrite (sumn_single n (swapi j q i)).
  - rewrite swap_rows_eye, Nat.eqb_refl. lra.
  - now apply swapi_lt.
  - intros l _ Hl. rewrite swap_rows_eye. destruct (Nat.eqb_spec (swapi j q i) l) as [E|]; [congruence|lra].
Qed.

Lemma interchange_spec : forall n j q s, (j < n)%nat -> (q < n)%nat ->
  let s' := interchange n j q s in
  (forall i k, (i < n)%nat -> (k < n)%nat -> sa s' i k = sa s (swapi j q i) (swapi j q k)) /\
  (forall i k, (i < n)%nat -> (k < n)%nat -> sr s' i k = sr s i (swapi j q k)) /\
  se s' = se s /\
  (forall i k, (i < n)%nat -> (k < n)%nat -> sP s' i k = sP s i (swapi j q k)).
Proof.
  intros n j q s Hj Hq s'. subst s'. unfold interchange.
  destruct (Nat.eqb_spec q j) as [->|Hne].
  - assert (E : forall i, swapi j j i = i) by (intros; unfold swapi; beq).
    repeat split; intros; now rewrite ?E.
  - cbn [sa sr se sP]. repeat split; intros i k Hi Hk.
    + rewrite mmul_swap_l by assumption. now rewrite mmul_swap_r.
    + now rewrite mmul_swap_r.
    + unfold swap_cols, swapi. beq.
Qed.

(** ** Pivot *)
Lemma pivot_spec : forall n j a, (j < n)%nat ->
  (j <= pivot n j a < n)%nat /\
  (forall i, (j <= i < n)%nat -> Rabs (a i i) <= Rabs (a (pivot n j a) (pivot n j a))) /\
  (forall i, (pivot n j a < i < n)%nat -> Rabs (a i i) < Rabs (a (pivot n j a) (pivot n j a))).
Proof.
  intros n j a Hj. unfold pivot.
  set (I := fun (m : nat) (q : nat) => (j <= q < m)%nat /\
    (forall i, (j <= i < m)%nat -> Rabs (a i i) <= Rabs (a q q)) /\
    (forall i, (q < i < m)%nat -> Rabs (a i i) < Rabs (a q q))).
  match goal with |- context [range ?lo ?hi ?f ?s] => enough (I n (range lo hi f s)) by assumption end.
  apply range_inv; [lia| |].
  - split; [lia|split; intros i Hi].
    + replace i with j by lia. lra.
    + lia.
  - intros i q Hi (H1 & H2 & H3). destruct (Rle_dec (Rabs (a q q)) (Rabs (a i i))) as [Hle|Hle]; split; [lia| |lia|].
    + split; intros k Hk.
      * destruct (Nat.eq_dec k i) as [->|]; [lra|]. pose proof (H2 k ltac:(lia)). lra.
      * lia.
    + split; intros k Hk.
      * destruct (Nat.eq_dec k i) as [->|]; [lra|]. apply H2. lia.
      * destruct (Nat.eq_dec k i) as [->|]; [lra|]. apply H3. lia.
Qed.

(** ** The whole loop *)
Definition lo (j i k : nat) (v : R) : R := if (Nat.leb j i && Nat.leb j k)%bool then v else 0.

Record inv (n : nat) (A : mat) (j : nat) (s : st) (p : nat -> nat) : Prop := {
  iv_sym : forall i k, (j <= i < n)%nat -> (j <= k < n)%nat -> sa s i k = sa s k i;
  iv_perm : perm_matrix n (sP s) p;
  iv_low : forall m i, (m < n)%nat -> (i < m)%nat -> sr s m i = 0;
  iv_zero : forall m i, (j <= m < n)%nat -> (i < n)%nat -> sr s m i = 0;
  iv_pos : forall i, (i < j)%nat -> 0 < sr s i i;
  iv_e : forall i, (i < j)%nat -> 0 <= se s i;
  iv_fac : forall i k, (i < n)%nat -> (k < n)%nat ->
    A (p i) (p k) + (if (Nat.eqb i k && Nat.ltb i j)%bool then se s i else 0) =
    sumn j (fun m => sr s m i * sr s m k) + lo j i k (sa s i k) }.

Lemma inv0 : forall n A, sym n A -> inv n A 0 (mkst A (fun _ _ => 0) (fun _ => 0) meye) (fun i => i).
Proof.
  intros n A Hs. split; cbn [sa sr se sP]; try (intros; lia); auto.
  - intros i k Hi Hk. apply Hs; lia.
  - split; [auto|split; [auto|split]].
    + intros i Hi. now exists i.
    + intros i k _ _. unfold meye, mdiag. beq.
  - intros i k Hi Hk. cbn. unfold lo. cbn. destruct (Nat.eqb i k); cbn; rewrite ?Rplus_0_r, ?Rplus_0_l; reflexivity.
Qed.

Lemma pivot_value_pos : forall beta delta th x, 0 < delta -> 0 < pivot_value beta delta th x.
Proof. intros. unfold pivot_value. eapply Rlt_le_trans; [eassumption|apply Rmax_r]. Qed.
Lemma pivot_value_ge : forall beta delta th x, x <= pivot_value beta delta th x.
Proof.
  intros. unfold pivot_value. eapply Rle_trans; [apply Rle_abs|]. eapply Rle_trans; [apply Rmax_l|]. apply Rmax_l.
Qed.

(** One step, described entry by entry. *)
Record stepped (n j : nat) (beta delta : R) (s s' : st) (q : nat) (dj : R) : Prop := {
  sd_q : (j <= q < n)%nat;
  sd_qmax : forall i, (j <= i < n)%nat -> Rabs (sa s i i) <= Rabs (sa s q q);
  sd_dj : dj = pivot_value beta delta (theta n j (fun i k => sa s (swapi j q i) (swapi j q k))) (sa s q q);
  sd_P : forall i k, (i < n)%nat -> (k < n)%nat -> sP s' i k = sP s i (swapi j q k);
  sd_e : forall i, se s' i = if Nat.eqb i j then dj - sa s q q else se s i;
  sd_r : forall m i, (m < n)%nat -> (i < n)%nat -> sr s' m i =
     if Nat.eqb m j then (if Nat.eqb i j then sqrt dj
                          else if Nat.ltb j i then sa s q (swapi j q i) / sqrt dj
                          else sr s m (swapi j q i))
     else sr s m (swapi j q i);
  sd_a : forall i k, (j < i < n)%nat -> (j < k < n)%nat -> sa s' i k =
     sa s (swapi j q (Nat.min i k)) (swapi j q (Nat.max i k)) -
     sa s q (swapi j q i) / sqrt dj * (sa s q (swapi j q k) / sqrt dj) }.

Lemma theta_ext : forall n j a b, (forall i, (j < i < n)%nat -> a j i = b j i) -> theta n j a = theta n j b.
Proof.
  intros n j a b H. unfold theta. destruct (Nat.ltb_spec j (n - 1)) as [Hj|]; [|reflexivity].
  unfold range. assert (G : forall len lo t, (j < lo)%nat -> (lo + len <= n)%nat ->
    for_ lo len (fun i t => Rmax t (Rabs (a j i))) t = for_ lo len (fun i t => Rmax t (Rabs (b j i))) t).
  { induction len as [|len IH]; intros l t H1 H2; cbn; [reflexivity|].
    rewrite (H l) by lia. apply IH; lia. }
  apply G; lia.
Qed.

Lemma gmw_step_spec : forall n j beta delta s, (j < n)%nat ->
  exists q dj, stepped n j beta delta s (gmw_step n beta delta j s) q dj.
Proof.
  intros n j beta delta s Hj.
  destruct (pivot_spec n j (sa s) Hj) as (Hq & Hqm & _).
  exists (pivot n j (sa s)).
  set (q := pivot n j (sa s)) in *.
  exists (pivot_value beta delta (theta n j (fun i k => sa s (swapi j q i) (swapi j q k))) (sa s q q)).
  destruct (interchange_spec n j q s Hj ltac:(lia)) as (Ia & Ir & Ie & IP).
  unfold gmw_step. fold q. set (s1 := interchange n j q s) in *.
  assert (Ejj : sa s1 j j = sa s q q). { rewrite Ia by assumption. now rewrite swapi_l. }
  assert (Eth : theta n j (sa s1) = theta n j (fun i k => sa s (swapi j q i) (swapi j q k))).
  { apply theta_ext. intros i Hi. apply Ia; lia. }
  rewrite Eth, Ejj. set (dj := pivot_value _ _ _ _) in *.
  destruct (eliminate_spec n j (sa s1) (upd (sr s1) j j (sqrt dj)) Hj) as [Er Ea].
  rewrite upd_same in Er, Ea.
  split; cbn [sa sr se sP]; auto.
  - intros i. unfold updv. rewrite Ie. reflexivity.
  - intros m i Hm Hi. rewrite Er. destruct (Nat.eqb_spec m j) as [->|Hmj]; cbn [andb].
    + destruct (Nat.eqb_spec i j) as [->|Hij].
      * rewrite Nat.ltb_irrefl. cbn [andb]. apply upd_same.
      * destruct (Nat.ltb_spec j i) as [Hji|Hji]; cbn [andb].
        -- destruct (Nat.ltb_spec i n); [|lia]. rewrite Ia by assumption. now rewrite swapi_l.
        -- rewrite upd_other by lia. now apply Ir.
    + rewrite upd_other by lia. now apply Ir.
  - intros i k Hi Hk. rewrite Ea.
    destruct (Nat.ltb_spec j i), (Nat.ltb_spec j k), (Nat.ltb_spec i n), (Nat.ltb_spec k n); try lia. cbn [andb].
    rewrite !Ia by lia. now rewrite swapi_l.
Qed.

Lemma stepped_inv : forall n A j beta delta s s' q dj p, 0 < delta -> (j < n)%nat ->
  stepped n j beta delta s s' q dj -> inv n A j s p -> inv n A (S j) s' (fun i => p (swapi j q i)).
Proof.
  intros n A j beta delta s s' q dj p Hdelta Hj Hst [Hsym Hperm Hlow Hzero Hpos He Hfac].
  destruct Hst as [Hq Hqm Hdj HP He' Hr Ha].
  assert (Hdpos : 0 < dj) by (rewrite Hdj; now apply pivot_value_pos).
  assert (Hdge : sa s q q <= dj) by (rewrite Hdj; apply pivot_value_ge).
  assert (Hsq : 0 < sqrt dj) by now apply sqrt_lt_R0.
  assert (Hss : sqrt dj * sqrt dj = dj) by (apply sqrt_sqrt; lra).
  assert (Hsw : forall i, (i < n)%nat -> (swapi j q i < n)%nat) by (intros; apply swapi_lt; lia).
  assert (Hsw2 : forall i, (j <= i < n)%nat -> (j <= swapi j q i < n)%nat).
  { intros i Hi. split; [|apply Hsw; lia]. unfold swapi. beq. }
  assert (Hsw3 : forall i, (i < j)%nat -> swapi j q i = i) by (intros; apply swapi_o; lia).
  split.
  - intros i k Hi Hk. rewrite !Ha by lia. rewrite (Nat.min_comm k i), (Nat.max_comm k i). lra.
  - destruct Hperm as (P1 & P2 & P4 & P3). split; [|split; [|split]].
    + intros k Hk. apply P1. now apply Hsw.
    + intros k l Hk Hl E. apply P2 in E; auto. rewrite <- (swapi_invol j q k), E. apply swapi_invol.
    + intros i Hi. destruct (P4 i Hi) as (k & Hk & E). exists (swapi j q k). split; [auto|]. now rewrite swapi_invol.
    + intros i k Hi Hk. rewrite HP by assumption. apply P3; auto.
  - intros m i Hm Him. rewrite Hr by lia. destruct (Nat.eqb_spec m j) as [->|].
    + destruct (Nat.eqb_spec i j); [lia|]. destruct (Nat.ltb_spec j i); [lia|]. apply Hzero; [lia|apply Hsw; lia].
    + destruct (Nat.lt_ge_cases m j).
      * rewrite Hsw3 by lia. now apply Hlow.
      * apply Hzero; [lia|apply Hsw; lia].
  - intros m i Hm Hi. rewrite Hr by lia. destruct (Nat.eqb_spec m j); [lia|]. apply Hzero; [lia|now apply Hsw].
  - intros i Hi. rewrite Hr by lia. destruct (Nat.eqb_spec i j) as [->|].
    + assumption.
    + rewrite Hsw3 by lia. apply Hpos. lia.
  - intros i Hi. rewrite He'. destruct (Nat.eqb_spec i j) as [->|].
    + lra.
    + apply He. lia.
  - intros i k Hi Hk. pose proof (Hfac (swapi j q i) (swapi j q k) (Hsw i Hi) (Hsw k Hk)) as F.
    cbn [sumn].
    assert (Esum : sumn j (fun m => sr s' m i * sr s' m k) =
                   sumn j (fun m => sr s m (swapi j q i) * sr s m (swapi j q k))).
    { apply sumn_ext. intros m Hm. rewrite !Hr by lia. destruct (Nat.eqb_spec m j); [lia|reflexivity]. }
    rewrite Esum. unfold lo in *. rewrite He'.
    (* three zones for each index *)
    assert (Zi : (i < j)%nat \/ i = j \/ (j < i)%nat) by lia.
    assert (Zk : (k < j)%nat \/ k = j \/ (j < k)%nat) by lia.
    destruct Zi as [Zi|Zi].
    + (* i < j *)
      rewrite (Hsw3 i) in * by assumption.
      assert (Erz : sr s' j i = 0).
      { rewrite Hr by lia. rewrite Nat.eqb_refl. destruct (Nat.eqb_spec i j); [lia|]. destruct (Nat.ltb_spec j i); [lia|].
        rewrite Hsw3 by assumption. apply Hzero; lia. }
      rewrite Erz. destruct (Nat.leb_spec j i); [lia|]. destruct (Nat.leb_spec (S j) i); [lia|].
      destruct (Nat.eqb_spec i j); [lia|]. destruct (Nat.ltb_spec i (S j)); [|lia]. destruct (Nat.ltb_spec i j); [|lia].
      cbn [andb] in *.
      destruct (Nat.eqb_spec i k) as [->|Hik].
      * rewrite (Hsw3 k) in * by assumption. rewrite Nat.eqb_refl in F. cbn [andb] in *. lra.
      * destruct (Nat.eqb_spec i (swapi j q k)) as [E|].
        { exfalso. apply Hik. rewrite <- (Hsw3 i Zi), E. apply swapi_invol. }
        cbn [andb] in *. lra.
    + assert (Hji : (j <= i)%nat) by lia. pose proof (Hsw2 i ltac:(lia)) as Si.
      destruct (Nat.ltb_spec (swapi j q i) j); [lia|]. destruct (Nat.leb_spec j (swapi j q i)); [|lia].
      rewrite andb_false_r in F.
      destruct Zk as [Zk|Zk].
      * (* k < j <= i *)
        rewrite (Hsw3 k) in * by assumption.
        assert (Erz : sr s' j k = 0).
        { rewrite Hr by lia. rewrite Nat.eqb_refl. destruct (Nat.eqb_spec k j); [lia|]. destruct (Nat.ltb_spec j k); [lia|].
          rewrite Hsw3 by assumption. apply Hzero; lia. }
        rewrite Erz. destruct (Nat.leb_spec j k); [lia|]. destruct (Nat.leb_spec (S j) k); [lia|].
        destruct (Nat.eqb_spec i k); [lia|]. rewrite andb_false_r in *. cbn [andb] in *. lra.
      * assert (Hjk : (j <= k)%nat) by lia. pose proof (Hsw2 k ltac:(lia)) as Sk.
        destruct (Nat.leb_spec j (swapi j q k)); [|lia]. cbn [andb] in F.
        destruct Zi as [->|Zi]; destruct Zk as [->|Zk].
        -- (* i = j = k *)
           rewrite Nat.eqb_refl. destruct (Nat.ltb_spec j (S j)); [|lia]. destruct (Nat.leb_spec (S j) j); [lia|].
           cbn [andb]. rewrite swapi_l in *. rewrite Hr by lia. rewrite Nat.eqb_refl. lra.
        -- (* i = j < k *)
           destruct (Nat.eqb_spec j k); [lia|]. destruct (Nat.leb_spec (S j) j); [lia|]. cbn [andb].
           rewrite swapi_l in *. rewrite !Hr by lia. rewrite Nat.eqb_refl.
           destruct (Nat.eqb_spec k j); [lia|]. destruct (Nat.ltb_spec j k); [|lia].
           replace (sqrt dj * (sa s q (swapi j q k) / sqrt dj)) with (sa s q (swapi j q k)) by (field; lra). lra.
        -- (* k = j < i *)
           destruct (Nat.eqb_spec i j); [lia|]. destruct (Nat.leb_spec (S j) j); [lia|]. rewrite andb_false_r. cbn [andb].
           rewrite swapi_l in *. rewrite !Hr by lia. rewrite Nat.eqb_refl.
           destruct (Nat.eqb_spec i j); [lia|]. destruct (Nat.ltb_spec j i); [|lia].
           replace (sa s q (swapi j q i) / sqrt dj * sqrt dj) with (sa s q (swapi j q i)) by (field; lra).
           rewrite (Hsym q (swapi j q i)) by lia. lra.
        -- (* both beyond *)
           destruct (Nat.eqb_spec i k) as [<-|Hik].
           ++ destruct (Nat.ltb_spec i (S j)); [lia|]. destruct (Nat.leb_spec (S j) i); [|lia]. cbn [andb].
              rewrite Ha by lia. rewrite Nat.min_id, Nat.max_id. rewrite Hr by lia. rewrite Nat.eqb_refl.
              destruct (Nat.eqb_spec i j); [lia|]. destruct (Nat.ltb_spec j i); [|lia]. lra.
           ++ destruct (Nat.leb_spec (S j) i); [|lia]. destruct (Nat.leb_spec (S j) k); [|lia]. cbn [andb].
              rewrite Ha by lia. rewrite !Hr by lia. rewrite !Nat.eqb_refl.
              destruct (Nat.eqb_spec i j); [lia|]. destruct (Nat.ltb_spec j i); [|lia].
              destruct (Nat.eqb_spec k j); [lia|]. destruct (Nat.ltb_spec j k); [|lia].
              destruct (Nat.le_ge_cases i k).
              ** rewrite Nat.min_l, Nat.max_r by lia. lra.
              ** rewrite Nat.min_r, Nat.max_l by lia. rewrite (Hsym (swapi j q k) (swapi j q i)) by lia. lra.
Qed.
