From Coq Require Import Reals ZArith List Lia Lra Bool.
From Verif Require Import Tab1d_Model Tab1d_Spec.
Import ListNotations.
Local Open Scope R_scope.

Lemma near_close a b : near a b = true <-> close a b.
Proof.
  unfold near, close. replace (1 / 10 ^ 14 + 1 / 10 ^ 5 * Rabs b) with (/ 10 ^ 14 + / 10 ^ 5 * Rabs b) by (unfold Rdiv; ring).
  destruct (Rle_dec _ _); split; intros; try assumption; try reflexivity; try discriminate; contradiction.
Qed.
Lemma near_not a b : ~ close a b -> near a b = false.
Proof. intros H. destruct (near a b) eqn:E; [|reflexivity]. apply near_close in E. contradiction. Qed.

Lemma increasing_lt l : increasing l -> forall j i, (i < j < length l)%nat -> nth i l 0 < nth j l 0.
Proof.
  intros H. induction j as [|j IH]; intros i Hi; [lia|].
  destruct (Nat.eq_dec i j) as [->|Hne]; [apply H; lia|].
  apply Rlt_trans with (nth j l 0); [apply IH; lia|apply H; lia].
Qed.
Lemma increasing_le l : increasing l -> forall j i, (i <= j < length l)%nat -> nth i l 0 <= nth j l 0.
Proof.
  intros H j i Hi. destruct (Nat.eq_dec i j) as [->|Hne]; [lra|]. left. apply increasing_lt; [assumption|lia].
Qed.
Lemma increasing_tl x l : increasing (x :: l) -> increasing l.
Proof. intros H i Hi. apply (H (S i)). cbn; lia. Qed.

(** ** searchsorted *)
Lemma ssr_mid l : increasing l -> forall i e, (S i < length l)%nat -> nth i l 0 <= e < nth (S i) l 0 -> ssr l e = S i.
Proof.
  induction l as [|x l IH]; intros H i e Hi He; [cbn in Hi; lia|]. cbn [ssr].
  destruct i as [|i].
  - cbn [nth] in He. destruct (Rle_dec x e) as [_|N]; [|lra]. f_equal.
    destruct l as [|x' l]; [cbn in Hi; lia|]. cbn [ssr nth] in *. destruct (Rle_dec x' e); [lra|reflexivity].
  - cbn [length] in Hi. destruct (Rle_dec x e) as [_|N].
    + f_equal. apply IH; [now apply increasing_tl in H|lia|exact He].
    + exfalso. pose proof (increasing_le _ H (S i) 0 ltac:(cbn [length]; lia)) as K. cbn [nth] in *. lra.
Qed.
Lemma ssr_low l e : l <> [] -> e < nth 0 l 0 -> ssr l e = 0%nat.
Proof. destruct l as [|x l]; [congruence|]. cbn. intros _ H. destruct (Rle_dec x e); [lra|reflexivity]. Qed.
Lemma ssr_high l : increasing l -> forall e, last l 0 <= e -> ssr l e = length l.
Proof.
  induction l as [|x l IH]; intros H e He; [reflexivity|]. cbn [ssr length].
  assert (K : x <= last (x :: l) 0).
  { clear IH He. revert x H. induction l as [|y l IH]; intros x H; [cbn; lra|].
    assert (x < y) by (apply (H 0%nat); cbn; lia). pose proof (IH y (increasing_tl _ _ H)).
    change (last (x :: y :: l) 0) with (last (y :: l) 0). lra. }
  destruct (Rle_dec x e); [|lra]. f_equal. destruct l as [|y l]; [reflexivity|].
  apply IH; [now apply increasing_tl in H|exact He].
Qed.

(** ** Regions *)
Lemma at_nth l i : (i < length l)%nat -> at_ l (Z.of_nat i) = Some (nth i l 0).
Proof.
  intros H. unfold at_. destruct (Z.leb_spec 0 (Z.of_nat i)); [|lia]. rewrite Nat2Z.id. now apply nth_error_nth'.
Qed.
Lemma at_last l : l <> [] -> at_ l (-1) = Some (last l 0).
Proof.
  intros H. unfold at_. cbn [Z.leb]. destruct (Z.leb_spec 0 (-1)); [lia|].
  assert (length l <> 0%nat) by (destruct l; [congruence|discriminate]).
  destruct (Z.leb_spec (- Z.of_nat (length l)) (-1)); [|lia].
  replace (Z.to_nat (-1 + Z.of_nat (length l))) with (length l - 1)%nat by lia.
  rewrite (nth_error_nth' l 0) by lia. f_equal. clear. induction l as [|x l IH]; [reflexivity|].
  cbn [length]. replace (S (length l) - 1)%nat with (length l) by lia. destruct l as [|y l]; [reflexivity|].
  change (last (x :: y :: l) 0) with (last (y :: l) 0). rewrite <- IH. cbn [length nth].
  replace (S (length l) - 1)%nat with (length l) by lia. reflexivity.
Qed.
Lemma at_first l : l <> [] -> at_ l 0 = Some (nth 0 l 0).
Proof. intros H. apply (at_nth l 0). destruct l; [congruence|cbn; lia]. Qed.

Section R.
Variable t : tab1. Variable e : R.
Fixpoint above (p : Z) (bs : list Z) : Prop := match bs with [] => True | b :: r => (p <= b)%Z /\ above b r end.
Lemma regions_before idx y : forall bs ss p, length ss = length bs -> above p bs -> (idx < p - 1)%Z ->
  regions t e idx p bs ss y = Some y.
Proof.
  induction bs as [|b bs IH]; intros [|s ss] p Hl Ha Hi; try discriminate; [reflexivity|]. cbn [regions].
  destruct (Z.leb_spec (p - 1) idx); [lia|]. cbn [andb]. destruct Ha as [Hb Ha]. apply IH; [injection Hl; auto|assumption|lia].
Qed.
Lemma regions_after idx y : forall bs ss p, length ss = length bs -> (forall b, In b bs -> (b - 1 <= idx)%Z) ->
  regions t e idx p bs ss y = Some y.
Proof.
  induction bs as [|b bs IH]; intros [|s ss] p Hl Ha; try discriminate; [reflexivity|]. cbn [regions].
  pose proof (Ha b (or_introl eq_refl)). destruct (Z.ltb_spec idx (b - 1)); [lia|]. rewrite andb_false_r.
  apply IH; [injection Hl; auto|]. intros c Hc. apply Ha. now right.
Qed.
Lemma regions_hit idx y xi xi1 yi yi1 : at_ (xs t) idx = Some xi -> at_ (xs t) (idx + 1) = Some xi1 ->
  at_ (ys t) idx = Some yi -> at_ (ys t) (idx + 1) = Some yi1 ->
  forall bs ss p k, length ss = length bs -> above p bs -> (k < length bs)%nat -> (p - 1 <= idx)%Z ->
  (idx < nth k bs 0 - 1)%Z -> (forall k', (k' < k)%nat -> (nth k' bs 0 - 1 <= idx)%Z) ->
  regions t e idx p bs ss y = Some (segment (nth k ss 0%Z) y e xi xi1 yi yi1).
Proof.
  intros E1 E2 E3 E4. induction bs as [|b bs IH]; intros [|s ss] p k Hl Ha Hk Hp Hhit Hprev; try discriminate; [cbn in Hk; lia|].
  cbn [regions]. destruct Ha as [Hb Ha]. destruct (Z.leb_spec (p - 1) idx); [|lia]. cbn [andb].
  destruct k as [|k].
  - cbn [nth] in *. destruct (Z.ltb_spec idx (b - 1)); [|lia]. rewrite E1, E2, E3, E4.
    apply regions_before; [injection Hl; auto|assumption|lia].
  - pose proof (Hprev 0%nat ltac:(lia)) as H0. cbn [nth] in *. destruct (Z.ltb_spec idx (b - 1)); [lia|].
    apply IH; try assumption; [injection Hl; auto|cbn [length] in Hk; lia|].
    intros k' Hk'. apply (Hprev (S k')). lia.
Qed.
End R.

Lemma table_above bs p : (forall k, (k < length bs)%nat -> (p <= nth k bs 0)%Z) ->
  (forall k, (S k < length bs)%nat -> (nth k bs 0 < nth (S k) bs 0)%Z) -> above p bs.
Proof.
  revert p. induction bs as [|b bs IH]; intros p H1 H2; [exact I|]. split; [apply (H1 0%nat); cbn; lia|].
  apply IH.
  - clear IH H1. revert b H2. induction bs as [|c bs IH]; intros b H2 k Hk; [cbn in Hk; lia|].
    pose proof (H2 0%nat ltac:(cbn; lia)) as H0. cbn [nth] in H0. destruct k as [|k]; [cbn [nth]; lia|].
    pose proof (IH c (fun k Hk => H2 (S k) ltac:(cbn [length] in *; lia)) k ltac:(cbn [length] in Hk; lia)). cbn [nth] in *. lia.
  - intros k Hk. apply (H2 (S k)). cbn [length]; lia.
Qed.
Lemma table_bound bs : (forall k, (S k < length bs)%nat -> (nth k bs 0 < nth (S k) bs 0)%Z) ->
  forall b, In b bs -> (b <= last bs 0)%Z.
Proof.
  induction bs as [|c bs IH]; intros H b Hb; [destruct Hb|].
  assert (K : forall k, (S k < length bs)%nat -> (nth k bs 0 < nth (S k) bs 0)%Z) by (intros k Hk; apply (H (S k)); cbn [length]; lia).
  destruct bs as [|d bs].
  - destruct Hb as [->|[]]. cbn. lia.
  - change (last (c :: d :: bs) 0%Z) with (last (d :: bs) 0%Z). destruct Hb as [->|Hb]; [|now apply IH].
    pose proof (H 0%nat ltac:(cbn; lia)). pose proof (IH K d (or_introl eq_refl)). cbn [nth] in *. lia.
Qed.

Section T.
Variable t : tab1. Hypothesis Ht : table t.
Let n := length (xs t).
Lemma nonempty : xs t <> [] /\ ys t <> [].
Proof. destruct Ht as (H & Hy & _). split; intros E; rewrite E in *; cbn in *; lia. Qed.

Lemma call_mid i s e : (S i < n)%nat -> follows t i s -> nth i (xs t) 0 <= e < nth (S i) (xs t) 0 ->
  call_at t e = Some (if near e (last (xs t) 0) then last (ys t) 0 else if near e (nth 0 (xs t) 0) then nth 0 (ys t) 0
    else segment s 0 e (nth i (xs t) 0) (nth (S i) (xs t) 0) (nth i (ys t) 0) (nth (S i) (ys t) 0)).
Proof.
  intros Hi (k & Hk & Hs & Hlt & Hprev) He. destruct nonempty as [Nx Ny].
  destruct Ht as (H2 & Hy & Hx & Hl & H1 & Hinc & Hlast). unfold n in *.
  unfold call_at. rewrite (ssr_mid _ Hx i e Hi He).
  replace (Z.of_nat (S i) - 1)%Z with (Z.of_nat i) by lia.
  rewrite (regions_hit t e (Z.of_nat i) 0 (nth i (xs t) 0) (nth (S i) (xs t) 0) (nth i (ys t) 0) (nth (S i) (ys t) 0)) with (k := k).
  - rewrite !at_first, !at_last by assumption. now rewrite Hs.
  - apply at_nth; lia.
  - replace (Z.of_nat i + 1)%Z with (Z.of_nat (S i)) by lia. apply at_nth; lia.
  - apply at_nth; lia.
  - replace (Z.of_nat i + 1)%Z with (Z.of_nat (S i)) by lia. apply at_nth; lia.
  - exact Hl.
  - apply table_above; [|assumption]. intros k' Hk'. specialize (H1 k' Hk'). lia.
  - exact Hk.
  - lia.
  - lia.
  - intros k' Hk'. specialize (Hprev k' Hk'). lia.
Qed.
Lemma call_out e : e < nth 0 (xs t) 0 \/ last (xs t) 0 <= e ->
  call_at t e = Some (if near e (last (xs t) 0) then last (ys t) 0 else if near e (nth 0 (xs t) 0) then nth 0 (ys t) 0 else 0).
Proof.
  intros He. destruct nonempty as [Nx Ny]. destruct Ht as (H2 & Hy & Hx & Hl & H1 & Hinc & Hlast).
  assert (R : regions t e (Z.of_nat (ssr (xs t) e) - 1) 1 (bps t) (schemes t) 0 = Some 0).
  { destruct He as [He|He].
    - rewrite ssr_low by assumption. apply regions_before; [assumption| |lia].
      apply table_above; [|assumption]. intros k' Hk'. specialize (H1 k' Hk'). lia.
    - rewrite ssr_high by assumption. apply regions_after; [assumption|]. intros b Hb.
      pose proof (table_bound _ Hinc b Hb). lia. }
  unfold call_at. rewrite R. now rewrite !at_first, !at_last by assumption.
Qed.
(** Every segment has a scheme. *)
Lemma follows_exists i : (S i < n)%nat -> exists s, follows t i s.
Proof.
  destruct Ht as (H2 & Hy & Hx & Hl & H1 & Hinc & Hlast). unfold n. intros Hi.
  assert (K : forall bs, (Z.of_nat (S i) < last bs 0)%Z -> bs <> [] -> exists k, (k < length bs)%nat /\ (Z.of_nat (S i) < nth k bs 0)%Z /\
    forall k', (k' < k)%nat -> (nth k' bs 0 <= Z.of_nat (S i))%Z).
  { induction bs as [|b bs IH]; intros Hb Hne; [congruence|].
    destruct (Z.lt_ge_cases (Z.of_nat (S i)) b) as [Hlt|Hge].
    - exists 0%nat. cbn [length nth]. split; [lia|]. split; [assumption|]. intros k' Hk'. lia.
    - destruct bs as [|c bs]; [cbn [last] in Hb; lia|]. destruct IH as (k & Hk & Hk2 & Hk3); [exact Hb|discriminate|].
      exists (S k). split; [cbn [length] in *; lia|]. split; [exact Hk2|]. intros [|k'] Hk'; [exact Hge|]. apply Hk3. lia. }
  destruct (K (bps t)) as (k & Hk & Hk2 & Hk3).
  - rewrite Hlast. lia.
  - intros E. rewrite E in Hlast. cbn in Hlast. lia.
  - exists (nth k (schemes t) 0%Z), k. auto.
Qed.
End T.

(** ** Laws *)
Lemma ln_div_pos a b : 0 < a -> 0 < b -> ln (a / b) = ln a - ln b.
Proof. intros Ha Hb. unfold Rdiv. rewrite ln_mult by (auto using Rinv_0_lt_compat). rewrite ln_Rinv by assumption. lra. Qed.
Lemma segment_law s old x xi xi1 yi yi1 : loggable s xi yi yi1 -> xi <= x < xi1 ->
  law xi yi xi1 yi1 x (segment s old x xi xi1 yi yi1) s.
Proof.
  intros (Hs & Hx & Hy) H.
  assert (s = 1 \/ s = 2 \/ s = 3 \/ s = 4 \/ s = 5)%Z as [->|[->|[->|[->| ->]]]] by lia; cbn [segment Z.eqb Pos.eqb].
  - now apply law1.
  - apply law2. field. lra.
  - assert (0 < xi) by (apply Hx; auto). assert (ln xi < ln xi1) by (apply ln_increasing; lra).
    apply law3. rewrite !ln_div_pos by lra. field. lra.
  - destruct Hy as [Hy1 Hy2]; [auto|]. apply law4; [apply Rmult_lt_0_compat; [assumption|apply exp_pos]|].
    rewrite ln_mult by (try apply exp_pos; assumption). rewrite ln_exp, ln_div_pos by assumption. field. lra.
  - assert (0 < xi) by (apply Hx; auto). assert (ln xi < ln xi1) by (apply ln_increasing; lra).
    destruct Hy as [Hy1 Hy2]; [auto|]. apply law5; [apply Rmult_lt_0_compat; [assumption|apply exp_pos]|].
    rewrite ln_mult by (try apply exp_pos; assumption). rewrite ln_exp, !ln_div_pos by lra. field. lra.
Qed.
Lemma segment_at_left s old xi xi1 yi yi1 : loggable s xi yi yi1 -> xi < xi1 -> segment s old xi xi xi1 yi yi1 = yi.
Proof.
  intros (Hs & Hx & Hy) H.
  assert (s = 1 \/ s = 2 \/ s = 3 \/ s = 4 \/ s = 5)%Z as [->|[->|[->|[->| ->]]]] by lia; cbn [segment Z.eqb Pos.eqb].
  - reflexivity.
  - unfold Rdiv. ring.
  - assert (0 < xi) by (apply Hx; auto). unfold Rdiv. rewrite Rinv_r, ln_1 by lra. ring.
  - replace ((xi - xi) / (xi1 - xi) * ln (yi1 / yi)) with 0 by (unfold Rdiv; ring). rewrite exp_0. ring.
  - assert (0 < xi) by (apply Hx; auto). unfold Rdiv at 2. rewrite Rinv_r, ln_1 by lra.
    replace (0 / ln (xi1 / xi) * ln (yi1 / yi)) with 0 by (unfold Rdiv; ring). rewrite exp_0. ring.
Qed.

Lemma cross_between a b d u : 0 <= u <= d -> 0 < d -> (a * d = u * b) -> Rmin 0 b <= a <= Rmax 0 b.
Proof.
  intros Hu Hd E. unfold Rmin, Rmax. destruct (Rle_dec 0 b).
  - split; apply Rmult_le_reg_r with d; try assumption; rewrite E; nra.
  - split; apply Rmult_le_reg_r with d; try assumption; rewrite E; nra.
Qed.
Lemma min_shift a b c : Rmin a b - c = Rmin (a - c) (b - c).
Proof. unfold Rmin. destruct (Rle_dec a b), (Rle_dec (a - c) (b - c)); lra. Qed.
Lemma max_shift a b c : Rmax a b - c = Rmax (a - c) (b - c).
Proof. unfold Rmax. destruct (Rle_dec a b), (Rle_dec (a - c) (b - c)); lra. Qed.
Lemma cross_between' y yi yi1 d u : 0 <= u <= d -> 0 < d -> (y - yi) * d = u * (yi1 - yi) -> Rmin yi yi1 <= y <= Rmax yi yi1.
Proof.
  intros Hu Hd E. pose proof (cross_between _ _ _ _ Hu Hd E) as [H1 H2].
  pose proof (min_shift yi yi1 yi) as M1. pose proof (max_shift yi yi1 yi) as M2. replace (yi - yi) with 0 in M1, M2 by lra. lra.
Qed.
Lemma law_between s xi yi xi1 yi1 x y : loggable s xi yi yi1 -> xi <= x < xi1 -> law xi yi xi1 yi1 x y s ->
  Rmin yi yi1 <= y <= Rmax yi yi1.
Proof.
  intros (_ & Hx & Hy) H HL. pose proof (Rmin_l yi yi1) as Pm. pose proof (Rmax_l yi yi1) as PM.
  assert (LN : forall a b, 0 < a -> 0 < b -> ln a <= ln b -> a <= b).
  { intros a b Ha Hb Hab. destruct (Rle_lt_dec a b); [assumption|]. pose proof (ln_increasing b a Hb ltac:(assumption)). lra. }
  destruct HL as [E|E|E|Hp E|Hp E].
  - subst. lra.
  - apply (cross_between' y yi yi1 (xi1 - xi) (x - xi)); lra.
  - assert (0 < xi) by (apply Hx; auto). assert (ln xi < ln xi1) by (apply ln_increasing; lra).
    assert (ln xi <= ln x) by (destruct (Rle_lt_or_eq_dec xi x) as [L| ->]; [lra|left; apply ln_increasing; lra|lra]).
    assert (ln x < ln xi1) by (apply ln_increasing; lra).
    apply (cross_between' y yi yi1 (ln xi1 - ln xi) (ln x - ln xi)); lra.
  - destruct Hy as [Hy1 Hy2]; [auto|].
    assert (K : Rmin (ln yi) (ln yi1) <= ln y <= Rmax (ln yi) (ln yi1)) by (apply (cross_between' (ln y) (ln yi) (ln yi1) (xi1 - xi) (x - xi)); lra).
    unfold Rmin, Rmax in *. destruct (Rle_dec (ln yi) (ln yi1)) as [L|L]; destruct (Rle_dec yi yi1) as [M|M].
    + split; apply LN; tauto || lra.
    + exfalso. apply M. now apply LN.
    + pose proof (ln_increasing yi yi1). destruct (Rle_lt_or_eq_dec _ _ M) as [M'| ->]; [|lra]. lra.
    + split; apply LN; tauto || lra.
  - assert (0 < xi) by (apply Hx; auto). assert (ln xi < ln xi1) by (apply ln_increasing; lra).
    assert (ln xi <= ln x) by (destruct (Rle_lt_or_eq_dec xi x) as [L| ->]; [lra|left; apply ln_increasing; lra|lra]).
    assert (ln x < ln xi1) by (apply ln_increasing; lra).
    destruct Hy as [Hy1 Hy2]; [auto|].
    assert (K : Rmin (ln yi) (ln yi1) <= ln y <= Rmax (ln yi) (ln yi1)) by (apply (cross_between' (ln y) (ln yi) (ln yi1) (ln xi1 - ln xi) (ln x - ln xi)); lra).
    unfold Rmin, Rmax in *. destruct (Rle_dec (ln yi) (ln yi1)) as [L|L]; destruct (Rle_dec yi yi1) as [M|M].
    + split; apply LN; tauto || lra.
    + exfalso. apply M. now apply LN.
    + pose proof (ln_increasing yi yi1). destruct (Rle_lt_or_eq_dec _ _ M) as [M'| ->]; [|lra]. lra.
    + split; apply LN; tauto || lra.
Qed.
