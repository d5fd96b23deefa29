From Coq Require Import Reals ZArith List Lia Lra Bool.
From Coquelicot Require Import Coquelicot.
From Verif Require Import Tab1d_Model Tab1d_Spec Tab1d_Proofs.
Import ListNotations.
Local Open Scope R_scope.

(** ** One segment *)
Lemma rint_by (F f g : R -> R) x0 x1 : x0 < x1 -> (forall x, x0 <= x <= x1 -> is_derive F x (g x)) ->
  (forall x, x0 <= x <= x1 -> ex_derive g x) -> (forall x, x0 < x < x1 -> g x = f x) -> forall v, F x1 - F x0 = v -> is_RInt f x0 x1 v.
Proof.
  intros H H1 H2 H3 v <-. apply (is_RInt_ext g).
  - intros x Hx. rewrite Rmin_left, Rmax_right in Hx by lra. apply H3. exact Hx.
  - apply (is_RInt_derive F g); intros x Hx; rewrite Rmin_left, Rmax_right in Hx by lra.
    + apply H1. exact Hx.
    + apply (ex_derive_continuous g). apply H2. exact Hx.
Qed.

Lemma area1 f x0 x1 y0 y1 : x0 < x1 -> (forall x, x0 < x < x1 -> law x0 y0 x1 y1 x (f x) 1) -> is_RInt f x0 x1 (y0 * (x1 - x0)).
Proof.
  intros H Hf. apply (rint_by (fun x => y0 * x) f (fun _ => y0) x0 x1); [assumption| | | |cbn; ring].
  - intros x _. auto_derive; [exact I|ring].
  - intros x _. auto_derive. exact I.
  - intros x Hx. specialize (Hf x Hx). inversion Hf. congruence.
Qed.
Lemma area2 f x0 x1 y0 y1 : x0 < x1 -> (forall x, x0 < x < x1 -> law x0 y0 x1 y1 x (f x) 2) ->
  is_RInt f x0 x1 ((y0 - (y1 - y0) / (x1 - x0) * x0) * (x1 - x0) + (y1 - y0) / (x1 - x0) * (x1 ^ 2 - x0 ^ 2) / 2).
Proof.
  intros H Hf. set (m := (y1 - y0) / (x1 - x0)).
  apply (rint_by (fun x => (y0 - m * x0) * x + m * x ^ 2 / 2) f (fun x => y0 - m * x0 + m * x) x0 x1); [assumption| | | |cbn; field].
  - intros x _. auto_derive; [exact I|]. field.
  - intros x _. auto_derive. exact I.
  - intros x Hx. specialize (Hf x Hx). inversion Hf as [|E|E|E|E]. unfold m.
    apply (Rmult_eq_reg_r (x1 - x0)); [|lra]. field_simplify; [|lra]. lra.
Qed.
Lemma area3 f x0 x1 y0 y1 : 0 < x0 -> x0 < x1 -> (forall x, x0 < x < x1 -> law x0 y0 x1 y1 x (f x) 3) ->
  is_RInt f x0 x1 (y0 * (x1 - x0) + (y1 - y0) / ln (x1 / x0) * (x1 * (ln (x1 / x0) - 1) + x0)).
Proof.
  intros H0 H Hf. assert (L : ln x0 < ln x1) by (apply ln_increasing; lra).
  rewrite (ln_div_pos x1 x0) by lra. set (m := (y1 - y0) / (ln x1 - ln x0)).
  apply (rint_by (fun x => y0 * x + m * (x * ln x - x - x * ln x0)) f (fun x => y0 + m * (ln x - ln x0)) x0 x1); [assumption| | | |cbn; ring].
  - intros x Hx. auto_derive; [lra|]. field. lra.
  - intros x Hx. auto_derive. lra.
  - intros x Hx. specialize (Hf x Hx). inversion Hf as [|E|E|E|E]. unfold m.
    apply (Rmult_eq_reg_r (ln x1 - ln x0)); [|lra]. field_simplify; [|lra]. lra.
Qed.
Lemma exp_law y0 m d : 0 < y0 -> y0 * exp (m * d) = exp (ln y0 + d * m).
Proof. intros H. rewrite exp_plus, exp_ln by assumption. now rewrite (Rmult_comm d m). Qed.
Lemma area4 f x0 x1 y0 y1 : x0 < x1 -> 0 < y0 -> 0 < y1 -> ln (y1 / y0) / (x1 - x0) <> 0 ->
  (forall x, x0 < x < x1 -> law x0 y0 x1 y1 x (f x) 4) ->
  is_RInt f x0 x1 (y0 / (ln (y1 / y0) / (x1 - x0)) * (exp (ln (y1 / y0) / (x1 - x0) * (x1 - x0)) - 1)).
Proof.
  intros H Hy0 Hy1. rewrite (ln_div_pos y1 y0) by lra. set (m := (ln y1 - ln y0) / (x1 - x0)). intros Hm Hf.
  apply (rint_by (fun x => y0 * exp (m * (x - x0)) / m) f (fun x => y0 * exp (m * (x - x0))) x0 x1);
    [assumption| | | |cbv beta; rewrite Rminus_eq_0, Rmult_0_r, exp_0; field; exact Hm].
  - intros x Hx. auto_derive; [exact I|]. change (x + - x0) with (x - x0). field. exact Hm.
  - intros x Hx. auto_derive. exact I.
  - intros x Hx. specialize (Hf x Hx). inversion Hf as [|E|E|P E|P E].
    rewrite <- (exp_ln (f x)) by assumption. rewrite exp_law by assumption. f_equal. unfold m.
    apply (Rmult_eq_reg_r (x1 - x0)); [|lra]. field_simplify; [|lra]. lra.
Qed.
Lemma area5 f x0 x1 y0 y1 : 0 < x0 -> x0 < x1 -> 0 < y0 -> 0 < y1 -> ln (y1 / y0) / ln (x1 / x0) + 1 <> 0 ->
  (forall x, x0 < x < x1 -> law x0 y0 x1 y1 x (f x) 5) ->
  is_RInt f x0 x1 (y0 / ((ln (y1 / y0) / ln (x1 / x0) + 1) * Rpower x0 (ln (y1 / y0) / ln (x1 / x0))) *
    (Rpower x1 (ln (y1 / y0) / ln (x1 / x0) + 1) - Rpower x0 (ln (y1 / y0) / ln (x1 / x0) + 1))).
Proof.
  intros H0 H Hy0 Hy1. rewrite (ln_div_pos y1 y0), (ln_div_pos x1 x0) by lra. assert (L : ln x0 < ln x1) by (apply ln_increasing; lra).
  set (m := (ln y1 - ln y0) / (ln x1 - ln x0)). intros Hm Hf.
  apply (rint_by (fun x => y0 / ((m + 1) * Rpower x0 m) * exp ((m + 1) * ln x)) f (fun x => y0 * exp (m * (ln x - ln x0))) x0 x1);
    [assumption| | | |unfold Rpower; cbv beta; ring].
  - intros x Hx. auto_derive; [lra|].
    replace ((m + 1) * ln x) with (m * ln x + ln x) by ring. rewrite exp_plus, exp_ln by lra.
    replace (m * (ln x - ln x0)) with (m * ln x + - (m * ln x0)) by ring. rewrite exp_plus, exp_Ropp. unfold Rpower.
    field. repeat split; try lra. apply Rgt_not_eq, exp_pos.
  - intros x Hx. auto_derive. lra.
  - intros x Hx. specialize (Hf x Hx). inversion Hf as [|E|E|P E|P E].
    rewrite <- (exp_ln (f x)) by assumption. rewrite exp_law by assumption. f_equal. unfold m.
    apply (Rmult_eq_reg_r (ln x1 - ln x0)); [|lra]. field_simplify; [|lra]. lra.
Qed.

Lemma area_integral s f x0 x1 y0 y1 a : loggable s x0 y0 y1 -> s <> 3%Z -> x0 < x1 ->
  (forall x, x0 < x < x1 -> law x0 y0 x1 y1 x (f x) s) -> area s x0 x1 y0 y1 = Some a -> is_RInt f x0 x1 a.
Proof.
  intros (Hs & Lx & Ly) N3 H Hf E. unfold area in E.
  destruct (Z.eqb_spec s 1) as [->|]. { injection E as <-. now apply (area1 f x0 x1 y0 y1). }
  destruct (Z.eqb_spec s 2) as [->|]. { injection E as <-. now apply (area2 f x0 x1 y0 y1). }
  destruct (Z.eqb_spec s 3) as [->|]; [congruence|].
  destruct (Z.eqb_spec s 4) as [->|].
  { destruct (Req_EM_T _ 0) as [|M]; [discriminate|]. injection E as <-. destruct Ly as [Y0 Y1]; [auto|]. now apply area4. }
  destruct (Z.eqb_spec s 5) as [->|]; [|lia].
  destruct (Req_EM_T _ 0) as [|M]; [discriminate|]. injection E as <-. destruct Ly as [Y0 Y1]; [auto|]. apply area5; auto.
Qed.
Lemma area3_integral f x0 x1 y0 y1 a : 0 < x0 -> x0 < x1 -> (forall x, x0 < x < x1 -> law x0 y0 x1 y1 x (f x) 3) ->
  area 3 x0 x1 y0 y1 = Some a -> (is_RInt f x0 x1 a <-> y0 = 0 \/ x1 - x0 = 1).
Proof.
  intros H0 H Hf E. cbn [area Z.eqb Pos.eqb] in E. injection E as <-. pose proof (area3 f x0 x1 y0 y1 H0 H Hf) as R.
  set (m := (y1 - y0) / ln (x1 / x0)) in *. set (r := m * (x1 * (ln (x1 / x0) - 1) + x0)) in *. split.
  - intros R'. pose proof (is_RInt_unique _ _ _ _ R) as U. rewrite (is_RInt_unique _ _ _ _ R') in U.
    assert (Z : y0 * (x1 - x0 - 1) = 0) by lra. apply Rmult_integral in Z as [Z|Z]; [now left|right; lra].
  - intros [->|D]; [replace (0 + r) with (0 * (x1 - x0) + r) by ring; exact R|].
    replace (y0 + r) with (y0 * (x1 - x0) + r) by (rewrite D; ring). exact R.
Qed.
Lemma area_nan s x0 x1 y0 y1 : loggable s x0 y0 y1 -> x0 < x1 ->
  (area s x0 x1 y0 y1 = None <-> (s = 4%Z /\ y1 = y0) \/ (s = 5%Z /\ y1 * x1 = y0 * x0)).
Proof.
  intros (Hs & Lx & Ly) H. unfold area.
  destruct (Z.eqb_spec s 1) as [->|]; [split; [discriminate|intros [[? _]|[? _]]; discriminate]|].
  destruct (Z.eqb_spec s 2) as [->|]; [split; [discriminate|intros [[? _]|[? _]]; discriminate]|].
  destruct (Z.eqb_spec s 3) as [->|]; [split; [discriminate|intros [[? _]|[? _]]; discriminate]|].
  destruct (Z.eqb_spec s 4) as [->|].
  { destruct Ly as [Y0 Y1]; [auto|]. rewrite (ln_div_pos y1 y0) by lra.
    assert (Q : (ln y1 - ln y0) / (x1 - x0) = 0 <-> y1 = y0).
    { split; [|intros ->; unfold Rdiv; ring]. intros Q. apply ln_inv; try assumption.
      apply (Rmult_eq_compat_r (x1 - x0)) in Q. unfold Rdiv in Q. rewrite Rmult_assoc, Rinv_l, Rmult_1_r, Rmult_0_l in Q by lra. lra. }
    destruct (Req_EM_T _ 0) as [M|M]; rewrite Q in M.
    - split; [intros _; left; now split|reflexivity].
    - split; [discriminate|]. intros [[_ ?]|[? _]]; [contradiction|discriminate]. }
  destruct (Z.eqb_spec s 5) as [->|]; [|lia].
  assert (X0 : 0 < x0) by auto. destruct Ly as [Y0 Y1]; [auto|]. assert (L : ln x0 < ln x1) by (apply ln_increasing; lra).
  rewrite (ln_div_pos y1 y0), (ln_div_pos x1 x0) by lra.
  assert (Q : (ln y1 - ln y0) / (ln x1 - ln x0) + 1 = 0 <-> y1 * x1 = y0 * x0).
  { assert (Q1 : (ln y1 - ln y0) / (ln x1 - ln x0) + 1 = 0 <-> ln y1 + ln x1 = ln y0 + ln x0).
    { split; intros Q.
      - apply (Rmult_eq_compat_r (ln x1 - ln x0)) in Q. unfold Rdiv in Q.
        rewrite Rmult_plus_distr_r, Rmult_assoc, Rinv_l, Rmult_1_r, Rmult_0_l in Q by lra. lra.
      - replace (ln y1 - ln y0) with (- (ln x1 - ln x0)) by lra. field. lra. }
    rewrite Q1, <- !ln_mult by lra. split; [|congruence]. apply ln_inv; apply Rmult_lt_0_compat; lra. }
  destruct (Req_EM_T _ 0) as [M|M]; rewrite Q in M.
  - split; [intros _; right; now split|reflexivity].
  - split; [discriminate|]. intros [[? _]|[_ ?]]; [discriminate|contradiction].
Qed.

(** ** All segments *)
Lemma areas_spec s n : forall x y, length y = length x -> (n < length x)%nat ->
  length (areas s x y n) = n /\
  forall i, (i < n)%nat -> nth i (areas s x y n) None = area s (nth i x 0) (nth (S i) x 0) (nth i y 0) (nth (S i) y 0).
Proof.
  induction n as [|n IH]; intros x y Hl Hn; [split; [destruct x; reflexivity|intros; lia]|].
  destruct x as [|x0 [|x1 x]]; cbn [length] in *; try lia. destruct y as [|y0 [|y1 y]]; cbn [length] in *; try lia.
  destruct (IH (x1 :: x) (y1 :: y)) as [L V]; [cbn [length]; lia|cbn [length]; lia|].
  change (areas s (x0 :: x1 :: x) (y0 :: y1 :: y) (S n)) with (area s x0 x1 y0 y1 :: areas s (x1 :: x) (y1 :: y) n).
  cbn [length]. split; [now rewrite L|]. intros [|i] Hi; [reflexivity|]. cbn [nth]. apply V. lia.
Qed.
Lemma nth_skip {A} (l : list A) d low i : nth i (skipn low l) d = nth (low + i) l d.
Proof. revert l; induction low as [|k IH]; intros l; [reflexivity|]. destruct l; cbn [skipn plus]; [now destruct i|apply IH]. Qed.
Lemma paste_spec part new low : (low + length new <= length part)%nat ->
  length (paste part new low) = length part /\
  (forall i, (i < low)%nat -> nth i (paste part new low) None = nth i part None) /\
  (forall i, (low <= i < low + length new)%nat -> nth i (paste part new low) None = nth (i - low) new None).
Proof.
  intros H. unfold paste.
  assert (L : length (firstn low part) = low) by (rewrite firstn_length; lia).
  split; [rewrite !app_length, L, skipn_length; lia|]. split.
  - intros i Hi. rewrite app_nth1 by lia. rewrite <- (firstn_skipn low part) at 2. rewrite app_nth1 by lia. reflexivity.
  - intros i Hi. rewrite app_nth2 by lia. rewrite L, app_nth1 by lia. reflexivity.
Qed.

Definition pick (bs ss : list Z) (i : nat) (s : Z) : Prop :=
  exists k, (k < length bs)%nat /\ nth k ss 0%Z = s /\ (Z.of_nat (S i) < nth k bs 0)%Z /\
    forall k', (k' < k)%nat -> (nth k' bs 0 <= Z.of_nat (S i))%Z.
Lemma fill_spec x y : length y = length x -> forall bs ss low part,
  length ss = length bs -> S (length part) = length x ->
  (forall k, (k < length bs)%nat -> (Z.of_nat low + 1 < nth k bs 0 <= Z.of_nat (length x))%Z) ->
  (forall k, (S k < length bs)%nat -> (nth k bs 0 < nth (S k) bs 0)%Z) ->
  exists p, fill x y low bs ss part = Some p /\ length p = length part /\
    (forall i, (i < low)%nat -> nth i p None = nth i part None) /\
    (forall i s, (low <= i)%nat -> pick bs ss i s ->
      nth i p None = area s (nth i x 0) (nth (S i) x 0) (nth i y 0) (nth (S i) y 0)).
Proof.
  intros Hl. induction bs as [|b bs IH]; intros ss low part Hs Hp Hr Hi.
  - exists part. split; [reflexivity|]. repeat split. intros i s _ (k & Hk & _). cbn in Hk. lia.
  - destruct ss as [|s ss]; [discriminate|]. cbn [fill]. pose proof (Hr 0%nat ltac:(cbn; lia)) as R0. cbn [nth] in R0.
    replace ((b <? 1)%Z || (Z.of_nat (length x) <? b)%Z) with false
      by (symmetry; apply orb_false_iff; split; apply Z.ltb_ge; lia).
    set (high := Z.to_nat (b - 1)). assert (Hh : (low < high < length x)%nat) by (unfold high; lia).
    destruct (areas_spec s (high - low) (skipn low x) (skipn low y)) as [AL AV];
      [rewrite !skipn_length; lia|rewrite skipn_length; lia|].
    destruct (paste_spec part (areas s (skipn low x) (skipn low y) (high - low)) low) as (PL & PB & PN); [rewrite AL; lia|].
    rewrite AL in PN.
    destruct (IH ss high (paste part (areas s (skipn low x) (skipn low y) (high - low)) low)) as (p & Ep & Lp & B & V).
    + cbn in Hs. lia.
    + lia.
    + intros k Hk. specialize (Hr (S k) ltac:(cbn; lia)). cbn [nth] in Hr.
      assert (G : forall j, (j < length bs)%nat -> (b < nth j bs 0)%Z).
      { induction j as [|j IHj]; intros Hj; [apply (Hi 0%nat); cbn; lia|]. specialize (Hi (S j) ltac:(cbn; lia)). cbn [nth] in Hi.
        specialize (IHj ltac:(lia)). lia. }
      specialize (G k Hk). unfold high. lia.
    + intros k Hk. apply (Hi (S k)). cbn. lia.
    + exists p. split; [exact Ep|]. split; [lia|]. split.
      * intros i Hi'. rewrite B by lia. apply PB. lia.
      * intros i s' Hi' Pk. destruct (Nat.lt_ge_cases i high) as [Hlt|Hge].
        -- rewrite B by lia. rewrite PN by lia. rewrite AV by lia. rewrite !nth_skip.
           replace (low + (i - low))%nat with i by lia. replace (low + S (i - low))%nat with (S i) by lia.
           destruct Pk as ([|k] & Hk & <- & _ & Hk'); [reflexivity|]. specialize (Hk' 0%nat ltac:(lia)). cbn [nth] in Hk'. unfold high in Hlt. lia.
        -- apply V; [lia|]. destruct Pk as ([|k] & Hk & Es & Hlt & Hk'); [cbn [nth] in Hlt; unfold high in Hge; lia|].
           exists k. cbn [length nth] in *. repeat split; try assumption; [lia|]. intros k' K. apply (Hk' (S k')). lia.
Qed.

Lemma cumsum_spec l : forall acc, length (cumsum acc l) = length l /\
  forall i, (i < length l)%nat -> nth i (cumsum acc l) None = nadd (nth i (acc :: cumsum acc l) None) (nth i l None).
Proof.
  induction l as [|a l IH]; intros acc; [split; [reflexivity|cbn; intros; lia]|]. cbn [cumsum length].
  destruct (IH (nadd acc a)) as [L V]. split; [now rewrite L|]. intros [|i] Hi; [reflexivity|]. cbn [nth]. rewrite V by lia. reflexivity.
Qed.

Theorem integral_steps t : table t -> exists I, integral t = Some I /\ length I = length (xs t) /\ nth 0 I None = Some 0 /\
  forall i s, (S i < length (xs t))%nat -> follows t i s ->
    nth (S i) I None = nadd (nth i I None) (area s (nth i (xs t) 0) (nth (S i) (xs t) 0) (nth i (ys t) 0) (nth (S i) (ys t) 0)).
Proof.
  intros (H2 & Hy & Hx & Hs & Hb1 & Hb2 & Hlast). unfold integral. destruct (length (xs t)) as [|n] eqn:En; [lia|].
  rewrite Hy, Nat.eqb_refl.
  assert (Hb : forall k, (k < length (bps t))%nat -> (Z.of_nat 0 + 1 < nth k (bps t) 0 <= Z.of_nat (length (xs t)))%Z).
  { intros k Hk. split; [specialize (Hb1 k Hk); lia|]. rewrite En, <- Hlast. apply (table_bound (bps t) Hb2). now apply nth_In. }
  destruct (fill_spec (xs t) (ys t) ltac:(lia) (bps t) (schemes t) 0 (repeat (Some 0) n)) as (p & Ep & Lp & _ & V);
    [assumption|rewrite repeat_length; lia|exact Hb|assumption|].
  rewrite repeat_length in Lp. rewrite Ep. cbn [option_map]. destruct (cumsum_spec p (Some 0)) as [LC VC].
  eexists. split; [reflexivity|]. split; [cbn [length]; lia|]. split; [reflexivity|].
  intros i s Hi Hf. change (nth (S i) (Some 0 :: cumsum (Some 0) p) None) with (nth i (cumsum (Some 0) p) None).
  rewrite VC by lia. f_equal. apply V; [lia|]. exact Hf.
Qed.
