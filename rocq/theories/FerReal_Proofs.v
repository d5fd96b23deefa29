From Coq Require Import Reals Qreals ZArith QArith Qcanon List Lia Lra Bool.
From Verif Require Import Num Neut_Model Fer_Model.
From Verif Require AceEdit_Model Tab1d_Model.
From Coq Require Import Lra.
Import ListNotations.
Local Open Scope list_scope.
Local Open Scope Z_scope.

(** ** Rational numbers as real numbers *)
Definition qr (q : Qc) : R := Q2R (this q).
Lemma qr_inj a b : qr a = qr b -> a = b.
Proof. intros H. apply Qc_is_canon, eqR_Qeq, H. Qed.
Lemma qr_eq a b : (this a == b)%Q -> qr a = Q2R b.
Proof. intros H. apply Qeq_eqR, H. Qed.
Lemma qr_add a b : qr (a + b) = (qr a + qr b)%R.
Proof. rewrite (qr_eq _ _ (this_add a b)). apply Q2R_plus. Qed.
Lemma qr_mul a b : qr (a * b) = (qr a * qr b)%R.
Proof. rewrite (qr_eq _ _ (this_mul a b)). apply Q2R_mult. Qed.
Lemma qr_opp a : qr (- a) = (- qr a)%R.
Proof. rewrite (qr_eq _ _ (this_opp a)). apply Q2R_opp. Qed.
Lemma qr_sub a b : qr (a - b) = (qr a - qr b)%R.
Proof. rewrite (qr_eq _ _ (this_sub a b)). apply Q2R_minus. Qed.
Lemma qr_0 : qr 0%Qc = 0%R.
Proof. change (0 * / 1 = 0)%R. field. Qed.
Lemma qr_1 : qr 1%Qc = 1%R.
Proof. change (1 * / 1 = 1)%R. field. Qed.
Lemma qr_inv a : qr (/ a) = (/ qr a)%R.
Proof.
  rewrite (qr_eq _ _ (this_inv a)). destruct (Qeq_dec (this a) 0) as [E|N]; [|now apply Q2R_inv].
  unfold qr. rewrite (Qeq_eqR _ _ E). assert (E2 : (/ this a == 0)%Q) by now rewrite E. rewrite (Qeq_eqR _ _ E2).
  replace (Q2R 0) with 0%R by (change (0 = 0 * / 1)%R; field). now rewrite Rinv_0.
Qed.
Lemma qr_div a b : qr (a / b) = (qr a / qr b)%R.
Proof. unfold Qcdiv. now rewrite qr_mul, qr_inv. Qed.
Lemma qr_le a b : (a <= b)%Qc <-> (qr a <= qr b)%R.
Proof. split; [apply Qle_Rle|apply Rle_Qle]. Qed.
Lemma qr_lt a b : (a < b)%Qc <-> (qr a < qr b)%R.
Proof. split; [apply Qlt_Rlt|apply Rlt_Qlt]. Qed.
Lemma qr_abs a : qr (qabs a) = Rabs (qr a).
Proof.
  unfold qabs. destruct (qleb_spec 0%Qc a) as [H|H].
  - apply qr_le in H. rewrite qr_0 in H. now rewrite Rabs_right by lra.
  - rewrite qr_opp. apply Qcnot_le_lt in H. apply qr_lt in H. rewrite qr_0 in H. now rewrite Rabs_left by lra.
Qed.

(** ** Evaluation *)
Definition rl (t : fn) : Tab1d_Model.tab1 :=
  {| Tab1d_Model.xs := map qr (fx t); Tab1d_Model.ys := map qr (fy t); Tab1d_Model.bps := fbp t; Tab1d_Model.schemes := fint t |}.
Definition ry (f : yield) : Tab1d_Model.func := match f with Tabd t => Tab1d_Model.Tab (rl t) | Poly c => Tab1d_Model.Poly (map qr c) end.
Lemma at_real l i : Tab1d_Model.at_ (map qr l) i = option_map qr (Neut_Model.at_ l i).
Proof.
  unfold Tab1d_Model.at_, Neut_Model.at_. rewrite !map_length.
  repeat match goal with |- context [if ?b then _ else _] => destruct b end; rewrite ?nth_error_map; try reflexivity.
Qed.
Lemma ssr_real l e : Tab1d_Model.ssr (map qr l) (qr e) = AceEdit_Model.ssright l e.
Proof.
  induction l as [|x l IH]; [reflexivity|]. cbn [map Tab1d_Model.ssr AceEdit_Model.ssright]. rewrite IH.
  destruct (qleb_spec x e) as [H|H]; destruct (Rle_dec (qr x) (qr e)) as [K|K]; try reflexivity; exfalso; rewrite <- qr_le in K; contradiction.
Qed.
Lemma near_real a b : Tab1d_Model.near (qr a) (qr b) = AceEdit_Model.isclose a b.
Proof.
  unfold Tab1d_Model.near, AceEdit_Model.isclose.
  assert (E : qr (qc 1 100000000000000 + qc 1 100000 * qabs b)%Qc = (1 / 10 ^ 14 + 1 / 10 ^ 5 * Rabs (qr b))%R).
  { rewrite qr_add, qr_mul, qr_abs. f_equal; [|f_equal].
    - change (1 * / 100000000000000 = 1 / 10 ^ 14)%R. field.
    - change (1 * / 100000 = 1 / 10 ^ 5)%R. field. }
  rewrite <- qr_sub, <- qr_abs, <- E.
  match goal with |- context [qleb ?u ?v] => destruct (qleb_spec u v) as [H|H]; destruct (Rle_dec (qr u) (qr v)) as [K|K] end; try reflexivity; exfalso; rewrite <- qr_le in K; contradiction.
Qed.

Section Real.
Context {D A : Type} (R : readers D A).
Lemma segment_real old e x0 x1 y0 y1 :
  Tab1d_Model.segment 2 (qr old) (qr e) (qr x0) (qr x1) (qr y0) (qr y1) = qr (Neut_Model.segment R 2 old e x0 x1 y0 y1).
Proof. unfold Tab1d_Model.segment, Neut_Model.segment. cbn [Z.eqb Pos.eqb]. now rewrite qr_add, qr_mul, qr_div, !qr_sub. Qed.
Lemma regions_real t e idx : forall bs ss prev y, (forall s, In s ss -> s = 2) ->
  Tab1d_Model.regions (rl t) (qr e) idx prev bs ss (qr y) = option_map qr (Neut_Model.regions R t e idx prev bs ss y).
Proof.
  induction bs as [|b bs IH]; intros ss prev y H; [destruct ss; reflexivity|]. destruct ss as [|s ss]; [reflexivity|].
  cbn [Tab1d_Model.regions Neut_Model.regions]. cbn [rl Tab1d_Model.xs Tab1d_Model.ys]. rewrite !at_real.
  assert (s = 2) as -> by (apply H; now left).
  destruct ((prev - 1 <=? idx) && (idx <? b - 1)); [|apply IH; intros; apply H; now right].
  destruct (Neut_Model.at_ (fx t) idx) as [x0|]; [|reflexivity]. cbn [option_map].
  destruct (Neut_Model.at_ (fx t) (idx + 1)) as [x1|]; [|reflexivity]. cbn [option_map].
  destruct (Neut_Model.at_ (fy t) idx) as [y0|]; [|reflexivity]. cbn [option_map].
  destruct (Neut_Model.at_ (fy t) (idx + 1)) as [y1|]; [|reflexivity]. cbn [option_map].
  rewrite segment_real. apply IH. intros; apply H; now right.
Qed.
Lemma call_real t e : (forall s, In s (fint t) -> s = 2) -> Tab1d_Model.call_at (rl t) (qr e) = option_map qr (Neut_Model.call_at R t e).
Proof.
  intros H. unfold Tab1d_Model.call_at, Neut_Model.call_at. cbn [rl Tab1d_Model.xs Tab1d_Model.ys Tab1d_Model.bps Tab1d_Model.schemes].
  rewrite ssr_real, !at_real. rewrite <- qr_0 at 1. change {| Tab1d_Model.xs := map qr (fx t); Tab1d_Model.ys := map qr (fy t); Tab1d_Model.bps := fbp t; Tab1d_Model.schemes := fint t |} with (rl t).
  rewrite regions_real by assumption.
  destruct (Neut_Model.regions R t e (Z.of_nat (AceEdit_Model.ssright (fx t) e) - 1) 1 (fbp t) (fint t) 0%Qc) as [y|]; [|reflexivity]. cbn [option_map].
  destruct (Neut_Model.at_ (fx t) 0) as [x0|]; [|reflexivity]. cbn [option_map].
  destruct (Neut_Model.at_ (fx t) (-1)) as [x1|]; [|reflexivity]. cbn [option_map].
  destruct (Neut_Model.at_ (fy t) 0) as [y0|]; [|reflexivity]. cbn [option_map].
  destruct (Neut_Model.at_ (fy t) (-1)) as [y1|]; [|reflexivity]. cbn [option_map].
  rewrite !near_real. destruct (AceEdit_Model.isclose e x1); [reflexivity|]. destruct (AceEdit_Model.isclose e x0); reflexivity.
Qed.
Lemma horner_real c x : Tab1d_Model.horner (map qr c) (qr x) = qr (horner c x).
Proof. induction c as [|a c IH]; cbn [map Tab1d_Model.horner horner]; [now rewrite qr_0|]. now rewrite IH, qr_add, qr_mul. Qed.
(** Tables are linear. *)
Definition straight (f : yield) : Prop := match f with Tabd t => forall s, In s (fint t) -> s = 2 | Poly _ => True end.
Lemma value_real f x : straight f -> Tab1d_Model.func_at (ry f) (qr x) = option_map qr (value_at R f x).
Proof. destruct f as [c|t]; intros H; cbn [ry Tab1d_Model.func_at value_at option_map]; [now rewrite horner_real|now apply call_real]. Qed.

(** ** Sums *)
Lemma all_some_real {B C} (g : B -> C) (l : list (option B)) : Tab1d_Model.all_some (map (option_map g) l) = option_map (map g) (Neut_Model.all_some l).
Proof.
  induction l as [|[b|] l IH]; cbn [map option_map Tab1d_Model.all_some Neut_Model.all_some]; [reflexivity| |reflexivity].
  rewrite IH. destruct (Neut_Model.all_some l); reflexivity.
Qed.
Lemma total_real l : Tab1d_Model.total (map qr l) = qr (qsum l).
Proof. induction l as [|a l IH]; cbn; [now rewrite qr_0|]. unfold Tab1d_Model.total in IH. rewrite IH. symmetry. apply qr_add. Qed.
Lemma sum_at_real fs x : Forall straight fs -> Tab1d_Model.sum_at (map ry fs) (qr x) = option_map qr (sum_at R fs x).
Proof.
  intros H. unfold Tab1d_Model.sum_at, sum_at. rewrite map_map.
  rewrite (map_ext_in _ (fun f => option_map qr (value_at R f x))).
  2:{ intros f Hf. apply value_real. rewrite Forall_forall in H. now apply H. }
  rewrite <- (map_map (fun f => value_at R f x) (option_map qr)), all_some_real.
  destruct (Neut_Model.all_some (map (fun f => value_at R f x) fs)) as [l|]; [|reflexivity]. cbn [option_map]. now rewrite total_real.
Qed.
Lemma ins_real x l : Tab1d_Model.ins (qr x) (map qr l) = map qr (insert x l).
Proof.
  induction l as [|y l IH]; [reflexivity|]. cbn [map Tab1d_Model.ins insert].
  destruct (qeqb_spec x y) as [->|N].
  - destruct (Req_EM_T (qr y) (qr y)); [reflexivity|congruence].
  - destruct (Req_EM_T (qr x) (qr y)) as [E|_]; [apply qr_inj in E; congruence|].
    destruct (qltb_spec x y) as [L|L]; destruct (Rlt_dec (qr x) (qr y)) as [L'|L']; try (rewrite <- qr_lt in L'; contradiction); [reflexivity|].
    cbn [map]. now rewrite IH.
Qed.
Lemma union_real a b : Tab1d_Model.union1d (map qr a) (map qr b) = map qr (union1d a b).
Proof.
  unfold Tab1d_Model.union1d, union1d. rewrite <- map_app. induction (a ++ b) as [|x l IH]; [reflexivity|]. cbn [map fold_right]. rewrite IH. apply ins_real.
Qed.
Lemma unions_real gs : forall g, fold_left Tab1d_Model.union1d (map (map qr) gs) (map qr g) = map qr (fold_left union1d gs g).
Proof. induction gs as [|h gs IH]; intros g; [reflexivity|]. cbn [map fold_left]. now rewrite union_real, IH. Qed.
Lemma grids_straight fs gs : grids fs = Some gs -> Forall straight fs /\ Tab1d_Model.grids (map ry fs) = Some (map (map qr) gs).
Proof.
  revert gs. induction fs as [|f fs IH]; intros gs; cbn [grids map].
  - intros [= <-]. split; [constructor|reflexivity].
  - destruct f as [c|t]; cbn [ry Tab1d_Model.grids].
    + intros E. destruct (IH gs E) as [F G]. split; [constructor; [exact I|exact F]|exact G].
    + cbn [rl Tab1d_Model.schemes Tab1d_Model.xs]. destruct (forallb (Z.eqb 2) (fint t)) eqn:E2; [|discriminate]. cbn [andb].
      destruct (negb _); [|discriminate]. destruct (grids fs) as [r|]; [|discriminate]. intros [= <-]. destruct (IH r eq_refl) as [F G]. split.
      * constructor; [|exact F]. intros s Hs. rewrite forallb_forall in E2. apply E2 in Hs. now apply Z.eqb_eq in Hs.
      * rewrite G. reflexivity.
Qed.
Lemma cadd_real a : forall b, Tab1d_Model.cadd (map qr a) (map qr b) = map qr (cadd a b).
Proof. induction a as [|x a IH]; intros [|y b]; try reflexivity. cbn [map Tab1d_Model.cadd cadd]. now rewrite IH, qr_add. Qed.
Lemma cadds_real fs : fold_right Tab1d_Model.cadd [] (map Tab1d_Model.coeffs (map ry fs)) = map qr (fold_right cadd [] (map coeffs fs)).
Proof. induction fs as [|f fs IH]; [reflexivity|]. cbn [map fold_right]. rewrite IH, <- cadd_real. destruct f; reflexivity. Qed.
Theorem sum_real fs g : sum_functions R fs = Some g -> Forall straight fs /\ Tab1d_Model.sum_functions (map ry fs) = Some (ry g).
Proof.
  unfold sum_functions, Tab1d_Model.sum_functions. destruct (grids fs) as [gs|] eqn:Eg; [|discriminate].
  destruct (grids_straight fs gs Eg) as [F G]. rewrite G. intros E. split; [exact F|]. destruct gs as [|g0 gs]; cbn [map].
  - rewrite cadds_real. destruct (fold_right cadd [] (map coeffs fs)) as [|c0 cs] eqn:Ec; [discriminate|].
    assert (g = Poly (c0 :: cs)) as -> by congruence. destruct fs as [|f fs]; [discriminate|]. reflexivity.
  - rewrite unions_real. rewrite map_map. rewrite (map_ext _ (fun x => option_map qr (sum_at R fs x))) by (intros x; now apply sum_at_real).
    rewrite <- (map_map (sum_at R fs) (option_map qr)), all_some_real.
    destruct (Neut_Model.all_some _) as [y|]; [|discriminate]. cbn [option_map]. assert (g = Tabd (linear (fold_left union1d gs g0) y)) as -> by congruence.
    cbn [ry]. unfold rl, Tab1d_Model.tabulated, linear. cbn [fx fy fbp fint]. now rewrite map_length.
Qed.
End Real.
