From Verif Require Import Num Text Dec PyNum Endf_Model Endf_Spec Endf_Proofs Endf2_Proofs Intg_Model Intg_Spec.
From Coq Require Import ZArith NArith.
Local Open Scope list_scope.
Local Open Scope nat_scope.

Lemma decZ_edges z : head_space (decZ z) = false /\ ends_space (decZ z) = false /\ decZ z <> [].
Proof.
  assert (K : forall n, head_space (decN n) = false /\ ends_space (decN n) = false).
  { intros n. split; [apply head_digit_not_space|apply (ends_digit_not_space [] (decN n))]; auto using decN_nonnil, decN_digits. }
  destruct z; cbn [decZ].
  - split; [apply K|]. split; [apply K|]. apply decN_nonnil.
  - split; [apply K|]. split; [apply K|]. apply decN_nonnil.
  - split; [reflexivity|]. split; [|discriminate].
    apply (ends_digit_not_space [_]); auto using decN_nonnil, decN_digits.
Qed.
Lemma int_endf_small w t z : small_field w t z -> int_endf t = Some z.
Proof.
  intros [_ [[-> ->]|(a & b & ->)]].
  - unfold int_endf, trim. rewrite <- (app_nil_r (repeat sp w)), ltrim_spaces. reflexivity.
  - destruct (decZ_edges z) as (H1 & H2 & H3). unfold int_endf. rewrite trim_padded by assumption.
    pose proof (py_int_dec 0 z 0) as E. cbn [repeat app] in E. rewrite app_nil_r in E.
    destruct (decZ z); [congruence|exact E].
Qed.

Lemma scaled_fraction nd e : (0 <= nd)%Z -> e <> 0%Z -> scaled nd e = fraction nd e.
Proof.
  intros Hn He. unfold scaled, fraction. destruct (Z.eqb_spec e 0) as [|_]; [congruence|].
  assert (P : (0 < 10 ^ nd)%Z) by (apply Z.pow_pos_nonneg; lia).
  assert (E : forall s, (s = 1 \/ s = -1)%Z ->
    ((qz e + qz s * qc 1 2) / qz (10 ^ nd))%Qc = Q2Qc ((2 * e + s) # Z.to_pos (2 * 10 ^ nd))).
  { intros s Hs. apply Qc_is_canon. unfold Qcdiv. rewrite this_mul, this_add, this_mul. unfold Qcinv, qz, qc.
    rewrite !this_Q2Qc. unfold Qeq, Qinv, Qmult, Qplus. cbn [Qnum Qden].
    destruct (10 ^ nd)%Z as [|p|p] eqn:Ep; [lia| |lia]. remember (2 * e)%Z as t eqn:Et. cbn. replace t with (e * 2)%Z by lia. f_equal. lia. }
  destruct (Z.ltb_spec 0 e).
  - rewrite <- (E 1%Z) by auto. replace (qz 1 * qc 1 2)%Qc with (qc 1 2) by (apply Qc_is_canon; reflexivity). reflexivity.
  - rewrite <- (E (-1)%Z) by auto. replace (qz (-1) * qc 1 2)%Qc with (- qc 1 2)%Qc by (apply Qc_is_canon; reflexivity). reflexivity.
Qed.

Definition nonzero (e : Z) : bool := negb (e =? 0)%Z.
Lemma last_cons_app {A} (l : list A) x d : l <> [] -> last (x :: l) d = last l d.
Proof. destruct l; [congruence|reflexivity]. Qed.
Lemma last_app_ne {A} (a b : list A) d : b <> [] -> last (a ++ b) d = last b d.
Proof.
  intros H. induction a as [|x a IH]; [reflexivity|]. cbn [app]. rewrite last_cons_app; [assumption|].
  destruct a; [now cbn|discriminate].
Qed.
Definition pick (nd : Z) (l : list Z) (old : Qc) : Qc := match l with [] => old | _ => fraction nd (last l 0%Z) end.
Lemma pick_app nd a b old : pick nd (a ++ b) old = pick nd b (pick nd a old).
Proof.
  destruct b as [|y b]; [now rewrite app_nil_r|]. unfold pick at 1 2.
  rewrite last_app_ne by discriminate. destruct a; reflexivity.
Qed.

Lemma axis_ok n i : (0 <= i < Z.of_nat n)%Z -> axis n i = Some (Z.to_nat i).
Proof.
  intros H. unfold axis. destruct (Z.leb_spec 0 i); [|lia]. destruct (Z.ltb_spec i (Z.of_nat n)); [reflexivity|lia].
Qed.
Lemma intg_cols_ok npar nd ii jj line : (0 <= nd)%Z -> (0 <= ii < Z.of_nat npar)%Z -> (0 <= jj)%Z ->
  forall es ts tail j m, Forall2 (small_field (S (Z.to_nat nd))) ts es ->
  skipn (11 + S (Z.to_nat nd) * j) line = concat ts ++ tail ->
  exists m', intg_cols npar nd ii jj line (length es) j m = Some m' /\
    forall x y, m' x y = if ((Z.of_nat x =? ii) && (Z.of_nat y =? jj))%Z
                         then pick nd (filter nonzero (firstn (Z.to_nat (ii - jj - Z.of_nat j)) es)) (m x y) else m x y.
Proof.
  intros Hnd Hii Hjj. induction es as [|e es IH]; intros ts tail j m H E; cbn [length intg_cols].
  - exists m. split; [reflexivity|]. intros x y. rewrite firstn_nil. cbn. now destruct (_ && _).
  - inversion H as [|x ? l ? Hf Hr]; subst. cbn [concat] in E. rewrite <- app_assoc in E.
    destruct (Z.leb_spec ii (jj + Z.of_nat j)) as [Hb|Hb].
    + exists m. split; [reflexivity|]. intros x' y'. replace (Z.to_nat (ii - jj - Z.of_nat j)) with 0 by lia. cbn. now destruct (_ && _).
    + set (w := S (Z.to_nat nd)) in *.
      assert (S1 : slice (11 + w * j) (11 + w * (j + 1)) line = x).
      { unfold slice. rewrite E. replace (11 + w * (j + 1) - (11 + w * j)) with (length x) by (rewrite (proj1 Hf); lia).
        now rewrite firstn_app, firstn_all, Nat.sub_diag, app_nil_r. }
      rewrite S1, (int_endf_small _ _ _ Hf).
      assert (S2 : skipn (11 + w * S j) line = concat l ++ tail).
      { replace (11 + w * S j) with (w + (11 + w * j)) by lia. rewrite <- skipn_skipn, E.
        rewrite skipn_app, skipn_all2 by (rewrite (proj1 Hf); lia). cbn [app].
        replace (w - length x) with 0 by (rewrite (proj1 Hf); lia). reflexivity. }
      replace (Z.to_nat (ii - jj - Z.of_nat j)) with (S (Z.to_nat (ii - jj - Z.of_nat (S j)))) by lia.
      cbn [firstn filter]. unfold nonzero at 1.
      destruct (Z.eqb_spec e 0) as [He|He]; cbn [negb].
      * exact (IH l tail (S j) m Hr S2).
      * unfold assign. rewrite !axis_ok by lia.
        destruct (IH l tail (S j) (fun x0 y => if (x0 =? Z.to_nat ii) && (y =? Z.to_nat jj) then scaled nd e else m x0 y) Hr S2) as (m' & Em & Hm).
        exists m'. split; [exact Em|]. intros x0 y0. rewrite Hm.
        change (e :: filter nonzero (firstn (Z.to_nat (ii - jj - Z.of_nat (S j))) es)) with
          ([e] ++ filter nonzero (firstn (Z.to_nat (ii - jj - Z.of_nat (S j))) es)).
        rewrite pick_app. cbn [pick last].
        destruct (Z.eqb_spec (Z.of_nat x0) ii) as [Ex|Ex]; destruct (Z.eqb_spec (Z.of_nat y0) jj) as [Ey|Ey]; cbn [andb].
        -- replace (x0 =? Z.to_nat ii) with true by (symmetry; apply Nat.eqb_eq; lia).
           replace (y0 =? Z.to_nat jj) with true by (symmetry; apply Nat.eqb_eq; lia). cbn [andb].
           now rewrite scaled_fraction by lia.
        -- replace (y0 =? Z.to_nat jj) with false by (symmetry; apply Nat.eqb_neq; lia). now rewrite andb_false_r.
        -- replace (x0 =? Z.to_nat ii) with false by (symmetry; apply Nat.eqb_neq; lia). reflexivity.
        -- replace (x0 =? Z.to_nat ii) with false by (symmetry; apply Nat.eqb_neq; lia). reflexivity.
Qed.

Lemma intg_lines_ok npar nrow nd : (0 <= nd)%Z -> forall xs ls rest m,
  Forall2 (iline_text (S (Z.to_nat nd))) xs ls -> Forall (in_range npar nrow) xs ->
  exists m', intg_lines npar nrow nd (length xs) (ls ++ rest) m = Some (m', rest) /\
    forall i j, m' i j = pick nd (flat_map usable (filter (at_cell i j) xs)) (m i j).
Proof.
  intros Hnd. induction xs as [|x xs IH]; intros ls rest m H HR; inversion H as [|x0 l xs0 ls0 Hl Hr]; subst.
  - exists m. split; reflexivity.
  - inversion HR as [|x1 xs1 Hx Hxs]; subst. destruct Hx as (Hrow & Hcol & Hlen).
    cbn [length intg_lines app readline].
    destruct Hl as (ti & tj & c & ts & tail & -> & Hi & Hj & Hts).
    pose proof (proj1 Hi) as Li. pose proof (proj1 Hj) as Lj.
    rewrite slice_take by lia. rewrite (int_endf_small _ _ _ Hi).
    rewrite slice_skip, slice_take by lia. rewrite (int_endf_small _ _ _ Hj).
    assert (S0 : skipn (11 + S (Z.to_nat nd) * 0) (ti ++ tj ++ c :: concat ts ++ tail) = concat ts ++ tail).
    { rewrite Nat.mul_0_r. change (11 + 0) with 11. rewrite skipn_app, skipn_all2 by lia. cbn [app].
      rewrite skipn_app, skipn_all2 by lia. cbn [app]. replace (11 - length ti - length tj) with 1 by lia. reflexivity. }
    destruct (intg_cols_ok npar nd (row x - 1) (col x - 1) (ti ++ tj ++ c :: concat ts ++ tail) Hnd ltac:(lia) ltac:(lia) (ints x) ts tail 0 m Hts S0) as (m1 & E1 & H1).
    rewrite Hlen in E1. rewrite E1.
    destruct (IH ls0 rest m1 Hr Hxs) as (m2 & E2 & H2). exists m2. split; [exact E2|].
    intros i j. rewrite H2, H1. cbn [filter].
    replace ((Z.of_nat i =? row x - 1) && (Z.of_nat j =? col x - 1))%Z with (at_cell i j x).
    + destruct (at_cell i j x); [|reflexivity]. cbn [flat_map]. rewrite pick_app. f_equal. f_equal.
      unfold usable. f_equal. f_equal. f_equal. lia.
    + unfold at_cell. f_equal; apply Bool.eq_true_iff_eq; rewrite !Z.eqb_eq; lia.
Qed.

Lemma usable_below x i j : at_cell i j x = true -> i <= j -> usable x = [].
Proof.
  unfold at_cell. intros H Hij. apply andb_true_iff in H as [H1 H2]. apply Z.eqb_eq in H1, H2.
  unfold usable. replace (Z.to_nat (row x - col x)) with 0 by lia. reflexivity.
Qed.
Lemma pick_upper nd xs i j old : i <= j -> pick nd (flat_map usable (filter (at_cell i j) xs)) old = old.
Proof.
  intros H. replace (flat_map usable (filter (at_cell i j) xs)) with (@nil Z); [reflexivity|].
  induction xs as [|x xs IH]; [reflexivity|]. cbn [filter]. destruct (at_cell i j x) eqn:E; [|assumption].
  cbn [flat_map]. now rewrite (usable_below x i j E H).
Qed.
Lemma pick_zero nd l : pick nd l 0%Qc = fraction nd (last l 0%Z).
Proof. destruct l; reflexivity. Qed.

Lemma get_intg_ok l a b nd npar n xs ls nrow rest :
  control_line l a b nd (Z.of_nat npar) (Z.of_nat (length xs)) n -> nrow_of nd = Some nrow -> 
  Forall2 (iline_text (S (Z.to_nat nd))) xs ls -> Forall (in_range npar nrow) xs ->
  exists m, get_intg_record (l :: ls ++ rest) = Some (npar, m, rest) /\
    forall i j, m i j = if Nat.eqb i j then 1%Qc else observed nd xs (Nat.max i j) (Nat.min i j).
Proof.
  intros Hc Hn Hl Hr.
  assert (Hnd : (0 <= nd)%Z).
  { destruct nd as [|p|p]; [lia|lia|discriminate Hn]. }
  unfold get_intg_record. rewrite (get_cont_ok _ _ _ _ _ _ _ _ Hc). cbn [l1 l2 n1].
  rewrite Hn. destruct (Z.ltb_spec (Z.of_nat npar) 0) as [?|_]; [lia|]. rewrite !Nat2Z.id.
  destruct (intg_lines_ok npar nrow nd Hnd xs ls rest identity Hl Hr) as (m & -> & Hm).
  exists (symmetrize m). split; [reflexivity|]. intros i j. unfold symmetrize. rewrite !Hm.
  destruct (Nat.eqb_spec i j) as [->|Hij].
  - rewrite pick_upper by lia. unfold identity. rewrite Nat.eqb_refl. ring.
  - unfold observed. rewrite <- pick_zero. destruct (Nat.lt_ge_cases i j) as [H|H].
    + rewrite Nat.max_r, Nat.min_l by lia. rewrite (pick_upper nd xs i j) by lia. unfold identity.
      destruct (Nat.eqb_spec i j) as [?|_]; [lia|]. destruct (Nat.eqb_spec j i) as [?|_]; [lia|]. ring.
    + rewrite Nat.max_l, Nat.min_r by lia. rewrite (pick_upper nd xs j i) by lia. unfold identity.
      destruct (Nat.eqb_spec i j) as [?|_]; [lia|]. destruct (Nat.eqb_spec j i) as [?|_]; [lia|]. ring.
Qed.

Lemma get_intg_symmetric f n m f' : get_intg_record f = Some (n, m, f') -> forall i j, m i j = m j i.
Proof.
  unfold get_intg_record. destruct (get_cont_record false f) as [[it f1]|]; [|discriminate].
  destruct (nrow_of (l1 it)) as [nr|]; [|discriminate]. destruct (l2 it <? 0)%Z; [discriminate|].
  destruct (intg_lines _ _ _ _ _ _) as [[m0 f2]|]; [|discriminate]. intros E. injection E as <- <- <-. intros i j.
  unfold symmetrize. rewrite (Nat.eqb_sym j i). destruct (Nat.eqb_spec i j) as [->|_]; ring.
Qed.

(** ** What is stored *)
Lemma fraction_nonzero nd e : e <> 0%Z -> fraction nd e <> 0%Qc.
Proof.
  intros He E. unfold fraction in E. destruct (Z.eqb_spec e 0) as [|_]; [congruence|].
  apply (f_equal (fun q : Qc => this q)) in E. change (this 0%Qc) with (0 # 1) in E.
  assert (Q : Qeq ((2 * e + (if (0 <? e)%Z then 1 else -1)) # Z.to_pos (2 * 10 ^ nd)) 0).
  { rewrite <- this_Q2Qc. rewrite E. reflexivity. }
  unfold Qeq in Q. cbn [Qnum Qden] in Q. destruct (Z.ltb_spec 0 e); nia.
Qed.
Lemma observed_none nd xs i j : (forall x, In x xs -> at_cell i j x = false) -> observed nd xs i j = 0%Qc.
Proof.
  intros H. unfold observed. replace (filter (at_cell i j) xs) with (@nil iline); [reflexivity|].
  induction xs as [|x xs IH]; [reflexivity|]. cbn [filter]. rewrite (H x (or_introl eq_refl)). apply IH. intros y Hy. apply H. now right.
Qed.
Lemma filter_one xs : NoDup (map (fun x => (row x, col x)) xs) -> forall x i j, In x xs -> at_cell i j x = true ->
  filter (at_cell i j) xs = [x].
Proof.
  induction xs as [|y xs IH]; intros Hn x i j Hi Hc; [destruct Hi|]. cbn [map] in Hn. inversion Hn as [|p l H1 H2]; subst.
  assert (K : forall y, In y xs -> at_cell i j y = true -> In (row y, col y) (map (fun x => (row x, col x)) xs)).
  { intros z Hz _. apply in_map_iff. now exists z. }
  assert (Same : forall y z, at_cell i j y = true -> at_cell i j z = true -> (row y, col y) = (row z, col z)).
  { unfold at_cell. intros u v Hu Hv. apply andb_true_iff in Hu as [U1 U2], Hv as [V1 V2]. apply Z.eqb_eq in U1, U2, V1, V2. congruence. }
  cbn [filter]. destruct Hi as [->|Hi].
  - rewrite Hc. f_equal. destruct (filter (at_cell i j) xs) as [|z zs] eqn:F; [reflexivity|exfalso].
    assert (Hz : In z (filter (at_cell i j) xs)) by (rewrite F; now left). apply filter_In in Hz as [Hz1 Hz2].
    apply H1. rewrite (Same x z Hc Hz2). now apply K.
  - destruct (at_cell i j y) eqn:Ey; [exfalso; apply H1; rewrite (Same y x Ey Hc); now apply K|]. now apply IH.
Qed.
Lemma firstn_repeat {A} (x : A) n k : firstn n (repeat x k) = repeat x (Nat.min n k).
Proof. revert k. induction n as [|n IH]; intros [|k]; cbn; [reflexivity..|]. now rewrite IH. Qed.
Lemma observed_single nd xs x e k : NoDup (map (fun x => (row x, col x)) xs) -> In x xs -> (1 <= col x < row x)%Z ->
  ints x = e :: repeat 0%Z k -> observed nd xs (Z.to_nat (row x - 1)) (Z.to_nat (col x - 1)) = fraction nd e.
Proof.
  intros Hn Hi Hr He. unfold observed. rewrite (filter_one xs Hn x); [|assumption|].
  - cbn [flat_map]. rewrite app_nil_r. unfold usable. rewrite He.
    replace (Z.to_nat (row x - col x)) with (S (Z.to_nat (row x - col x - 1))) by lia. cbn [firstn].
    rewrite firstn_repeat. cbn [filter].
    assert (F : forall n, filter (fun e => negb (e =? 0)%Z) (repeat 0%Z n) = []) by (induction n; [reflexivity|exact IHn]).
    rewrite F. destruct (Z.eqb_spec e 0) as [->|He0]; reflexivity.
  - unfold at_cell. apply andb_true_iff. split; apply Z.eqb_eq; lia.
Qed.
