From Verif Require Import Num Text Dec PyNum Endf_Model Endf_Spec Endf_Props Name_Model Name_Spec Name_Proofs Dcy_Model Dcy_Spec.
From Verif Require Gen_Proofs Neut_Proofs Rcov3_Proofs.
From Coq Require Import ZArith NArith Lia Qpower.
Local Open Scope list_scope.
Local Open Scope nat_scope.

(** ** Numbers *)
Lemma qz_add a b : qz (a + b) = (qz a + qz b)%Qc.
Proof. apply Qc_is_canon. rewrite this_add. unfold qz. rewrite !this_Q2Qc. unfold Qeq, Qplus. cbn [Qnum Qden]. lia. Qed.
Lemma qz_mul a b : qz (a * b) = (qz a * qz b)%Qc.
Proof. apply Qc_is_canon. rewrite this_mul. unfold qz. rewrite !this_Q2Qc. unfold Qeq, Qmult. cbn [Qnum Qden]. lia. Qed.
Lemma qz_this z : this (qz z) = (z # 1)%Q.
Proof.
  unfold qz, Q2Qc; cbn [this]. pose proof (Z.ggcd_gcd z 1) as G. pose proof (Z.ggcd_correct_divisors z 1) as C.
  unfold Qred. destruct (Z.ggcd z 1) as (g, (aa, bb)). cbn [fst] in G. cbn [snd].
  rewrite Z.gcd_1_r in G. subst g. destruct C as [C1 C2]. assert (aa = z) by lia. assert (bb = 1)%Z by lia. subst bb. rewrite H. reflexivity.
Qed.
Lemma den_one x : Pos.eqb (Qden (this x)) 1 = true <-> exists z, x = qz z.
Proof.
  split.
  - intros H. apply Pos.eqb_eq in H. exists (Qnum (this x)). apply Qc_is_canon. rewrite qz_this. unfold Qeq. cbn [Qnum Qden]. now rewrite H.
  - intros [z ->]. now rewrite qz_this.
Qed.
Lemma pow10_nat k : pow10 (Z.of_nat k) = qz (10 ^ Z.of_nat k).
Proof.
  unfold pow10. apply Qc_is_canon. rewrite this_Q2Qc, qz_this. induction k as [|k IH]; [reflexivity|].
  rewrite Nat2Z.inj_succ, Z.pow_succ_r by lia. unfold Z.succ. rewrite Qpower_plus by (intros E; discriminate E). rewrite IH. change (Qpower (10 # 1) 1) with (10 # 1)%Q. unfold Qeq, Qmult. cbn [Qnum Qden]. lia.
Qed.
Lemma trunc_qz z : trunc (qz z) = z.
Proof. unfold trunc. rewrite qz_this. cbn [Qnum Qden]. apply Z.quot_1_r. Qed.

(** ** Digits *)
Definition chr (d : nat) : ascii := ascii_of_nat (48 + d).
Lemma small_cases (P : nat -> Prop) : P 0 -> P 1 -> P 2 -> P 3 -> P 4 -> P 5 -> P 6 -> P 7 -> P 8 -> P 9 -> forall d, d <= 9 -> P d.
Proof. intros. do 10 (destruct d as [|d]; [assumption|]). lia. Qed.
Lemma chr_digit d : d <= 9 -> is_digit (chr d) = true /\ digit (chr d) = N.of_nat d /\ decN (N.of_nat d) = [chr d] /\ eqc (chr d) "." = false.
Proof. revert d. apply small_cases; repeat split. Qed.
Lemma chr_zero d : d <= 9 -> d <> 0 -> eqc (chr d) "0" = false.
Proof. revert d. apply (small_cases (fun d => d <> 0 -> eqc (chr d) "0" = false)); intros H; reflexivity || lia. Qed.
Lemma chrs_digits ds : Forall (fun d => d <= 9) ds -> forallb is_digit (map chr ds) = true.
Proof. induction 1 as [|d ds H1 H2 IH]; [reflexivity|]. cbn [map forallb]. now rewrite (proj1 (chr_digit d H1)), IH. Qed.
Lemma dval_cons c t : dval (c :: t) = (digit c * 10 ^ N.of_nat (length t) + dval t)%N.
Proof. exact (dval_app [c] t). Qed.
Lemma dval_bound t : forallb is_digit t = true -> (dval t < 10 ^ N.of_nat (length t))%N.
Proof.
  induction t as [|c t IH]; intros H; [reflexivity|]. cbn [forallb] in H. apply andb_true_iff in H as [H1 H2]. specialize (IH H2).
  rewrite dval_cons. cbn [length]. rewrite Nat2N.inj_succ, N.pow_succ_r'.
  assert (digit c <= 9)%N; [|nia].
  unfold is_digit in H1. cbn zeta in H1. apply andb_true_iff in H1 as [A B]. apply Nat.leb_le in A, B. unfold digit. lia.
Qed.
Lemma zeros_dval t : t <> [] -> forallb is_digit t = true -> zeros_to (length t) (decN (dval t)) = t.
Proof.
  induction t as [|c t IH]; intros N H; [easy|]. destruct (eqc c "0") eqn:E.
  - apply eqc_eq in E. subst c. cbn [forallb] in H. apply andb_true_iff in H as [_ H]. rewrite (dval_zeros 1 t : dval ("0"%char :: t) = dval t).
    destruct t as [|c t]; [reflexivity|]. specialize (IH ltac:(discriminate) H). set (u := c :: t) in *. unfold zeros_to in *.
    pose proof (f_equal (@length ascii) IH) as L. rewrite app_length, repeat_length in L. cbn [length].
    replace (S (length u) - length (decN (dval u))) with (S (length u - length (decN (dval u)))) by lia. cbn [repeat app]. now rewrite IH.
  - assert (c <> "0"%char) by (intros ->; discriminate E). rewrite Gen_Proofs.dec_of_digits by assumption. unfold zeros_to. now rewrite Nat.sub_diag.
Qed.

(** ** Modes *)
Lemma scaled r : forall d, Forall (fun d => d <= 9) (d :: r) ->
  (rtyp (d :: r) * pow10 (Z.of_nat (length r)))%Qc = qz (Z.of_N (dval (map chr (d :: r)))).
Proof.
  induction r as [|d' r IH]; intros d H.
  - cbn [rtyp length map]. change (pow10 (Z.of_nat 0)) with 1%Qc. apply Forall_inv in H. rewrite dval_cons. cbn [length].
    rewrite (proj1 (proj2 (chr_digit d H))). replace (Z.of_N (N.of_nat d * 10 ^ N.of_nat 0 + dval [])) with (Z.of_nat d); [|unfold dval; cbn [fold_left]; change (10 ^ N.of_nat 0)%N with 1%N; lia].
    unfold Qcdiv. ring.
  - pose proof (Forall_inv H) as Hd. apply Forall_inv_tail in H. specialize (IH d' H).
    change (map chr (d :: d' :: r)) with (chr d :: map chr (d' :: r)). rewrite dval_cons, map_length, (proj1 (proj2 (chr_digit d Hd))).
    rewrite N2Z.inj_add, N2Z.inj_mul, N2Z.inj_pow, qz_add, qz_mul, <- IH.
    change (rtyp (d :: d' :: r)) with (qz (Z.of_nat d) + rtyp (d' :: r) / qz 10)%Qc. rewrite !pow10_nat. cbn [length].
    replace (Z.of_N (N.of_nat d)) with (Z.of_nat d) by lia. rewrite !nat_N_Z, Nat2Z.inj_succ, Z.pow_succ_r, qz_mul by lia.
    change (Z.of_N 10) with 10%Z. assert (T : qz 10 <> 0%Qc) by discriminate. rewrite Z.pow_succ_r, qz_mul by lia. field. exact T.
Qed.
Lemma decimals_found q n : (exists z, (q * pow10 (Z.of_nat n))%Qc = qz z) -> (forall k z, k < n -> (q * pow10 (Z.of_nat k))%Qc <> qz z) ->
  forall fuel k, k <= n -> n <= k + fuel -> decimals fuel k q = Some n.
Proof.
  intros Y N. induction fuel as [|fuel IH]; intros k K F; cbn [decimals].
  - assert (k = n) as -> by lia. apply den_one in Y. now rewrite Y.
  - destruct (Nat.eq_dec k n) as [->|D].
    + apply den_one in Y. now rewrite Y.
    + destruct (Pos.eqb _ 1) eqn:E; [|apply IH; lia]. apply den_one in E as [z E]. destruct (N k z); [lia|exact E].
Qed.
Lemma last_mod t c : is_digit c = true -> (dval (t ++ [c]) mod 10 = digit c)%N.
Proof.
  intros H. rewrite dval_snoc. replace (10 * dval t + digit c)%N with (digit c + dval t * 10)%N by lia. rewrite N.mod_add by lia. apply N.mod_small.
  unfold is_digit in H. cbn zeta in H. apply andb_true_iff in H as [A B]. apply Nat.leb_le in A, B. unfold digit. lia.
Qed.
Lemma rtyp_decimals d r : Forall (fun d => d <= 9) (d :: r) -> last (d :: r) 0 <> 0 -> length r <= 16 -> decimals 16 0 (rtyp (d :: r)) = Some (length r).
Proof.
  intros H L N. apply decimals_found; [eexists; now apply scaled| |lia|lia].
  intros k z K E. pose proof (scaled r d H) as S. rewrite !pow10_nat in *.
  assert (Ek : (10 ^ Z.of_nat (length r) = 10 ^ Z.of_nat k * 10 * 10 ^ Z.of_nat (length r - k - 1))%Z).
  { replace (Z.of_nat (length r)) with (Z.of_nat k + (1 + Z.of_nat (length r - k - 1)))%Z by lia. rewrite !Z.pow_add_r by lia. lia. }
  rewrite Ek, !qz_mul in S. replace (rtyp (d :: r) * (qz (10 ^ Z.of_nat k) * qz 10 * qz (10 ^ Z.of_nat (length r - k - 1))))%Qc
    with (rtyp (d :: r) * qz (10 ^ Z.of_nat k) * qz 10 * qz (10 ^ Z.of_nat (length r - k - 1)))%Qc in S by ring.
  rewrite E, <- !qz_mul in S. apply Neut_Proofs.qz_inj in S.
  destruct (@exists_last _ (d :: r)) as (t & c & Et); [discriminate|]. rewrite Et in *. rewrite last_last in L.
  apply Forall_app in H as [_ H]. apply Forall_inv in H. rewrite map_app in S. cbn [map] in S.
  pose proof (last_mod (map chr t) (chr c) (proj1 (chr_digit c H))) as M. rewrite (proj1 (proj2 (chr_digit c H))) in M.
  apply (f_equal (fun z => (z mod 10)%Z)) in S. rewrite <- (N2Z.inj_mod _ 10) in S by lia. rewrite M in S.
  replace (z * 10 * 10 ^ Z.of_nat (length r - k - 1))%Z with (z * 10 ^ Z.of_nat (length r - k - 1) * 10)%Z in S by lia. rewrite Z.mod_mul in S by lia. lia.
Qed.
Lemma rtyp_bounds ds : Forall (fun d => d <= 9) ds -> (0 <= rtyp ds)%Qc /\ (rtyp ds <= qz 10)%Qc.
Proof.
  induction 1 as [|d ds H1 H2 [I1 I2]]; [split; discriminate|]. cbn [rtyp].
  assert (K : (0 <= qz (Z.of_nat d))%Qc /\ (qz (Z.of_nat d) <= qz 9)%Qc).
  { unfold Qcle. rewrite !qz_this. unfold Qle. cbn. lia. }
  replace (qz 10) with (qc 10 1) in * by reflexivity. replace (qz 9) with (qc 9 1) in * by reflexivity.
  destruct K. set (x := qz (Z.of_nat d)) in *. set (y := rtyp ds) in *.
  assert (E : (y / qc 10 1 = y * qc 1 10)%Qc) by reflexivity. rewrite E. split; qclra.
Qed.
Lemma py_str_rtyp d r : Forall (fun d => d <= 9) (d :: r) -> d <> 0 -> last (d :: r) 0 <> 0 -> length r <= 16 ->
  py_str (rtyp (d :: r)) = Some (chr d :: "."%char :: match r with [] => ["0"%char] | _ => map chr r end).
Proof.
  intros H D L N. unfold py_str. pose proof (rtyp_bounds _ (Forall_inv_tail H)) as [B1 B2]. pose proof (rtyp_bounds _ H) as [B3 B4].
  assert (G : (1 <= rtyp (d :: r))%Qc).
  { cbn [rtyp]. assert (1 <= qz (Z.of_nat d))%Qc by (unfold Qcle; rewrite qz_this; unfold Qle; cbn; lia).
    set (x := qz (Z.of_nat d)) in *. set (y := rtyp r) in *. assert (E : (y / qz 10 = y * qc 1 10)%Qc) by reflexivity. rewrite E. qclra. }
  assert (P1 : qleb (pow10 (-4)) (rtyp (d :: r)) = true).
  { apply qleb_le. apply Qcle_trans with 1%Qc; [|exact G]. discriminate. }
  assert (P2 : qleb (pow10 16) (rtyp (d :: r)) = false).
  { apply qleb_nle. apply Qcle_lt_trans with (qz 10); [exact B4|]. reflexivity. }
  rewrite P1, P2. cbn [negb orb]. rewrite andb_false_r. rewrite (rtyp_decimals d r H L N). rewrite (scaled r d H). rewrite qz_this. cbn [Qnum].
  rewrite N2Z.id. pose proof (Forall_inv H) as Hd. apply Forall_inv_tail in H.
  pose proof (dval_bound (map chr r) (chrs_digits r H)) as Bd. rewrite map_length in Bd.
  cbn [map]. rewrite dval_cons, map_length, (proj1 (proj2 (chr_digit d Hd))).
  assert (Q1 : ((N.of_nat d * 10 ^ N.of_nat (length r) + dval (map chr r)) / 10 ^ N.of_nat (length r) = N.of_nat d)%N).
  { rewrite N.div_add_l by (apply N.pow_nonzero; lia). rewrite N.div_small by exact Bd. lia. }
  assert (Q2 : ((N.of_nat d * 10 ^ N.of_nat (length r) + dval (map chr r)) mod 10 ^ N.of_nat (length r) = dval (map chr r))%N).
  { rewrite N.add_comm, N.mod_add by (apply N.pow_nonzero; lia). now apply N.mod_small. }
  rewrite Q1, Q2, (proj1 (proj2 (proj2 (chr_digit d Hd)))). cbn [app]. destruct r as [|d' r]; [reflexivity|]. cbn [length].
  do 3 f_equal. change (S (length r)) with (length (d' :: r)). rewrite <- (map_length chr (d' :: r)). apply zeros_dval; [discriminate|]. now apply chrs_digits.
Qed.
Lemma lstrip_none c t : eqc c "0" = false -> lstrip0 (c :: t) = c :: t.
Proof. intros H. cbn [lstrip0]. now rewrite H. Qed.
Lemma mode_chr d : d <= 9 -> exists x, mode_of (chr d) = Some x /\ fst x = mode_name d.
Proof. revert d. apply small_cases; (eexists; split; [reflexivity|reflexivity]). Qed.
Lemma modes_chrs ds : Forall (fun d => d <= 9) ds -> exists ms, each_some mode_of (map chr ds) = Some ms /\ map fst ms = map mode_name ds.
Proof.
  induction 1 as [|d ds H1 H2 (ms & E & F)]; [now exists []|]. destruct (mode_chr d H1) as (x & X & Y). exists (x :: ms).
  cbn [map each_some]. rewrite X, E. split; [reflexivity|]. cbn [map]. now rewrite Y, F.
Qed.
Lemma filter_chrs ds : Forall (fun d => d <= 9) ds -> filter (fun c => negb (eqc c ".")) (map chr ds) = map chr ds.
Proof. induction 1 as [|d ds H1 H2 IH]; [reflexivity|]. cbn [map filter]. now rewrite (proj2 (proj2 (proj2 (chr_digit d H1)))), IH. Qed.
Lemma get_modes_ok ds : chain ds -> get_decay_modes (rtyp ds) = Some (map mode_name ds).
Proof.
  intros (N & H & F & L & K). destruct ds as [|d r]; [easy|]. cbn [hd] in F. cbn [length] in K. unfold get_decay_modes.
  rewrite py_str_rtyp by (assumption || lia). pose proof (Forall_inv H) as Hd. destruct (modes_chrs _ H) as (ms & E1 & E2).
  assert (S : filter (fun c => negb (eqc c ".")) (strip0 (chr d :: "."%char :: match r with [] => ["0"%char] | _ => map chr r end)) = map chr (d :: r)).
  { unfold strip0. rewrite lstrip_none by (now apply chr_zero). destruct r as [|d' r].
    - cbn [rev app lstrip0]. change (eqc "0" "0") with true. cbn iota. change (eqc "." "0") with false. cbn iota. cbn [rev app filter map].
      rewrite (proj2 (proj2 (proj2 (chr_digit d Hd)))). reflexivity.
    - set (u := d' :: r) in *. destruct (@exists_last _ u) as (t & c & Et); [discriminate|].
      assert (Lc : c <> 0 /\ c <= 9).
      { subst u. rewrite Et in *. split; [|apply Forall_inv_tail, Forall_app in H as [_ H]; now apply Forall_inv in H]. rewrite app_comm_cons, last_last in L. exact L. }
      assert (R : rev (chr d :: "."%char :: map chr u) = chr c :: rev (chr d :: "."%char :: map chr t)).
      { rewrite Et, map_app. cbn [map rev]. rewrite rev_app_distr. reflexivity. }
      rewrite R, lstrip_none by (apply chr_zero; tauto). rewrite <- R, rev_involutive. cbn [filter]. rewrite (proj2 (proj2 (proj2 (chr_digit d Hd)))).
      change (eqc "." ".") with true. cbn [negb]. rewrite filter_chrs by (exact (Forall_inv_tail H)). reflexivity. }
  rewrite S, E1. now rewrite E2.
Qed.

(** ** Daughters *)
Lemma zam_matched n z a m : zam n = Some (z, a, m) -> exists s aa st, matched n = Some (s, aa, st) /\ number s = Some z /\ Z.of_N (dval aa) = a.
Proof.
  unfold zam. destruct (matched n) as [[[s aa] st]|]; [|discriminate]. intros H. exists s, aa, st. split; [reflexivity|].
  destruct (number s) as [z'|]; [|discriminate]. cbn [option_map] in H. split; congruence.
Qed.
Lemma times_cons s m ms : times s (m :: ms) = ((if eqt (str s) m then 1 else 0) + times s ms)%Z.
Proof. unfold times. cbn [filter]. destruct (eqt (str s) m); cbn [length]; lia. Qed.
Definition moved (za : Z * Z) (e : text * option (Z * Z)) : Z * Z :=
  match snd e with Some (da, dz) => (fst za + dz, snd za + da)%Z | None => za end.
Definition step (m : text) (za : Z * Z) (e : text * option (Z * Z)) : Z * Z := if eqt (fst e) m then moved za e else za.
Lemma steps_fold m l za : fold_left (fun za e => if eqt (fst e) m then match snd e with Some (da, dz) => (fst za + dz, snd za + da)%Z | None => za end else za) l za = fold_left (step m) l za.
Proof. reflexivity. Qed.
Lemma steps_none m l : (forall e, In e l -> fst e <> m) -> forall za, fold_left (step m) l za = za.
Proof.
  induction l as [|e l IH]; intros H za; [reflexivity|]. cbn [fold_left]. unfold step at 2. destruct (eqt (fst e) m) eqn:E.
  - apply eqt_eq in E. destruct (H e); [now left|exact E].
  - apply IH. intros e' I. apply H. now right.
Qed.
Lemma steps_one e l : NoDup (map fst l) -> In e l -> forall za, fold_left (step (fst e)) l za = moved za e.
Proof.
  induction l as [|e' l IH]; intros N I za; [destruct I|]. cbn [map] in N. inversion N as [|x y N1 N2]; subst. cbn [fold_left]. destruct I as [->|I].
  - unfold step at 2. rewrite eqt_refl. apply steps_none. intros e' I E. apply N1. rewrite <- E. now apply in_map.
  - unfold step at 2. destruct (eqt (fst e') (fst e)) eqn:E; [|now apply IH]. apply eqt_eq in E. destruct N1. rewrite E. now apply in_map.
Qed.
Lemma modes_nodup : NoDup (map fst decay_modes).
Proof. apply nodupb_NoDup. reflexivity. Qed.
Ltac decide_names :=
  repeat match goal with |- context [eqt (str ?a) (str ?b)] => let v := eval vm_compute in (eqt (str a) (str b)) in change (eqt (str a) (str b)) with v end.
Definition shift (z a : Z) (m : text) : Z * Z :=
  (z + (if eqt (str "beta-") m then 1 else 0) - (if eqt (str "ec/beta+") m then 1 else 0) - 2 * (if eqt (str "alpha") m then 1 else 0) - (if eqt (str "p") m then 1 else 0),
   a - 4 * (if eqt (str "alpha") m then 1 else 0) - (if eqt (str "n") m then 1 else 0) - (if eqt (str "p") m then 1 else 0))%Z.
Lemma shift_known z a e : In e decay_modes -> moved (z, a) e = shift z a (fst e).
Proof.
  intros I. unfold decay_modes in I. repeat (destruct I as [<-|I]; [unfold moved, shift; cbn [fst snd]; decide_names; cbn beta iota; f_equal; lia|]). destruct I.
Qed.
Lemma in_names d : d <= 9 -> In (mode_name d) (map fst decay_modes).
Proof. intros H. apply nth_error_In with (n := d). revert d H. apply small_cases; reflexivity. Qed.
Lemma shift_unknown z a m : (forall s, In s (map fst decay_modes) -> eqt s m = false) -> shift z a m = (z, a).
Proof.
  intros K. unfold shift. rewrite (K (str "beta-") (in_names 1 ltac:(lia))), (K (str "ec/beta+") (in_names 2 ltac:(lia))), (K (str "alpha") (in_names 4 ltac:(lia))),
    (K (str "n") (in_names 5 ltac:(lia))), (K (str "p") (in_names 7 ltac:(lia))). f_equal; lia.
Qed.
Lemma steps_shift (l : list (text * option (Z * Z))) z a m : NoDup (map fst l) -> (forall e, In e l -> moved (z, a) e = shift z a (fst e)) ->
  ((forall s, In s (map fst l) -> eqt s m = false) -> shift z a m = (z, a)) -> fold_left (step m) l (z, a) = shift z a m.
Proof.
  intros N Y U. destruct (existsb (fun e => eqt (fst e) m) l) eqn:X.
  - apply existsb_exists in X as (e & I & E). apply eqt_eq in E. subst m. rewrite (steps_one e l N I). now apply Y.
  - assert (K : forall s, In s (map fst l) -> eqt s m = false).
    { intros s I. apply in_map_iff in I as (e & <- & I). destruct (eqt (fst e) m) eqn:E; [|reflexivity]. rewrite <- X. symmetry. apply existsb_exists. now exists e. }
    rewrite steps_none, U; [reflexivity|exact K|]. intros e I E. specialize (K (fst e) (in_map fst _ _ I)). now rewrite E, eqt_refl in K.
Qed.
Lemma apply_mode_ok z a m : apply_mode (z, a) m = shift z a m.
Proof. exact (steps_shift decay_modes z a m modes_nodup (shift_known z a) (shift_unknown z a m)). Qed.
Lemma folded (f : Z * Z -> text -> Z * Z) : (forall z a m, f (z, a) m = shift z a m) ->
  forall ms z a, fold_left f ms (z, a) = (z_after z ms, a_after a ms).
Proof.
  intros F. induction ms as [|m ms IH]; intros z a; cbn [fold_left].
  - unfold z_after, a_after, times. cbn. f_equal; lia.
  - rewrite F. unfold shift. rewrite IH. unfold z_after, a_after. rewrite !times_cons. f_equal; lia.
Qed.
Lemma apply_modes_ok ms z a : fold_left apply_mode ms (z, a) = (z_after z ms, a_after a ms).
Proof. exact (folded apply_mode apply_mode_ok ms z a). Qed.
Lemma daughter_ok z a m p ms st e b : (0 <= a)%Z -> (0 <= m)%Z -> gnd_name z a m = Some p ->
  daughter (mkMode p ms st e b) = gnd_name (z_after z ms) (a_after a ms) st.
Proof.
  intros Ha Hm H. destruct (zam_matched p z a m (round_trip z a m p Ha Hm H)) as (s & aa & t & E1 & E2 & E3).
  unfold daughter. cbn [m_parent m_modes m_state]. rewrite E1, E2, E3, apply_modes_ok. unfold gnd_name. now destruct (symbol _).
Qed.

(** ** Dictionaries *)
Lemma lookup_set {A} k v (d : dict A) k' : lookup k' (set_key k v d) = if eqt k' k then Some v else lookup k' d.
Proof.
  induction d as [|[k0 v0] d IH]; cbn [set_key lookup]; [reflexivity|]. destruct (eqt k k0) eqn:E; cbn [lookup].
  - apply eqt_eq in E. subst k0. now destruct (eqt k' k).
  - rewrite IH. destruct (eqt k' k0) eqn:E'; [|reflexivity]. apply eqt_eq in E'. subst k0. destruct (eqt k' k) eqn:E''; [|reflexivity].
    apply eqt_eq in E''. subst. now rewrite eqt_refl in E.
Qed.
Lemma set_keys {A} k v (d : dict A) k' : In k' (map fst (set_key k v d)) -> k' = k \/ In k' (map fst d).
Proof.
  induction d as [|[k0 v0] d IH]; cbn [set_key map fst]; [intros [H|[]]; now left|]. destruct (eqt k k0) eqn:E; cbn [map fst].
  - apply eqt_eq in E. subst. intros [H|H]; [now left|right; now right].
  - intros [H|H]; [right; now left|]. destruct (IH H); [now left|right; now right].
Qed.
Lemma set_nodup {A} k v (d : dict A) : NoDup (map fst d) -> NoDup (map fst (set_key k v d)).
Proof.
  induction d as [|[k0 v0] d IH]; cbn [set_key map fst]; intros H; [constructor; [easy|constructor]|]. destruct (eqt k k0) eqn:E; cbn [map fst].
  - apply eqt_eq in E. now subst.
  - inversion H; subst. constructor; [|now apply IH]. intros I. apply set_keys in I as [->|I]; [now rewrite eqt_refl in E|auto].
Qed.
Lemma holds_nil {A} : holds (@nil (text * A)) [].
Proof. split; [constructor|reflexivity]. Qed.
Lemma holds_set {A} l (d : dict A) k v : holds l d -> holds (l ++ [(k, v)]) (set_key k v d).
Proof.
  intros [H1 H2]. split; [now apply set_nodup|]. intros k'. rewrite lookup_set, rev_app_distr, H2. unfold at_key. cbn [rev app find fst].
  now destruct (eqt k' k).
Qed.
Lemma at_key_unique {A} (l : list (text * A)) k v : NoDup (map fst l) -> In (k, v) l -> at_key k l = Some v.
Proof.
  unfold at_key. induction l as [|[k0 v0] l IH]; intros N I; [destruct I|]. cbn [find fst]. inversion N; subst.
  destruct I as [I|I]; [injection I as -> ->; now rewrite eqt_refl|]. destruct (eqt k k0) eqn:E; [|now apply IH].
  apply eqt_eq in E. subst k0. destruct H1. now apply (in_map fst) in I.
Qed.
Lemma holds_distinct {A} (l : list (text * A)) d k v : holds l d -> NoDup (map fst l) -> In (k, v) l -> lookup k d = Some v.
Proof.
  intros [_ H] N I. rewrite H. apply at_key_unique; [|now apply -> in_rev]. rewrite map_rev. now apply NoDup_rev.
Qed.

(** ** Parts of lists *)
Lemma part_off pre (x : list Qc) k m : part (length pre + k) (length pre + m) (pre ++ x) = part k m x.
Proof.
  unfold part. replace (length pre + m - (length pre + k)) with (m - k) by lia. f_equal. rewrite skipn_app, skipn_all2 by lia. cbn [app]. f_equal. lia.
Qed.
Lemma part_off0 pre (x : list Qc) m : part (length pre) (length pre + m) (pre ++ x) = part 0 m x.
Proof. rewrite <- (part_off pre x 0 m). now rewrite Nat.add_0_r. Qed.
Lemma nth_off pre (x : list Qc) k : nth_error (pre ++ x) (length pre + k) = nth_error x k.
Proof. rewrite nth_error_app2 by lia. f_equal. lia. Qed.
Lemma ufloat_ok u : usure u -> ufloat (uval u) = Some u.
Proof. destruct u as [a b]. unfold usure, uval, ufloat. cbn [fst snd]. intros H. apply qltb_nlt in H. now rewrite H. Qed.
Lemma uvals_length us : length (flat_map uval us) = 2 * length us.
Proof. induction us as [|u us IH]; [reflexivity|]. cbn [flat_map]. rewrite app_length, IH. cbn [length uval]. lia. Qed.

(** ** Records *)
Lemma list_at_ok a b i j n vs ls rest : list_at a b i j n vs ls ->
  get_list_record (ls ++ rest) = Some ({| c1 := Some a; c2 := Some b; l1 := i; l2 := j; n1 := Z.of_nat (length vs); n2 := n |}, vs, rest).
Proof. intros (l & ls' & -> & Hc & Hr). rewrite <- app_comm_cons. exact (C36_list l a b i j n vs ls' rest Hc Hr). Qed.

(** ** Yields *)
Lemma div_za z a : (0 <= a < 1000)%Z -> ((1000 * z + a) / 1000 = z /\ (1000 * z + a) mod 1000 = a)%Z.
Proof.
  intros H. split.
  - rewrite Z.mul_comm, Z.div_add_l by lia. rewrite Z.div_small by lia. lia.
  - rewrite Z.add_comm, Z.mul_comm, Z.mod_add by lia. now apply Z.mod_small.
Qed.
Lemma nuclide_gnd z a m : nuclide_name z a m = gnd_name z a m.
Proof. unfold nuclide_name, gnd_name. destruct (symbol z) as [s|]; [|reflexivity]. cbn [option_map]. destruct (0 <? m)%Z; [|reflexivity]. now rewrite <- app_assoc. Qed.
Definition fine (p : fragment) : Prop := fragment_ok p /\ exists t, gnd_name (f_z p) (f_a p) (f_m p) = Some t.
Lemma product_ok pre p post j : fine p -> length pre = 4 * j -> exists e, product (pre ++ fragment_values p ++ post) j = Some e /\ named p e.
Proof.
  intros [(Ha & Hz & Hs) (t & T)] L. exists (t, f_yield p). unfold product. rewrite <- L. rewrite <- (Nat.add_0_r (length pre)) at 1.
  rewrite !nth_off, part_off. cbn [fragment_values app nth_error]. rewrite !trunc_qz. destruct (div_za (f_z p) (f_a p) Ha) as [-> ->].
  rewrite nuclide_gnd, T. change (part 2 4 _) with (uval (f_yield p)). rewrite ufloat_ok by exact Hs. split; [reflexivity|]. split; [exact T|reflexivity].
Qed.
Lemma products_ok ps : Forall fine ps -> forall pre j es d, length pre = 4 * j -> holds es d ->
  exists es' d', products (length ps) j (pre ++ flat_map fragment_values ps) d = Some d' /\ Forall2 named ps es' /\ holds (es ++ es') d'.
Proof.
  induction 1 as [|p ps H1 H2 IH]; intros pre j es d L H.
  - exists [], d. cbn [products length]. rewrite app_nil_r. repeat split; [constructor|apply H|apply H].
  - cbn [products length flat_map]. destruct (product_ok pre p (flat_map fragment_values ps) j H1 L) as ((k & y) & -> & N).
    destruct (IH (pre ++ fragment_values p) (S j) (es ++ [(k, y)]) (set_key k y d)) as (es' & d' & E & F & G);
      [rewrite app_length, L; cbn [length fragment_values]; lia|now apply holds_set|].
    exists ((k, y) :: es'), d'. rewrite app_assoc, E. split; [reflexivity|]. split; [now constructor|]. now rewrite <- app_assoc in G.
Qed.
Lemma energy_yields_ok bs ls : yield_lists bs ls -> forall rest, exists ds, energy_yields (length bs) (ls ++ rest) = Some (map fst bs, ds) /\ yields_meant bs ds.
Proof.
  induction 1 as [|e ps bs b i j l ls H1 H2 H3 IH]; intros rest; [exists []; split; [reflexivity|constructor]|].
  cbn [length energy_yields map fst]. rewrite <- app_assoc, (list_at_ok _ _ _ _ _ _ _ (ls ++ rest) H1). cbn [c1 n2]. rewrite Nat2Z.id.
  destruct (products_ok ps H2 [] 0 [] [] eq_refl holds_nil) as (es & d & E & F & G). cbn [app] in E, G. rewrite E.
  destruct (IH rest) as (ds & -> & M). exists (d :: ds). split; [reflexivity|]. constructor; [|exact M]. exists es. split; [exact F|exact G].
Qed.
Lemma get_yields_ok bs ls : yields_text bs ls -> exists ds, get_yields ls = Some (map fst bs, ds) /\ yields_meant bs ds.
Proof.
  intros (h & za & awr & j & k & n & body & -> & Hc & Hb). unfold get_yields.
  rewrite (Rcov3_Proofs.head_record_ok h za awr _ j k n body Hc). destruct (Z.ltb_spec (Z.of_nat (length bs)) 0); [lia|]. rewrite Nat2Z.id.
  rewrite <- (app_nil_r body). now apply energy_yields_ok.
Qed.
Lemma all_equal_iff a : forall b, all_equal a b = true <-> a = b.
Proof.
  induction a as [|x a IH]; intros [|y b]; cbn [all_equal]; try (split; [discriminate|discriminate]); [easy|].
  rewrite andb_true_iff, qeqb_eq, IH. split; [intros [-> ->]; reflexivity|intros E; injection E; auto].
Qed.
Lemma same_energy_refl a : same_energy a a = true.
Proof. unfold same_energy. rewrite Nat.eqb_refl. now apply all_equal_iff. Qed.

(** ** Decay *)
Lemma by_number_in {A} (l : list (Z * A)) z a : NoDup (map fst l) -> In (z, a) l -> by_number (qz z) l = Some a.
Proof.
  induction l as [|[z0 a0] l IH]; intros N I; [destruct I|]. cbn [by_number]. cbn [map fst] in N. inversion N as [|x y N1 N2]; subst.
  destruct I as [I|I]; [injection I as -> ->; now rewrite (proj2 (qeqb_eq _ _) eq_refl)|]. destruct (qeqb (qz z) (qz z0)) eqn:E; [|now apply IH].
  apply qeqb_eq, Neut_Proofs.qz_inj in E. subst z0. destruct N1. now apply (in_map fst) in I.
Qed.
Lemma nodup_z (l : list Z) : forallb (fun i => forallb (fun j => (i =? j)%nat || negb (nth i l 0 =? nth j l 0)%Z) (seq 0 (length l))) (seq 0 (length l)) = true -> NoDup l.
Proof.
  intros H. apply (proj2 (NoDup_nth l 0%Z)). intros i j Hi Hj E. rewrite forallb_forall in H. specialize (H i). rewrite forallb_forall in H.
  specialize (H ltac:(apply in_seq; lia) j ltac:(apply in_seq; lia)). rewrite E, Z.eqb_refl, orb_false_r in H. now apply Nat.eqb_eq.
Qed.
Lemma radiation_ok z t : radiation z t -> by_number (qz z) radiation_types = Some t.
Proof. intros H. apply by_number_in; [apply nodup_z; reflexivity|exact H]. Qed.
Lemma transition_ok z t : transition z t -> by_number (qz z) discrete_types = Some t.
Proof. intros H. apply by_number_in; [apply nodup_z; reflexivity|exact H]. Qed.

Lemma read_line_ok ty d i j n vs ls rest : list_at (fst (d_energy d)) (snd (d_energy d)) i j n vs ls -> usure (d_energy d) -> line_values ty vs d ->
  read_line ty (ls ++ rest) = Some (d, rest).
Proof.
  intros H U (ds & t & more & C & -> & Ui & F & T & K). unfold read_line. rewrite (list_at_ok _ _ _ _ _ _ _ rest H). cbn [c1 c2].
  change [fst (d_energy d); snd (d_energy d)] with (uval (d_energy d)). rewrite (ufloat_ok _ U). cbn [app uval nth_error].
  rewrite (get_modes_ok ds C), (transition_ok t _ T). change (part 2 4 _) with (uval (d_intensity d)). rewrite (ufloat_ok _ Ui).
  destruct d as [e fr tp it po pa to kk ll]. cbn [d_energy d_from d_type d_intensity d_positron d_pair d_total d_k d_l] in *. subst fr. unfold opt.
  destruct (eqt ty (str "gamma")) eqn:G.
  - destruct (eqt ty (str "ec/beta+")) eqn:EC; [apply eqt_eq in G, EC; subst; discriminate|].
    destruct K as (p & -> & Up & -> & [(-> & -> & -> & ->)|[(c & -> & Uc & -> & -> & ->)|(c & k & l & -> & Uc & Uk & Ul & -> & -> & ->)]]);
      cbn [app uval length andb Nat.leb Nat.eqb]; change (part 4 6 _) with (uval p); rewrite (ufloat_ok _ Up); [reflexivity| |];
      change (part 6 8 _) with (uval c); rewrite (ufloat_ok _ Uc); [reflexivity|].
    change (part 8 10 _) with (uval k). change (part 10 12 _) with (uval l). now rewrite (ufloat_ok _ Uk), (ufloat_ok _ Ul).
  - destruct (eqt ty (str "ec/beta+")) eqn:EC; cbn [andb].
    + destruct K as (p & r & -> & Up & -> & -> & -> & -> & ->). cbn [app uval]. change (part 4 6 _) with (uval p). now rewrite (ufloat_ok _ Up).
    + now destruct K as (-> & -> & -> & -> & ->).
Qed.
Lemma read_lines_ok ty ds ls : lines_text ty ds ls -> forall rest, read_lines (length ds) ty (ls ++ rest) = Some (ds, rest).
Proof.
  induction 1 as [|d ds i j n vs l ls H1 H2 H3 H4 IH]; intros rest; [reflexivity|]. cbn [length read_lines]. rewrite <- app_assoc.
  rewrite (read_line_ok ty d i j n vs l (ls ++ rest) H1 H2 H3), IH. reflexivity.
Qed.
Lemma pairs_uval ps : pairs_of (flat_map uval ps) = ps.
Proof. induction ps as [|[a b] ps IH]; [reflexivity|]. cbn [flat_map uval app pairs_of fst snd]. now rewrite IH. Qed.
Lemma read_continuous_ok c ls rest : cont_text c ls -> read_continuous (ls ++ rest) = Some (c, rest).
Proof.
  intros (h & ds & b & i & lcov & lr & lp & lc & -> & Hc & C & F & Hr & Hp & K). unfold read_continuous. rewrite <- app_comm_cons, <- !app_assoc.
  rewrite (C36_tab1 h _ b i lcov _ _ lr lp (lc ++ rest) Hc Hr Hp), (get_modes_ok ds C). destruct c as [fr rg ps cv]. cbn [c_from c_regions c_points c_cov] in *. subst fr.
  destruct cv as [[lb qs]|].
  - destruct K as (N & x & y & i' & n' & L). apply Z.eqb_neq in N. rewrite N, (list_at_ok _ _ _ _ _ _ _ rest L). cbn [l2]. now rewrite pairs_uval.
  - destruct K as (-> & ->). reflexivity.
Qed.
Lemma read_spectrum_ok s ls rest : spectrum_text s ls -> read_spectrum (ls ++ rest) = Some (s, rest).
Proof.
  intros (c & styp & j & more & n & k1 & k2 & k3 & -> & R & U1 & U2 & U3 & L & F & D & C). unfold read_spectrum. rewrite <- !app_assoc.
  rewrite (list_at_ok _ _ _ _ _ _ _ (k2 ++ k3 ++ rest) L). cbn [c2 l1 n2]. rewrite (radiation_ok _ _ R).
  destruct s as [ty fl dn ea cn ds ci]. cbn [s_type s_flag s_dnorm s_eavg s_cnorm s_discrete s_cont] in *.
  assert (B : negb ((fl =? 0)%Z || (fl =? 1)%Z || (fl =? 2)%Z) = false) by (destruct F as [->|[->| ->]]; reflexivity). rewrite B.
  cbn [app uval]. change (part 0 2 _) with (uval dn). change (part 2 4 _) with (uval ea). change (part 4 6 _) with (uval cn).
  rewrite (ufloat_ok _ U1), (ufloat_ok _ U2), (ufloat_ok _ U3).
  assert (E : (if (fl =? 1)%Z then Some (None, k2 ++ k3 ++ rest) else match read_lines (Z.to_nat n) ty (k2 ++ k3 ++ rest) with Some (l, f2) => Some (Some l, f2) | None => None end) = Some (ds, k3 ++ rest)).
  { destruct ds as [ds|]; [|destruct D as (-> & ->); reflexivity]. destruct D as (N & -> & T). apply Z.eqb_neq in N. rewrite N, Nat2Z.id.
    now rewrite (read_lines_ok ty ds k2 T (k3 ++ rest)). }
  revert E. set (rd := if (fl =? 1)%Z then _ else _). intros E. rewrite E. destruct ci as [ci|].
  - destruct C as (N & T). apply Z.eqb_neq in N. rewrite N, (read_continuous_ok ci k3 rest T). reflexivity.
  - destruct C as (-> & ->). reflexivity.
Qed.
Lemma read_spectra_ok ss ls : spectra_text ss ls -> forall rest l d, holds l d ->
  exists d', read_spectra (length ss) (ls ++ rest) d = Some d' /\ holds (l ++ map (fun s => (s_type s, s)) ss) d'.
Proof.
  induction 1 as [|s ss k ls H1 H2 IH]; intros rest l d H.
  - exists d. cbn [map]. rewrite app_nil_r. split; [reflexivity|exact H].
  - cbn [length read_spectra map]. rewrite <- app_assoc, (read_spectrum_ok s k (ls ++ rest) H1).
    destruct (IH rest (l ++ [(s_type s, s)]) (set_key (s_type s) s d)) as (d' & E & F); [now apply holds_set|]. exists d'. split; [exact E|].
    now rewrite <- app_assoc in F.
Qed.
Lemma put_all_ok ks : forall us i pre post l d, length us = length ks -> Forall usure us -> length pre = 2 * i -> holds l d ->
  exists d', put_all ks i (pre ++ flat_map uval us ++ post) d = Some d' /\ holds (l ++ combine ks us) d'.
Proof.
  induction ks as [|k ks IH]; intros [|u us] i pre post l d L U P H; try discriminate L.
  - exists d. cbn [combine]. rewrite app_nil_r. split; [reflexivity|exact H].
  - cbn [put_all flat_map combine]. rewrite <- P. rewrite <- !app_assoc, part_off0.
    change (part 0 2 _) with (uval u). rewrite (ufloat_ok _ (Forall_inv U)).
    destruct (IH us (S i) (pre ++ uval u) post (l ++ [(k, u)]) (set_key k u d)) as (d' & E & F);
      [now injection L|exact (Forall_inv_tail U)|rewrite app_length, P; cbn [length uval]; lia|now apply holds_set|].
    exists d'. rewrite <- app_assoc in E. split; [exact E|]. now rewrite <- app_assoc in F.
Qed.
Lemma averages_ok us : length us = 3 \/ length us = 17 -> Forall usure us ->
  exists d, averages (Z.of_nat (length (flat_map uval us))) (flat_map uval us) = Some d /\ holds (combine average_names us) d.
Proof.
  intros L U. rewrite uvals_length. unfold averages. rewrite <- (firstn_skipn 3 us) in U. apply Forall_app in U as [U1 U2].
  destruct (put_all_ok short_keys (firstn 3 us) 0 [] (flat_map uval (skipn 3 us)) [] []) as (d & E & F);
    [rewrite firstn_length; cbn [short_keys map length]; lia|exact U1|reflexivity|exact holds_nil|].
  cbn [app] in E, F. rewrite <- flat_map_app, firstn_skipn in E. rewrite E. destruct L as [L|L]; rewrite L.
  - change (Z.of_nat (2 * 3) / 2 =? 17)%Z with false. exists d. split; [reflexivity|]. do 4 (destruct us as [|? us]; try discriminate L). exact F.
  - change (Z.of_nat (2 * 17) / 2 =? 17)%Z with true. cbn iota.
    destruct (put_all_ok long_keys (skipn 3 us) 3 (flat_map uval (firstn 3 us)) [] (combine short_keys (firstn 3 us)) d) as (d' & E' & F');
      [rewrite skipn_length, L; reflexivity|exact U2|rewrite uvals_length, firstn_length; lia|exact F|].
    rewrite app_nil_r, <- flat_map_app, firstn_skipn in E'. exists d'. split; [exact E'|]. do 18 (destruct us as [|? us]; try discriminate L). exact F'.
Qed.
Lemma branch_length b : length (branch_values b) = 6.
Proof. reflexivity. Qed.
Lemma read_mode_ok name pre b post i : branch_ok b -> length pre = 6 * i ->
  exists m, read_mode name (pre ++ branch_values b ++ post) i = Some m /\ branch_mode name b m.
Proof.
  intros (C & U1 & U2 & P1 & P2) L. eexists. split; [|reflexivity]. unfold read_mode. rewrite <- L. rewrite <- (Nat.add_0_r (length pre)) at 1.
  rewrite !nth_off, !part_off. cbn [branch_values app uval nth_error]. rewrite (get_modes_ok _ C), trunc_qz.
  change (part 2 4 _) with (uval (b_energy b)). change (part 4 6 _) with (uval (b_ratio b)). rewrite (ufloat_ok _ U1), (ufloat_ok _ U2).
  unfold make_mode. apply qltb_nlt in U1, U2, P1, P2. now rewrite U1, U2, P1, P2.
Qed.
Lemma read_modes_ok name bs : Forall branch_ok bs -> forall pre post i, length pre = 6 * i ->
  exists ms, each_some (read_mode name (pre ++ flat_map branch_values bs ++ post)) (seq i (length bs)) = Some ms /\ Forall2 (branch_mode name) bs ms.
Proof.
  induction 1 as [|b bs H1 H2 IH]; intros pre post i L; [exists []; split; [reflexivity|constructor]|].
  cbn [length seq each_some flat_map]. rewrite <- app_assoc. destruct (read_mode_ok name pre b (flat_map branch_values bs ++ post) i H1 L) as (m & -> & B).
  destruct (IH (pre ++ branch_values b) post (S i)) as (ms & E & F); [rewrite app_length, L, branch_length; lia|]. rewrite <- app_assoc in E. rewrite E.
  exists (m :: ms). split; [reflexivity|now constructor].
Qed.
Lemma unknown_value : decimal true 77777 3 0 = unknown_spin.
Proof. apply Qc_is_canon. reflexivity. Qed.
Lemma spin_cases q : (q = unknown_spin -> spin_of q = None) /\ (q <> unknown_spin -> spin_of q = Some q).
Proof.
  unfold spin_of. rewrite unknown_value. split; intros H; [apply qeqb_eq in H|apply qeqb_neq in H]; now rewrite H.
Qed.
Lemma read_decay_ok u ls rest : unstable_text u ls -> exists v, read_decay (ls ++ rest) = Some v /\ unstable_decay u v.
Proof.
  intros (h & za & nst & i1 & j1 & m1 & k1 & i2 & j2 & more & k2 & k3 & -> & Hc & N & -> & Ha & Hz & G & L1 & Uh & La & Ua & L2 & B & S).
  unfold read_decay. rewrite <- app_comm_cons. rewrite (Rcov3_Proofs.head_record_ok h _ _ _ _ _ _ ((k1 ++ k2 ++ k3) ++ rest) Hc). cbn zeta. rewrite trunc_qz.
  destruct (div_za (u_z u) (u_a u) Ha) as [-> ->]. rewrite nuclide_gnd, G. apply Z.eqb_neq in N. rewrite N. rewrite <- !app_assoc.
  rewrite (list_at_ok _ _ _ _ _ _ _ (k2 ++ k3 ++ rest) L1). cbn [c1 c2 n1].
  change [fst (u_half u); snd (u_half u)] with (uval (u_half u)). rewrite (ufloat_ok _ Uh). destruct (averages_ok _ La Ua) as (av & -> & Av).
  rewrite (list_at_ok _ _ _ _ _ _ _ (k3 ++ rest) L2). cbn [c1 c2 n2]. rewrite !Nat2Z.id.
  destruct (read_modes_ok (u_name u) _ B [] more 0 eq_refl) as (ms & E & M). cbn [app] in E. rewrite E.
  destruct (read_spectra_ok _ _ S rest [] [] holds_nil) as (ss & -> & Sp). eexists. split; [reflexivity|]. unfold unstable_decay.
  cbn [v_z v_a v_m v_name v_mass v_excited v_stable v_half v_parity v_spin v_averages v_modes v_spectra]. cbn [app] in Sp.
  pose proof (spin_cases (u_spin u)) as [S1 S2]. repeat (split; [assumption || reflexivity|]). exact Sp.
Qed.
