From Coq Require Import ZArith QArith Qcanon List Bool Arith Lia.
From Verif Require Import Num Text Cont_Model Ang_Model Ang_Spec.
From Verif Require Endf_Model Endf_Spec Endf2_Proofs.
Import ListNotations.
Local Open Scope nat_scope.

(** ** Words *)
Lemma word_at xss i a l : words_at xss i (a :: l) -> word xss i = Some a.
Proof. intros (pre & post & -> & <-). unfold word. rewrite nth_error_app2 by lia. now rewrite Nat.sub_diag. Qed.
Lemma words_tail xss i a l : words_at xss i (a :: l) -> words_at xss (i + 1) l.
Proof. intros (pre & post & -> & <-). exists (pre ++ [a]), post. split; [now rewrite <- app_assoc|]. rewrite app_length. reflexivity. Qed.
Lemma words_app xss i l r : words_at xss i (l ++ r) -> words_at xss i l /\ words_at xss (i + length l) r.
Proof.
  intros (pre & post & -> & <-). split.
  - exists pre, (r ++ post). split; [now rewrite <- app_assoc | reflexivity].
  - exists (pre ++ l), post. split; [now rewrite <- !app_assoc | apply app_length].
Qed.
Lemma cut_at xss i l : words_at xss i l -> cut xss i (length l) = l.
Proof.
  intros (pre & post & -> & <-). unfold cut. rewrite skipn_app, skipn_all, Nat.sub_diag. cbn [app]. rewrite skipn_O, firstn_app, Nat.sub_diag, firstn_all, firstn_O. apply app_nil_r.
Qed.
Lemma Forall2_length {A B} (P : A -> B -> Prop) l l' : Forall2 P l l' -> length l = length l'.
Proof. induction 1; cbn; congruence. Qed.
Lemma int_qz z : int (qz z) = z. Proof. apply Endf2_Proofs.trunc_qz. Qed.
Lemma firstn_app_len {A} (a b : list A) n : length a = n -> firstn n (a ++ b) = a.
Proof. intros <-. rewrite firstn_app, Nat.sub_diag, firstn_all, firstn_O. apply app_nil_r. Qed.
Lemma skipn_app_len {A} (a b : list A) n : length a = n -> skipn n (a ++ b) = b.
Proof. intros <-. rewrite skipn_app, skipn_all, Nat.sub_diag. reflexivity. Qed.
Lemma points_map l : points (map px l) (map pp l) (map pc l) = l.
Proof. induction l as [|[[a b] c] l IH]; [reflexivity|]. cbn. now rewrite IH. Qed.
Lemma nonneg_ok l : nonneg l = true <-> nonnegative l.
Proof.
  unfold nonneg, nonnegative. rewrite forallb_forall, Forall_forall. split; intros H t T; specialize (H t T); [destruct (qleb_spec 0 (pp t)); [assumption | discriminate]|].
  destruct (qleb_spec 0 (pp t)) as [_|N]; [reflexivity|]. now destruct (N H).
Qed.
Lemma numbered_at s k : numbered s k -> (k <? 0)%Z = false /\ scheme_at (Z.to_nat k) = Some s.
Proof. destruct 1; split; reflexivity. Qed.

(** ** Equally probable bins *)
Lemma bin_pdf_length cos : length (bin_pdf cos) = Nat.max 1 (length cos).
Proof.
  induction cos as [|a [|b r] IH]; [reflexivity|reflexivity|]. change (bin_pdf (a :: b :: r)) with ((1 / (qz 32 * (b - a)))%Qc :: bin_pdf (b :: r)).
  cbn [length]. rewrite IH. cbn [length]. lia.
Qed.
Lemma bin_pdf_nth cos : forall i a b, nth_error cos i = Some a -> nth_error cos (S i) = Some b -> nth_error (bin_pdf cos) i = Some (1 / (qz 32 * (b - a)))%Qc.
Proof.
  induction cos as [|x [|y r] IH]; intros i a b A B; [destruct i; discriminate|destruct i as [|[|i]]; discriminate|].
  change (bin_pdf (x :: y :: r)) with ((1 / (qz 32 * (y - x)))%Qc :: bin_pdf (y :: r)). destruct i as [|i].
  - cbn in A, B. injection A as ->. injection B as ->. reflexivity.
  - cbn [nth_error]. apply IH; [exact A | exact B].
Qed.
Lemma bin_pdf_last cos i : length cos = S i -> nth_error (bin_pdf cos) i = Some 0%Qc.
Proof.
  revert i. induction cos as [|x [|y r] IH]; intros i L; [discriminate|injection L as <-; reflexivity|].
  change (bin_pdf (x :: y :: r)) with ((1 / (qz 32 * (y - x)))%Qc :: bin_pdf (y :: r)). destruct i as [|i]; [discriminate|]. cbn [nth_error]. apply IH. cbn [length] in *. lia.
Qed.
Lemma points_fields x : forall p c, length p = length x -> length c = length x ->
  map px (points x p c) = x /\ map pp (points x p c) = p /\ map pc (points x p c) = c.
Proof.
  induction x as [|a x IH]; intros [|b p] [|d c] A B; try discriminate; [auto|]. cbn. destruct (IH p c) as (E1 & E2 & E3); [now injection A | now injection B|].
  rewrite E1, E2, E3. auto.
Qed.
Lemma nth_map {A B} (f : A -> B) l i t : nth_error l i = Some t -> nth_error (map f l) i = Some (f t).
Proof. apply map_nth_error. Qed.
Lemma bin_cdf_nth i : i < 33 -> nth_error bin_cdf i = Some (qz (Z.of_nat i) / qz 32)%Qc.
Proof.
  intros H. unfold bin_cdf. apply (map_nth_error (fun i => (qz (Z.of_nat i) / qz 32)%Qc) i (seq 0 33)). rewrite (nth_error_nth' (seq 0 33) 0) by (rewrite seq_length; exact H). rewrite seq_nth by exact H. reflexivity.
Qed.
Lemma q32 : qz 32 <> 0%Qc. Proof. intros E. discriminate E. Qed.
Definition equi (cos : list Qc) : list point := points cos (bin_pdf cos) bin_cdf.
Lemma equi_fields cos : length cos = 33 -> map px (equi cos) = cos /\ map pp (equi cos) = bin_pdf cos /\ map pc (equi cos) = bin_cdf.
Proof. intros L. apply points_fields; [rewrite bin_pdf_length, L; reflexivity | rewrite L; reflexivity]. Qed.
Lemma equi_length cos : length cos = 33 -> length (equi cos) = 33.
Proof. intros L. rewrite <- (map_length px), (proj1 (equi_fields cos L)). exact L. Qed.
Lemma equi_means cos : length cos = 33 -> means (Equi cos) (Tab Histogram (equi cos)).
Proof.
  intros L. destruct (equi_fields cos L) as (EX & EP & EC). exists (equi cos). split; [reflexivity|]. split; [exact EX|]. split; [|split].
  - intros i t H. assert (I : i < 33) by (rewrite <- (equi_length cos L); apply nth_error_Some; congruence).
    pose proof (nth_map pc _ _ _ H) as N. rewrite EC, bin_cdf_nth in N by exact I. injection N as <-. field. apply q32.
  - intros i t u H K NE. pose proof (nth_map px _ _ _ H) as N1. pose proof (nth_map px _ _ _ K) as N2. pose proof (nth_map pp _ _ _ H) as N3.
    rewrite EX in N1, N2. rewrite EP, (bin_pdf_nth _ _ _ _ N1 N2) in N3. injection N3 as <-. field. split; [intros E; apply NE; qclra | apply q32].
  - intros t H. pose proof (nth_map pp _ _ _ H) as N. rewrite EP, (bin_pdf_last cos 32 L) in N. now injection N as <-.
Qed.
Lemma inv_nonneg d : (0 < d)%Qc -> (0 <= 1 / d)%Qc.
Proof.
  intros H. assert (E : (1 / d * d = 1)%Qc) by (field; intros Z0; subst; discriminate H). set (x := (1 / d)%Qc) in *. clearbody x.
  destruct (Qclt_le_dec x 0) as [N|N]; [exfalso; qcnra | exact N].
Qed.
Lemma bin_pdf_nonneg cos : increasing cos -> Forall (fun p => 0 <= p)%Qc (bin_pdf cos).
Proof.
  induction cos as [|a [|b r] IH]; intros I; [repeat constructor; qclra|repeat constructor; qclra|].
  change (bin_pdf (a :: b :: r)) with ((1 / (qz 32 * (b - a)))%Qc :: bin_pdf (b :: r)). constructor.
  - assert (A : (a < b)%Qc) by exact (I 0 a b eq_refl eq_refl). assert (P : (0 < qz 32 * (b - a))%Qc) by (assert (0 < qz 32)%Qc by reflexivity; qcnra).
    now apply inv_nonneg.
  - apply IH. intros i x y X Y. exact (I (S i) x y X Y).
Qed.

Lemma equi_nonneg cos : length cos = 33 -> increasing cos -> nonnegative (equi cos).
Proof.
  intros L I. apply bin_pdf_nonneg in I. rewrite <- (proj1 (proj2 (equi_fields cos L))) in I. unfold nonnegative. now rewrite Forall_map in I.
Qed.

(** ** ACE *)
Definition mu_of (w : law) : mu := match w with Equi cos => Tab Histogram (equi cos) | Table s l => Tab s l | Isotropic => Unif (- (1)) 1 end.
Lemma read_mu_ok xss ld lc w : laid_out xss ld lc w -> read_mu xss ld lc = Some (mu_of w) /\ means w (mu_of w).
Proof.
  destruct 1 as [lc cos P L W|lc s k l P N NN W|]; unfold read_mu.
  - destruct (Z.ltb_spec 0 lc); [|lia]. replace (Z.abs lc) with lc by lia. rewrite <- L, (cut_at _ _ _ W), L. split; [reflexivity | now apply equi_means].
  - destruct (Z.ltb_spec 0 lc); [lia|]. destruct (Z.ltb_spec lc 0); [|lia]. replace (Z.abs lc) with (- lc)%Z by lia.
    set (i := ld + Z.to_nat (- lc) - 1) in *. rewrite (word_at _ _ _ _ W). apply words_tail in W. rewrite (word_at _ _ _ _ W). apply words_tail in W.
    rewrite !int_qz. destruct (Z.ltb_spec (Z.of_nat (length l)) 0); [lia|]. rewrite Nat2Z.id.
    replace (i + 1 + 1) with (i + 2) in W by lia. set (n := length l).
    assert (LD : length (map px l ++ map pp l ++ map pc l) = 3 * n) by (rewrite !app_length, !map_length; unfold n; lia).
    rewrite <- LD, (cut_at _ _ _ W), Nat.eqb_refl, firstn_app_len, skipn_app_len, firstn_app_len by apply map_length.
    replace (skipn (2 * n) (map px l ++ map pp l ++ map pc l)) with (map pc l) by (rewrite app_assoc, skipn_app_len; [reflexivity | rewrite app_length, !map_length; unfold n; lia]).
    rewrite points_map. destruct (numbered_at _ _ N) as [-> ->]. apply nonneg_ok in NN. rewrite NN. split; reflexivity.
  - split; reflexivity.
Qed.
Lemma read_mus_ok xss ld lcs laws : Forall2 (laid_out xss ld) lcs laws -> read_mus xss ld (length lcs) lcs = Some (map mu_of laws) /\ Forall2 means laws (map mu_of laws).
Proof.
  induction 1 as [|lc w lcs laws H _ (IH & IM)]; [split; constructor|]. destruct (read_mu_ok _ _ _ _ H) as [E M]. cbn [length read_mus map]. rewrite E, IH. split; [reflexivity | now constructor].
Qed.
Lemma map_int_qz l : map int (map qz l) = l.
Proof. rewrite map_map, <- (map_id l) at 1. rewrite (map_ext _ (fun x => x)) by exact int_qz. now rewrite !map_id. Qed.
Lemma from_ace_mu ev xss ld ls energies laws : angular xss ld ls energies laws ->
  from_ace ev xss ld ls = Some (map (fun e => (e * ev)%Qc) energies, map mu_of laws) /\ Forall2 means laws (map mu_of laws).
Proof.
  intros (lcs & W & L & F). destruct (read_mus_ok _ _ _ _ F) as [E M]. pose proof (Forall2_length _ _ _ F) as FL. split; [|exact M].
  unfold from_ace. rewrite (word_at _ _ _ _ W), int_qz, Nat2Z.id. apply words_tail in W. apply words_app in W as [W1 W2].
  rewrite (cut_at _ _ _ W1). assert (LL : length energies = length (map qz lcs)) by (rewrite map_length; congruence).
  rewrite LL in W2 |- * at 1. rewrite LL, (cut_at _ _ _ W2), map_int_qz, map_length, E. reflexivity.
Qed.

(** ** HDF5 *)
Definition as_plain (i : scheme) : scheme := match i with Histogram => Histogram | _ => LinLin end.
Lemma scheme_code i : scheme_at (code i) = Some (as_plain i). Proof. destruct i; reflexivity. Qed.
Lemma slice_mid (a b c : list point) : slice (a ++ b ++ c) (length a) (length a + length b) = b.
Proof. unfold slice. replace (length a + length b - length a) with (length b) by lia. rewrite skipn_app, skipn_all, Nat.sub_diag. cbn [app]. rewrite skipn_O, firstn_app, Nat.sub_diag, firstn_all, firstn_O. apply app_nil_r. Qed.
Definition sizes (ts : list (scheme * list point)) : nat := length (flat_map snd ts).
Lemma offsets_nth : forall pre j t post, nth_error (offsets_from j (pre ++ t :: post)) (length pre) = Some (j + sizes pre).
Proof.
  induction pre as [|x pre IH]; intros j t post; cbn [app offsets_from length nth_error]; [unfold sizes; cbn; f_equal; lia|].
  rewrite IH. f_equal. unfold sizes. cbn [flat_map]. rewrite app_length. lia.
Qed.
Definition back (t : scheme * list point) : mu := Tab (as_plain (fst t)) (snd t).
Lemma turn_ok n pre t post : n = length (pre ++ t :: post) -> nonnegative (snd t) ->
  turn (flat_map snd (pre ++ t :: post)) (offsets_from 0 (pre ++ t :: post)) (map (fun t => code (fst t)) (pre ++ t :: post)) (length pre) n = Some (back t).
Proof.
  intros L F. unfold turn. rewrite (offsets_nth pre 0 t post). cbn [Nat.add].
  assert (NX : (if length pre <? n - 1 then nth_error (offsets_from 0 (pre ++ t :: post)) (length pre + 1) else Some (length (flat_map snd (pre ++ t :: post)))) = Some (sizes pre + length (snd t))).
  { rewrite L, app_length. cbn [length]. destruct post as [|e post].
    - destruct (Nat.ltb_spec (length pre) (length pre + S (length (@nil (scheme * list point))) - 1)) as [H|_]; [cbn in H; lia|]. rewrite flat_map_app, app_length. cbn [flat_map]. now rewrite app_nil_r.
    - destruct (Nat.ltb_spec (length pre) (length pre + S (length (e :: post)) - 1)) as [_|H]; [|cbn in H; lia].
      pose proof (offsets_nth (pre ++ [t]) 0 e post) as K. rewrite app_length, <- app_assoc in K. cbn [length app] in K. rewrite K. unfold sizes. rewrite flat_map_app, app_length. cbn [flat_map]. now rewrite app_nil_r. }
  rewrite NX. assert (NT : nth_error (pre ++ t :: post) (length pre) = Some t) by (rewrite nth_error_app2, Nat.sub_diag by lia; reflexivity). rewrite (map_nth_error (fun t => code (fst t)) _ _ NT).
  rewrite scheme_code, flat_map_app. cbn [flat_map]. unfold sizes. rewrite slice_mid. apply nonneg_ok in F. now rewrite F.
Qed.
Lemma turns_ok n : forall post pre, n = length (pre ++ post) -> Forall (fun t => nonnegative (snd t)) post ->
  turns (flat_map snd (pre ++ post)) (offsets_from 0 (pre ++ post)) (map (fun t => code (fst t)) (pre ++ post)) (seq (length pre) (length post)) n = Some (map back post).
Proof.
  induction post as [|t post IH]; intros pre L F; [reflexivity|]. inversion F as [|? ? F1 F2]; subst. cbn [length seq turns].
  rewrite turn_ok by (exact F1 || reflexivity). specialize (IH (pre ++ [t])). rewrite <- app_assoc in IH. cbn [app] in IH.
  assert (EL : length (pre ++ [t]) = S (length pre)) by (rewrite app_length; cbn; lia). rewrite EL in IH. now rewrite IH.
Qed.
Lemma tabular_ok m : storable m -> exists t, tabular m = Some t /\ nonnegative (snd t) /\ same_points m (back t) /\ (plainly m -> back t = m).
Proof.
  destruct m as [a b|i l|i l|c]; cbn [storable tabular]; intros H; try contradiction.
  - destruct (qltb_spec a b) as [_|N]; [|now destruct (N H)]. eexists. split; [reflexivity|]. cbn [snd fst back].
    assert (P : (0 < b - a)%Qc) by qclra. split; [|split].
    + assert (Q : (0 <= 1 / (b - a))%Qc) by now apply inv_nonneg. repeat constructor; exact Q.
    + cbn. split; [reflexivity|]. eexists. split; [reflexivity|]. field. intros E. rewrite E in P. discriminate P.
    + contradiction.
  - exists (i, l). split; [reflexivity|]. split; [exact H|]. unfold back. cbn [fst snd same_points plainly]. split; [split; [reflexivity|]; intros [->| ->]; reflexivity|]. intros [->| ->]; reflexivity.
Qed.
Lemma tabulars_ok ms : Forall storable ms -> exists ts, tabulars ms = Some ts /\ Forall (fun t => nonnegative (snd t)) ts /\
  Forall2 same_points ms (map back ts) /\ (Forall plainly ms -> map back ts = ms).
Proof.
  induction 1 as [|m ms H _ (ts & E & N & S1 & P)]; [exists []; repeat split; constructor|].
  destruct (tabular_ok m H) as (t & ET & NT & ST & PT). exists (t :: ts). cbn [tabulars map]. rewrite ET, E. repeat split; try (constructor; assumption).
  intros F. inversion F as [|? ? F1 F2]; subst. now rewrite (PT F1), (P F2).
Qed.
Lemma stored es ms : length es = length ms -> Forall storable ms ->
  exists g ms', to_hdf5 es ms = (g, true) /\ from_hdf5 g = Some (es, ms') /\ Forall2 same_points ms ms' /\ (Forall plainly ms -> ms' = ms).
Proof.
  intros L F. destruct (tabulars_ok ms F) as (ts & E & N & S1 & P). unfold to_hdf5. rewrite E. eexists _, (map back ts). split; [reflexivity|]. split; [|auto].
  unfold from_hdf5. cbn [g_mu g_energy]. assert (LT : length es = length ts) by (rewrite L, (Forall2_length _ _ _ S1), map_length; reflexivity).
  rewrite LT. pose proof (turns_ok (length ts) ts [] eq_refl N) as T. cbn [app length] in T. rewrite T. reflexivity.
Qed.
Lemma tabular_none m ms : In m ms -> tabular m = None -> tabulars ms = None.
Proof.
  induction ms as [|x ms IH]; intros H T; [destruct H|]. cbn [tabulars]. destruct H as [->|H]; [now rewrite T|]. rewrite (IH H T). now destruct (tabular x).
Qed.
Lemma unstorable es ms m : In m ms -> (forall i l, m <> Tab i l) -> (forall a b, m = Unif a b -> (b <= a)%Qc) ->
  to_hdf5 es ms = (mkGroup es None, false) /\ from_hdf5 (mkGroup es None) = None.
Proof.
  intros I NT NU. split; [|reflexivity]. unfold to_hdf5. rewrite (tabular_none m ms I); [reflexivity|].
  destruct m as [a b|i l|i l|c]; cbn; [|now destruct (NT i l)|reflexivity|reflexivity]. destruct (qltb_spec a b) as [H|_]; [|reflexivity].
  specialize (NU a b eq_refl). exfalso. qclra.
Qed.
Lemma mu_storable xss ld lc w : laid_out xss ld lc w -> proper w -> storable (mu_of w).
Proof.
  destruct 1 as [lc cos P L W|lc s k l P N NN W|]; cbn; intros H; [now apply equi_nonneg | exact NN | reflexivity].
Qed.
Lemma ace_stored ev xss ld ls energies laws : angular xss ld ls energies laws -> Forall proper laws ->
  exists ms g ms', from_ace ev xss ld ls = Some (map (fun e => (e * ev)%Qc) energies, ms) /\ Forall2 means laws ms /\
    to_hdf5 (map (fun e => (e * ev)%Qc) energies) ms = (g, true) /\ from_hdf5 g = Some (map (fun e => (e * ev)%Qc) energies, ms') /\ Forall2 same_points ms ms'.
Proof.
  intros A P. destruct (from_ace_mu ev _ _ _ _ _ A) as [E M]. destruct A as (lcs & W & L & F).
  assert (ST : Forall storable (map mu_of laws)). { clear - F P. induction F as [|lc w lcs laws H _ IH]; [constructor|]. inversion P; subst. constructor; [eapply mu_storable; eassumption | now apply IH]. }
  destruct (stored (map (fun e => (e * ev)%Qc) energies) (map mu_of laws)) as (g & ms' & T1 & T2 & T3 & _); [rewrite !map_length; congruence | exact ST|].
  exists (map mu_of laws), g, ms'. auto.
Qed.
Lemma ace_read ev xss ld ls energies laws : angular xss ld ls energies laws ->
  exists ms, from_ace ev xss ld ls = Some (map (fun e => (e * ev)%Qc) energies, ms) /\ Forall2 means laws ms.
Proof. intros A. exists (map mu_of laws). now apply from_ace_mu. Qed.

(** ** Legendre coefficients *)
Lemma qz_ne z : z <> 0%Z -> qz z <> 0%Qc.
Proof. intros H E. apply H. assert (I : int (qz z) = int 0%Qc) by now rewrite E. change 0%Qc with (qz 0) in I. now rewrite !int_qz in I. Qed.
Lemma legendre_inverse cs : forall l, (0 <= l)%Z -> legendre_get l (legendre_set l cs) = cs.
Proof.
  induction cs as [|c cs IH]; intros l H; [reflexivity|]. cbn [legendre_get legendre_set]. rewrite IH by lia. f_equal. field. split; apply qz_ne; lia.
Qed.
Lemma legendre_length cs : forall l, length (legendre_set l cs) = length cs.
Proof. induction cs as [|c cs IH]; intros l; [reflexivity|]. cbn. now rewrite IH. Qed.
Lemma legendre_nth cs : forall l i a, nth_error cs i = Some a -> nth_error (legendre_set l cs) i = Some (qz (2 * (l + Z.of_nat i) + 1) / qz 2 * a)%Qc.
Proof.
  induction cs as [|c cs IH]; intros l i a H; [destruct i; discriminate|]. destruct i as [|i]; cbn [nth_error legendre_set] in *.
  - injection H as ->. now rewrite Z.add_0_r.
  - rewrite (IH _ _ _ H). do 5 f_equal. lia.
Qed.
Lemma legendre_coefficients cs m : legendre cs = Some m -> coefficients m = Some cs.
Proof. destruct cs as [|c cs]; [discriminate|]. intros [= <-]. unfold coefficients. f_equal. apply (legendre_inverse (c :: cs) 0). lia. Qed.

(** ** ENDF *)
Lemma get_list_at ls r rest : leg_record ls r -> exists t i j n, Endf_Model.get_list_record (ls ++ rest) =
  Some ({| Endf_Model.c1 := Some t; Endf_Model.c2 := Some (fst r); Endf_Model.l1 := i; Endf_Model.l2 := j; Endf_Model.n1 := Z.of_nat (length (snd r)); Endf_Model.n2 := n |}, snd r, rest).
Proof. intros (h & body & t & i & j & n & -> & C & R). exists t, i, j, n. exact (Endf2_Proofs.get_list_ok _ _ _ _ _ _ _ _ rest C R). Qed.
Lemma read_legendre_ok ls rs : records leg_record ls rs -> forall rest, exists es ms, read_legendre (length rs) (ls ++ rest) = Some (es, ms, rest) /\ listed leg_means rs es ms.
Proof.
  induction 1 as [|l ls r rs H _ IH]; intros rest; [exists [], []; split; [reflexivity | constructor]|].
  destruct (IH rest) as (es & ms & E & L). destruct (get_list_at l r (ls ++ rest) H) as (t & i & j & n & G).
  cbn [length read_legendre]. rewrite <- app_assoc, G. cbn [Endf_Model.c2 legendre]. rewrite E. do 2 eexists. split; [reflexivity|]. constructor; [|exact L].
  split; [reflexivity|]. eexists. split; [reflexivity|]. split; [now rewrite legendre_length|].
  intros k a K. eexists. split; [exact (legendre_nth _ 0 k a K)|]. rewrite Z.add_0_l. field. intros Q0. discriminate Q0.
Qed.
Lemma read_tables_ok ls rs : records tab_record ls rs -> forall rest, exists es ms, read_tables (length rs) (ls ++ rest) = Some (es, ms, rest) /\ listed tab_means rs es ms.
Proof.
  induction 1 as [|l ls [[e s] pts] rs H _ IH]; intros rest; [exists [], []; split; [reflexivity | constructor]|].
  destruct (IH rest) as (es & ms & E & L). destruct H as (h & lr & lp & t & i & j & nbt & k & -> & N & NN & C & R1 & R2).
  cbn [length read_tables app]. rewrite <- !app_assoc.
  rewrite (Endf2_Proofs.get_tab1_ok h t e i j [(nbt, k)] pts lr lp (ls ++ rest) C R1 R2).
  destruct (numbered_at _ _ N) as [-> ->].
  replace (forallb (fun t0 : Qc * Qc => qleb 0 (snd t0)) pts) with true.
  2:{ symmetry. apply forallb_forall. intros p P. rewrite Forall_forall in NN. specialize (NN p P). destruct (qleb_spec 0 (snd p)) as [_|Q]; [reflexivity | now destruct (Q NN)]. }
  rewrite E. do 2 eexists. split; [reflexivity|]. constructor; [split; reflexivity | exact L].
Qed.
Lemma get_tab2_at ls n rest : tab2 ls n -> exists items regs, Endf_Model.get_tab2_record (ls ++ rest) = Some (items, regs, rest) /\ Endf_Model.n2 items = Z.of_nat n.
Proof.
  intros (h & lr & a & b & i & j & regs & -> & C & R). cbn [app]. rewrite (Endf2_Proofs.get_tab2_ok h a b i j (Z.of_nat n) regs lr rest C R). do 2 eexists. split; reflexivity.
Qed.
Lemma head_at ls ltt li rest emax : mf4_head ls ltt li -> exists f3, f3 = rest /\
  from_endf emax (ls ++ rest) =
  (if ((ltt =? 0) && (li =? 1))%Z then Some ([0%Qc; emax], [Unif (- (1)) 1; Unif (- (1)) 1])
  else if ((ltt =? 1) && (li =? 0))%Z then
    match Endf_Model.get_tab2_record f3 with Some (ps, _, f4) =>
    if (Endf_Model.n2 ps <? 0)%Z then None
    else match read_legendre (Z.to_nat (Endf_Model.n2 ps)) f4 with Some (es, ms, _) => Some (es, ms) | None => None end | None => None end
  else if ((ltt =? 2) && (li =? 0))%Z then
    match Endf_Model.get_tab2_record f3 with Some (ps, _, f4) =>
    if (Endf_Model.n2 ps <? 0)%Z then None
    else match read_tables (Z.to_nat (Endf_Model.n2 ps)) f4 with Some (es, ms, _) => Some (es, ms) | None => None end | None => None end
  else if ((ltt =? 3) && (li =? 0))%Z then
    match Endf_Model.get_tab2_record f3 with Some (ps, _, f4) =>
    if (Endf_Model.n2 ps <? 0)%Z then None
    else
      match read_legendre (Z.to_nat (Endf_Model.n2 ps)) f4 with Some (es, ms, f5) =>
      match Endf_Model.get_tab2_record f5 with Some (ps', _, f6) =>
      if (Endf_Model.n2 ps' <? 0)%Z then None
      else match read_tables (Z.to_nat (Endf_Model.n2 ps')) f6 with Some (es', ms', _) => Some (es ++ es', ms ++ ms') | None => None end | None => None end | None => None end | None => None end
  else None).
Proof.
  intros (h & k & old & za & awr & lvt & i & j & a & b & lct & nk & nm & -> & H & K & NK & LO). exists rest. split; [reflexivity|].
  unfold from_endf, Endf_Model.get_head_record. cbn [app Endf_Model.readline].
  pose proof (Endf2_Proofs.control_fields _ _ _ _ _ _ _ H) as (F1 & F2 & F3 & F4 & F5 & F6). rewrite F1, F2, F3, F4, F5, F6.
  rewrite (Endf2_Proofs.get_cont_ok _ _ _ _ _ _ _ _ K). cbn [Endf_Model.l1 Endf_Model.n1].
  replace (if (0 <? lvt)%Z then skipn (Z.to_nat ((nk + 5) / 6)) (old ++ rest) else old ++ rest) with rest; [reflexivity|].
  destruct (0 <? lvt)%Z; [rewrite <- LO, Nat2Z.id; now rewrite skipn_app_len | destruct old; [reflexivity | discriminate LO]].
Qed.
Lemma endf_isotropic emax ls rest : mf4_head ls 0 1 -> from_endf emax (ls ++ rest) = Some ([0%Qc; emax], [Unif (- (1)) 1; Unif (- (1)) 1]).
Proof. intros H. destruct (head_at _ _ _ rest emax H) as (f3 & _ & E). rewrite E. reflexivity. Qed.
Lemma endf_legendre emax head t2 body rs rest : mf4_head head 1 0 -> tab2 t2 (length rs) -> records leg_record body rs ->
  exists es ms, from_endf emax (head ++ t2 ++ body ++ rest) = Some (es, ms) /\ listed leg_means rs es ms.
Proof.
  intros H T R. destruct (head_at _ _ _ (t2 ++ body ++ rest) emax H) as (f3 & -> & E). rewrite E. clear E. cbn [Z.eqb Pos.eqb andb].
  destruct (get_tab2_at _ _ (body ++ rest) T) as (items & regs & G & N). rewrite G, N, Nat2Z.id. destruct (Z.ltb_spec (Z.of_nat (length rs)) 0); [lia|].
  destruct (read_legendre_ok _ _ R rest) as (es & ms & E & L). rewrite E. exists es, ms. auto.
Qed.
Lemma endf_tables emax head t2 body rs rest : mf4_head head 2 0 -> tab2 t2 (length rs) -> records tab_record body rs ->
  exists es ms, from_endf emax (head ++ t2 ++ body ++ rest) = Some (es, ms) /\ listed tab_means rs es ms.
Proof.
  intros H T R. destruct (head_at _ _ _ (t2 ++ body ++ rest) emax H) as (f3 & -> & E). rewrite E. clear E. cbn [Z.eqb Pos.eqb andb].
  destruct (get_tab2_at _ _ (body ++ rest) T) as (items & regs & G & N). rewrite G, N, Nat2Z.id. destruct (Z.ltb_spec (Z.of_nat (length rs)) 0); [lia|].
  destruct (read_tables_ok _ _ R rest) as (es & ms & E & L). rewrite E. exists es, ms. auto.
Qed.
Lemma endf_both emax head t2 body rs t2' body' rs' rest : mf4_head head 3 0 -> tab2 t2 (length rs) -> records leg_record body rs ->
  tab2 t2' (length rs') -> records tab_record body' rs' ->
  exists es ms es' ms', from_endf emax (head ++ t2 ++ body ++ t2' ++ body' ++ rest) = Some (es ++ es', ms ++ ms') /\ listed leg_means rs es ms /\ listed tab_means rs' es' ms'.
Proof.
  intros H T R T' R'. destruct (head_at _ _ _ (t2 ++ body ++ t2' ++ body' ++ rest) emax H) as (f3 & -> & E). rewrite E. clear E. cbn [Z.eqb Pos.eqb andb].
  destruct (get_tab2_at _ _ (body ++ t2' ++ body' ++ rest) T) as (items & regs & G & N). rewrite G, N, Nat2Z.id. destruct (Z.ltb_spec (Z.of_nat (length rs)) 0); [lia|].
  destruct (read_legendre_ok _ _ R (t2' ++ body' ++ rest)) as (es & ms & E & L). rewrite E. clear E G.
  destruct (get_tab2_at _ _ (body' ++ rest) T') as (items' & regs' & G & N'). rewrite G, N', Nat2Z.id. destruct (Z.ltb_spec (Z.of_nat (length rs')) 0); [lia|].
  destruct (read_tables_ok _ _ R' rest) as (es' & ms' & E & L'). rewrite E. exists es, ms, es', ms'. auto.
Qed.
(** What the reader of ENDF returns is isotropic or has neither [to_tabular] nor [c]. *)
Definition untold (m : mu) : Prop := match m with Bare _ _ | Leg _ => True | _ => False end.
Lemma read_legendre_untold n : forall f es ms f', read_legendre n f = Some (es, ms, f') -> Forall untold ms /\ length ms = n /\ length es = n.
Proof.
  induction n as [|n IH]; intros f es ms f' H; cbn [read_legendre] in H; [injection H as <- <- <-; auto|].
  destruct (Endf_Model.get_list_record f) as [[[items al] f1]|]; [|discriminate]. destruct (Endf_Model.c2 items) as [e|]; [|discriminate]. cbn [legendre] in H.
  destruct (read_legendre n f1) as [[[es1 ms1] f2]|] eqn:E; [|discriminate]. injection H as <- <- <-. destruct (IH _ _ _ _ E) as (A & B & C). cbn [length]. repeat split; [constructor; [exact I | exact A] | congruence | congruence].
Qed.
Lemma read_tables_untold n : forall f es ms f', read_tables n f = Some (es, ms, f') -> Forall untold ms /\ length ms = n /\ length es = n.
Proof.
  induction n as [|n IH]; intros f es ms f' H; cbn [read_tables] in H; [injection H as <- <- <-; auto|].
  destruct (Endf_Model.get_tab1_record f) as [[[[[[[a e] i] j] regs] pts] f1]|]; [|discriminate].
  destruct (match regs with [(_, s)] => if (s <? 0)%Z then None else scheme_at (Z.to_nat s) | _ => None end) as [s|]; [|discriminate].
  destruct (forallb _ pts); [|discriminate].
  destruct (read_tables n f1) as [[[es1 ms1] f2]|] eqn:E; [|discriminate]. injection H as <- <- <-. destruct (IH _ _ _ _ E) as (A & B & C). cbn [length]. repeat split; [constructor; [exact I | exact A] | congruence | congruence].
Qed.
Lemma from_endf_inv emax f es ms : from_endf emax f = Some (es, ms) ->
  (es = [0%Qc; emax] /\ ms = [Unif (- (1)) 1; Unif (- (1)) 1]) \/ (Forall untold ms /\ length es = length ms).
Proof.
  unfold from_endf. destruct (Endf_Model.get_head_record f) as [[[[[[[za awr] lvt] ltt] i] j] f1]|]; [|discriminate].
  destruct (Endf_Model.get_cont_record false f1) as [[items f2]|]; [|discriminate]. cbn zeta. generalize (if (0 <? lvt)%Z then skipn (Z.to_nat ((Endf_Model.n1 items + 5) / 6)) f2 else f2). intros f3.
  destruct ((ltt =? 0)%Z && (Endf_Model.l1 items =? 1)%Z); [intros [= <- <-]; now left|]. intros H. right.
  destruct ((ltt =? 1)%Z && (Endf_Model.l1 items =? 0)%Z).
  { destruct (Endf_Model.get_tab2_record f3) as [[[ps r] f4]|]; [|discriminate]. destruct (Endf_Model.n2 ps <? 0)%Z; [discriminate|].
    destruct (read_legendre _ f4) as [[[es1 ms1] f5]|] eqn:E; [|discriminate]. injection H as <- <-. apply read_legendre_untold in E as (A & B & C). split; [exact A | congruence]. }
  destruct ((ltt =? 2)%Z && (Endf_Model.l1 items =? 0)%Z).
  { destruct (Endf_Model.get_tab2_record f3) as [[[ps r] f4]|]; [|discriminate]. destruct (Endf_Model.n2 ps <? 0)%Z; [discriminate|].
    destruct (read_tables _ f4) as [[[es1 ms1] f5]|] eqn:E; [|discriminate]. injection H as <- <-. apply read_tables_untold in E as (A & B & C). split; [exact A | congruence]. }
  destruct ((ltt =? 3)%Z && (Endf_Model.l1 items =? 0)%Z); [|discriminate].
  destruct (Endf_Model.get_tab2_record f3) as [[[ps r] f4]|]; [|discriminate]. destruct (Endf_Model.n2 ps <? 0)%Z; [discriminate|].
  destruct (read_legendre _ f4) as [[[es1 ms1] f5]|] eqn:E; [|discriminate].
  destruct (Endf_Model.get_tab2_record f5) as [[[ps' r'] f6]|]; [|discriminate]. destruct (Endf_Model.n2 ps' <? 0)%Z; [discriminate|].
  destruct (read_tables _ f6) as [[[es2 ms2] f7]|] eqn:E'; [|discriminate]. injection H as <- <-.
  apply read_legendre_untold in E as (A & B & C). apply read_tables_untold in E' as (A' & B' & C'). split; [now apply Forall_app | rewrite !app_length; congruence].
Qed.
Lemma endf_unstorable emax f es ms : from_endf emax f = Some (es, ms) -> (ms = [Unif (- (1)) 1; Unif (- (1)) 1] \/ ms = []) \/
  (to_hdf5 es ms = (mkGroup es None, false) /\ from_hdf5 (mkGroup es None) = None).
Proof.
  intros H. apply from_endf_inv in H as [[_ ->]|[F _]]; [tauto|]. destruct ms as [|m ms]; [tauto|]. right. inversion F as [|? ? F1 _]; subst.
  apply (unstorable es (m :: ms) m (or_introl eq_refl)); destruct m; cbn in F1; try contradiction; intros; discriminate.
Qed.
Lemma endf_isotropic_stored emax : exists g ms', to_hdf5 [0%Qc; emax] [Unif (- (1)) 1; Unif (- (1)) 1] = (g, true) /\ from_hdf5 g = Some ([0%Qc; emax], ms') /\
  Forall2 same_points [Unif (- (1)) 1; Unif (- (1)) 1] ms'.
Proof. destruct (stored [0%Qc; emax] [Unif (- (1)) 1; Unif (- (1)) 1] eq_refl) as (g & ms' & A & B & C & _); [repeat constructor; reflexivity|]. eauto. Qed.

(** ** What does not come back *)
Lemma turn_neg n pre t post : n = length (pre ++ t :: post) -> nonneg (snd t) = false ->
  turn (flat_map snd (pre ++ t :: post)) (offsets_from 0 (pre ++ t :: post)) (map (fun t => code (fst t)) (pre ++ t :: post)) (length pre) n = None.
Proof.
  intros L F. unfold turn. rewrite (offsets_nth pre 0 t post). cbn [Nat.add].
  assert (NX : (if length pre <? n - 1 then nth_error (offsets_from 0 (pre ++ t :: post)) (length pre + 1) else Some (length (flat_map snd (pre ++ t :: post)))) = Some (sizes pre + length (snd t))).
  { rewrite L, app_length. cbn [length]. destruct post as [|e post].
    - destruct (Nat.ltb_spec (length pre) (length pre + S (length (@nil (scheme * list point))) - 1)) as [H|_]; [cbn in H; lia|]. rewrite flat_map_app, app_length. cbn [flat_map]. now rewrite app_nil_r.
    - destruct (Nat.ltb_spec (length pre) (length pre + S (length (e :: post)) - 1)) as [_|H]; [|cbn in H; lia].
      pose proof (offsets_nth (pre ++ [t]) 0 e post) as K. rewrite app_length, <- app_assoc in K. cbn [length app] in K. rewrite K. unfold sizes. rewrite flat_map_app, app_length. cbn [flat_map]. now rewrite app_nil_r. }
  rewrite NX. assert (NT : nth_error (pre ++ t :: post) (length pre) = Some t) by (rewrite nth_error_app2, Nat.sub_diag by lia; reflexivity). rewrite (map_nth_error (fun t => code (fst t)) _ _ NT).
  rewrite scheme_code, flat_map_app. cbn [flat_map]. unfold sizes. rewrite slice_mid. now rewrite F.
Qed.
Lemma turns_none p o c n is i : In i is -> turn p o c i n = None -> turns p o c is n = None.
Proof.
  induction is as [|x is IH]; intros H T; [destruct H|]. cbn [turns]. destruct H as [->|H]; [now rewrite T|]. rewrite (IH H T). now destruct (turn p o c x n).
Qed.
Lemma tabulars_in ms : forall ts, tabulars ms = Some ts -> forall i l, In (Tab i l) ms -> In (i, l) ts.
Proof.
  induction ms as [|m ms IH]; intros ts H i l I; [destruct I|]. cbn [tabulars] in H. destruct (tabular m) as [t|] eqn:E; [|discriminate]. destruct (tabulars ms) as [ts'|]; [|discriminate]. injection H as <-.
  destruct I as [->|I]; [left; now injection E as <- | right; exact (IH _ eq_refl _ _ I)].
Qed.
Lemma tabulars_length ms : forall ts, tabulars ms = Some ts -> length ts = length ms.
Proof.
  induction ms as [|m ms IH]; intros ts H; cbn [tabulars] in H; [now injection H as <-|]. destruct (tabular m); [|discriminate]. destruct (tabulars ms) as [ts'|]; [|discriminate]. injection H as <-. cbn. now rewrite (IH _ eq_refl).
Qed.
Lemma negative_lost es ms g i l t : length es = length ms -> to_hdf5 es ms = (g, true) -> In (Tab i l) ms -> In t l -> (pp t < 0)%Qc -> from_hdf5 g = None.
Proof.
  intros L T I It N. unfold to_hdf5 in T. destruct (tabulars ms) as [ts|] eqn:E; [|discriminate]. injection T as <-.
  pose proof (tabulars_in _ _ E _ _ I) as J. apply in_split in J as (pre & post & ->). pose proof (tabulars_length _ _ E) as LT.
  unfold from_hdf5. cbn [g_mu g_energy]. rewrite (turns_none _ _ _ _ _ (length pre)); [reflexivity| |].
  - apply in_seq. rewrite L, <- LT, app_length. cbn. lia.
  - apply turn_neg; [congruence|]. destruct (nonneg (snd (i, l))) eqn:F; [|reflexivity]. apply nonneg_ok in F. unfold nonnegative in F. rewrite Forall_forall in F. specialize (F t It). exfalso. qclra.
Qed.
Lemma equi_negative cos i a b : length cos = 33 -> nth_error cos i = Some a -> nth_error cos (S i) = Some b -> (b < a)%Qc -> exists t, In t (equi cos) /\ (pp t < 0)%Qc.
Proof.
  intros L A B D. pose proof (bin_pdf_nth _ _ _ _ A B) as N. destruct (equi_fields cos L) as (_ & EP & _). rewrite <- EP in N.
  apply nth_error_In, in_map_iff in N as (t & E & I). exists t. split; [exact I|]. rewrite E.
  assert (Q : (1 / (qz 32 * (b - a)) * (qz 32 * (b - a)) = 1)%Qc) by (field; split; [intros Z0; assert (b = a) by qclra; subst; qclra | apply q32]).
  assert (P : (0 < qz 32)%Qc) by reflexivity. assert (R : (qz 32 * (b - a) < 0)%Qc) by qcnra. set (x := (1 / (qz 32 * (b - a)))%Qc) in *. set (y := (qz 32 * (b - a))%Qc) in *. clearbody x y.
  destruct (Qclt_le_dec x 0) as [H|H]; [exact H | exfalso; qcnra].
Qed.
Lemma laws_tabular laws : exists ts, tabulars (map mu_of laws) = Some ts.
Proof.
  induction laws as [|w laws (ts & IH)]; [eexists; reflexivity|]. cbn [map tabulars]. rewrite IH.
  destruct w; cbn [mu_of tabular]; [eauto | eauto|]. change (qltb (- (1)) 1) with true. eauto.
Qed.
Lemma ace_lost ev xss ld ls energies laws cos i a b : angular xss ld ls energies laws -> In (Equi cos) laws ->
  nth_error cos i = Some a -> nth_error cos (S i) = Some b -> (b < a)%Qc ->
  exists ms g, from_ace ev xss ld ls = Some (map (fun e => (e * ev)%Qc) energies, ms) /\
    to_hdf5 (map (fun e => (e * ev)%Qc) energies) ms = (g, true) /\ from_hdf5 g = None.
Proof.
  intros A I X Y D. destruct (from_ace_mu ev _ _ _ _ _ A) as [E M]. destruct (laws_tabular laws) as (ts & TS).
  destruct (to_hdf5 (map (fun e => (e * ev)%Qc) energies) (map mu_of laws)) as [g o] eqn:G. assert (o = true) by (unfold to_hdf5 in G; rewrite TS in G; now injection G). subst o.
  exists (map mu_of laws), g. split; [exact E|]. split; [exact G|].
  destruct A as (lcs & W & L & F). assert (LC : length cos = 33).
  { clear - F I. induction F as [|lc w lcs laws H _ IH]; [destruct I|]. destruct I as [->|I]; [inversion H; assumption | now apply IH]. }
  destruct (equi_negative cos i a b LC X Y D) as (t & T & N).
  apply (negative_lost (map (fun e => (e * ev)%Qc) energies) (map mu_of laws) g Histogram (equi cos) t); [rewrite !map_length; congruence | exact G | | exact T | exact N].
  apply in_map_iff. exists (Equi cos). auto.
Qed.
Lemma merged e i j l l' : nonnegative (l ++ l') -> exists g, to_hdf5 [e] [Tab i l; Tab j l'] = (g, true) /\
  from_hdf5 g = Some ([e], [Tab (as_plain i) (l ++ l')]).
Proof.
  intros N. eexists. split; [reflexivity|]. unfold from_hdf5. cbn [g_mu g_energy length seq turns fst snd flat_map map offsets_from]. unfold turn. cbn [nth_error length Nat.sub Nat.ltb Nat.leb].
  rewrite scheme_code, app_nil_r. unfold slice. rewrite Nat.sub_0_r, skipn_O, firstn_all. apply nonneg_ok in N. now rewrite N.
Qed.
