From Coq Require Import ZArith QArith Qcanon List Lia Bool String.
From Verif Require Import Num Text Endf_Spec Endf_Model Neut_Model Hdf_Model Hdf_Spec Hdf_Proofs Fer_Model Fer_Spec.
From Verif Require Dcy_Spec Dcy_Proofs Endf2_Proofs.
Import ListNotations.
Local Open Scope list_scope.
Local Open Scope nat_scope.

(** ** Coefficients *)
Lemma skipn_add {B} n : forall m (l : list B), skipn n (skipn m l) = skipn (m + n) l.
Proof.
  intros m. induction m as [|m IH]; intros l; [reflexivity|]. destruct l as [|x l]; [now rewrite !skipn_nil|]. cbn [skipn plus]. apply IH.
Qed.
Lemma entries_length o : List.length (entries o) = 2 * List.length o.
Proof. unfold entries. induction o as [|p o IH]; [reflexivity|]. cbn [flat_map]. rewrite app_length, IH. cbn [List.length]. lia. Qed.
Lemma skipn_entries o : forall i, skipn (2 * i) (entries o) = entries (skipn i o).
Proof.
  induction o as [|p o IH]; intros i; [unfold entries; cbn [flat_map]; rewrite !skipn_nil; reflexivity|]. destruct i as [|i]; [reflexivity|].
  replace (2 * S i) with (S (S (2 * i))) by lia. cbn [entries flat_map app skipn]. apply IH.
Qed.
Lemma strided_ok i os : i < 9 -> Forall (fun o : order => List.length o = 9) os -> forall fuel, List.length os <= fuel ->
  strided fuel (skipn (2 * i) (flat_map entries os)) = coefficients i os.
Proof.
  intros Hi F. induction F as [|o os H F IH]; intros fuel Hf.
  - cbn [flat_map]. rewrite skipn_nil. destruct fuel; reflexivity.
  - destruct fuel as [|fuel]; [cbn in Hf; lia|]. cbn [flat_map]. rewrite skipn_app, skipn_entries, entries_length, H.
    replace (2 * i - 2 * 9) with 0 by lia. cbn [skipn].
    assert (E : exists p r, skipn i o = p :: r /\ nth i o (0%Qc, 0%Qc) = p).
    { assert (L : i < List.length o) by lia. clear - L. revert i L. induction o as [|q o IHo]; intros i L; [cbn in L; lia|].
      destruct i as [|i]; [now exists q, o|]. cbn [List.length] in L. destruct (IHo i ltac:(lia)) as (p & r & E1 & E2). now exists p, r. }
    destruct E as (p & r & E1 & E2). rewrite E1. cbn [entries flat_map app strided coefficients map]. rewrite E2. f_equal.
    fold (entries r). change (fst p :: snd p :: entries r ++ flat_map entries os) with (entries (p :: r) ++ flat_map entries os). rewrite <- E1.
    assert (L : List.length (skipn i o) = 9 - i) by (rewrite skipn_length; lia).
    rewrite skipn_app, entries_length, L, skipn_all2 by (rewrite entries_length, L; lia).
    replace (18 - 2 * (9 - i)) with (2 * i) by lia. cbn [app]. apply IH. cbn in Hf. lia.
Qed.
Lemma column_ok i os : i < 9 -> Forall (fun o : order => List.length o = 9) os -> column i (flat_map entries os) = coefficients i os.
Proof.
  intros Hi F. unfold column. apply strided_ok; [assumption|assumption|]. clear Hi. induction F as [|o os H F IH]; [cbn; lia|].
  cbn [flat_map]. rewrite app_length, entries_length. cbn [List.length]. lia.
Qed.
Lemma coefficients_length i os : List.length (coefficients i os) = List.length os.
Proof. apply map_length. Qed.

(** ** Neutrons per fission *)
Section Reading.
Context {D A : Type} (R : readers D A).
Definition counted (p : product (D := D) (A := A)) : bool := p_neutron p && match p_mode p with Delayed => false | _ => true end.
Lemma counted_iff p : counted p = true <-> counts p.
Proof.
  unfold counted, counts. rewrite andb_true_iff. destruct (p_mode p); split; intros [H1 H2]; split; try assumption; try discriminate; auto; destruct H2; discriminate.
Qed.
Lemma filter_none (ps : list (product (D := D) (A := A))) : (forall q, In q ps -> ~ counts q) -> filter counted ps = [].
Proof.
  induction ps as [|p ps IH]; intros H; [reflexivity|]. cbn [filter]. destruct (counted p) eqn:E; [apply counted_iff in E; exfalso; apply (H p); [now left|assumption]|].
  apply IH. intros q Hq. apply H. now right.
Qed.
Lemma sole_yields ps nu : sole ps nu -> nu_yields (D := D) (A := A) ps = [nu].
Proof.
  intros (b & p & a & -> & C & <- & N). unfold nu_yields. fold counted. rewrite filter_app. cbn [filter]. rewrite (proj2 (counted_iff p) C).
  rewrite !filter_none; [reflexivity|intros q Hq; apply N, in_or_app; now right|intros q Hq; apply N, in_or_app; now left].
Qed.
Lemma yields_sole ps nu : nu_yields ps = [nu] -> sole (D := D) (A := A) ps nu.
Proof.
  unfold nu_yields. fold counted. induction ps as [|p ps IH]; [discriminate|]. cbn [filter]. destruct (counted p) eqn:E.
  - cbn [map]. intros [= E1 E2]. apply map_eq_nil in E2. exists [], p, ps. split; [reflexivity|]. split; [now apply counted_iff|]. split; [assumption|].
    cbn [app]. intros q Hq C. apply counted_iff in C. assert (I : In q (filter counted ps)) by (apply filter_In; now split). rewrite E2 in I. destruct I.
  - intros H. destruct (IH H) as (b & q & a & -> & C & Y & N). exists (p :: b), q, a. split; [reflexivity|]. split; [assumption|]. split; [assumption|].
    intros s [<-|Hs]; [rewrite <- counted_iff; congruence|now apply N].
Qed.
Lemma at_mt_in (rs : list (Z * reaction (D := D) (A := A))) mt r : NoDup (map fst rs) -> (at_mt rs mt = Some r <-> In (mt, r) rs).
Proof.
  unfold at_mt. induction rs as [|[k s] rs IH]; intros N; [split; [discriminate|intros []]|]. cbn [map fst] in N. inversion N as [|? ? N1 N2]. subst.
  cbn [find fst]. destruct (Z.eqb_spec k mt) as [->|K]; cbn [option_map snd].
  - split; [intros [= <-]; now left|]. intros [[= <-]|I]; [reflexivity|]. exfalso. apply N1. now apply (in_map fst) in I.
  - rewrite (IH N2). split; [now right|]. intros [[= -> _]|I]; [congruence|assumption].
Qed.
Lemma at_mt_none (rs : list (Z * reaction (D := D) (A := A))) mt : NoDup (map fst rs) -> (at_mt rs mt = None <-> forall r, ~ In (mt, r) rs).
Proof.
  intros N. split.
  - intros E r I. apply (at_mt_in _ _ _ N) in I. congruence.
  - intros H. destruct (at_mt rs mt) as [r|] eqn:E; [|reflexivity]. apply (at_mt_in _ _ _ N) in E. exfalso. now apply (H r).
Qed.
(** The list of yields looked at. *)
Definition yields_at (rs : list (Z * reaction (D := D) (A := A))) : option (list yield) :=
  match at_mt rs 18 with
  | Some r => if r_redundant r then option_map (fun r => nu_yields (r_products r)) (at_mt rs 19) else Some (nu_yields (r_products r))
  | None => option_map (fun r => nu_yields (r_products r)) (at_mt rs 19)
  end.
Lemma yields_at_in rs r : fission_in (D := D) (A := A) rs r -> yields_at rs = Some (nu_yields (r_products r)).
Proof.
  intros (N & [[I18 F]|[N18 I19]]); unfold yields_at.
  - apply (at_mt_in _ _ _ N) in I18. now rewrite I18, F.
  - apply (at_mt_in _ _ _ N) in I19. rewrite I19. destruct (at_mt rs 18) as [s|] eqn:E; [|reflexivity]. apply (at_mt_in _ _ _ N) in E. now rewrite (N18 s E).
Qed.
Lemma yields_at_some rs l : NoDup (map fst rs) -> yields_at rs = Some l -> exists r, fission_in rs r /\ l = nu_yields (r_products r).
Proof.
  intros N. unfold yields_at. destruct (at_mt rs 18) as [s|] eqn:E.
  - apply (at_mt_in _ _ _ N) in E. destruct (r_redundant s) eqn:F.
    + destruct (at_mt rs 19) as [r|] eqn:E19; [|discriminate]. intros [= <-]. exists r. split; [|reflexivity]. split; [assumption|]. right. split.
      * intros r' I. apply (at_mt_in _ _ _ N) in I, E. congruence.
      * now apply (at_mt_in _ _ _ N).
    + intros [= <-]. exists s. split; [|reflexivity]. split; [assumption|]. left. now split.
  - destruct (at_mt rs 19) as [r|] eqn:E19; [|discriminate]. intros [= <-]. exists r. split; [|reflexivity]. split; [assumption|]. right. split.
    + intros r' I. apply (at_mt_none _ _ N) in I; [destruct I|assumption].
    + now apply (at_mt_in _ _ _ N).
Qed.
Lemma nu_data_iff rs nu : NoDup (map fst rs) -> (nu_data (D := D) (A := A) rs = Some nu <-> exists r, fission_in (D := D) (A := A) rs r /\ sole (r_products r) nu).
Proof.
  intros N. unfold nu_data. fold (yields_at rs). split.
  - destruct (yields_at rs) as [l|] eqn:E; [|discriminate]. destruct (yields_at_some rs l N E) as (r & F & ->).
    destruct (nu_yields (r_products r)) as [|x [|]] eqn:Y; try discriminate. intros [= ->]. exists r. split; [assumption|]. now apply yields_sole.
  - intros (r & F & S). rewrite (yields_at_in rs r F), (sole_yields _ _ S). reflexivity.
Qed.

(** ** The formulas of Sher and Beck *)
Lemma horner_map k c x : horner (map (fun v => k * v)%Qc c) x = (k * horner c x)%Qc.
Proof. induction c as [|a c IH]; cbn [map horner]; [ring|]. rewrite IH. ring. Qed.
Lemma sher_beck_ok e0 nu : fine_nu nu -> exists f, sher_beck e0 nu = Some f /\ by_neutrons e0 nu f.
Proof.
  destruct nu as [c|t]; cbn [fine_nu sher_beck by_neutrons].
  - intros N. destruct c as [|c0 [|c1 c]]; [congruence| |].
    + eexists. split; [reflexivity|]. eexists. split; [reflexivity|]. intros e. cbn [horner]. unfold per_energy. ring.
    + eexists. split; [reflexivity|]. eexists. split; [reflexivity|]. intros e. cbn [horner]. rewrite horner_map. unfold per_energy, per_neutron. ring.
  - intros [N L]. destruct (fy t) as [|y0 ys] eqn:Ey; [destruct (fx t); [congruence|discriminate]|].
    rewrite <- Ey, <- L, Ey, Nat.eqb_refl. eexists. split; [reflexivity|]. eexists. split; [reflexivity|]. split.
    + rewrite map_length, combine_length. cbn [List.length] in *. lia.
    + intros j Hj. cbn [nth] in *. set (g := fun p : Qc * Qc => (e0 + per_energy * fst p - per_neutron * (snd p - y0))%Qc).
      rewrite (nth_indep _ 0%Qc (g (0%Qc, 0%Qc))) by (rewrite map_length, combine_length; lia).
      rewrite map_nth. unfold g. rewrite combine_nth by (symmetry; assumption). reflexivity.
Qed.
Lemma per_neutron_neg v : (- per_neutron * v)%Qc = (- (per_neutron * v))%Qc.
Proof. ring. Qed.

(** ** One quantity *)
Lemma corrected_ok c0 c1 c2 : exists c, corrected [c0; c1; c2] = Some c /\ (in_mev c2 -> c = [c0; c1; (c2 / qz 1000000)%Qc]) /\ (~ in_mev c2 -> c = [c0; c1; c2]).
Proof.
  unfold corrected. cbn [nth_error firstn skipn app].
  replace (qz 5000000 * qz 5000000)%Qc with (qz 25000000000000) by (apply Qc_is_canon; reflexivity).
  destruct (qltb_spec (qz 100000000) (qabs c2 * qz 25000000000000)) as [H|H].
  - eexists. split; [reflexivity|]. split; [reflexivity|]. intros N. exfalso. now apply N.
  - eexists. split; [reflexivity|]. split; [|reflexivity]. intros Y. exfalso. now apply H.
Qed.
Definition nine : list string := names.
Lemma component_ok rs os nu i : i < 7 -> os <> [] -> Forall (fun o : order => List.length o = 9) os ->
  (List.length os = 1 -> nu_data (D := D) (A := A) rs = Some nu /\ fine_nu nu) ->
  exists f, component rs (Z.of_nat (List.length os) - 1) (flat_map entries os) i (nth i names EmptyString) = Some f /\ given nu i os f.
Proof.
  intros Hi No F Hnu. unfold component, given. rewrite column_ok by (assumption || lia). pose proof (coefficients_length i os) as L.
  destruct os as [|o1 os]; [congruence|]. destruct os as [|o2 os].
  - (* one coefficient *)
    destruct (coefficients i [o1]) as [|e0 [|]] eqn:E; try discriminate. destruct (Hnu eq_refl) as [N1 N2].
    change (Z.of_nat (List.length [o1]) - 1)%Z with 0%Z. cbn [Z.eqb Z.ltb Z.compare nth_error].
    destruct i as [|[|[|[|[|[|[|i]]]]]]]; try lia; cbn [nth names].
    all: try (eexists; split; [reflexivity|reflexivity]).
    cbn [String.eqb Ascii.eqb Bool.eqb orb]. rewrite N1. destruct (sher_beck_ok e0 nu N2) as (f & E1 & E2). exists f. split; [exact E1|exact E2].
  - assert (P : (0 <? Z.of_nat (List.length (o1 :: o2 :: os)) - 1)%Z = true) by (apply Z.ltb_lt; cbn [List.length]; lia). rewrite P.
    destruct os as [|o3 os].
    + destruct (coefficients i [o1; o2]) as [|c0 [|c1 [|]]] eqn:E; try discriminate. change (Z.of_nat (List.length [o1; o2]) - 1)%Z with 1%Z. cbn [Z.eqb Pos.eqb].
      eexists; split; reflexivity.
    + destruct os as [|o4 os].
      * destruct (coefficients i [o1; o2; o3]) as [|c0 [|c1 [|c2 [|]]]] eqn:E; try discriminate. change (Z.of_nat (List.length [o1; o2; o3]) - 1)%Z with 2%Z. rewrite Z.eqb_refl.
        destruct (corrected_ok c0 c1 c2) as (c & Ec & C1 & C2). rewrite Ec. unfold polynomial.
        assert (c <> []) by (intros ->; unfold corrected in Ec; cbn [nth_error firstn skipn app] in Ec; destruct (qltb _ _); discriminate).
        destruct c as [|d0 d]; [congruence|]. eexists. split; [reflexivity|]. split; intros H1; f_equal; auto.
      * assert (Q : (Z.of_nat (List.length (o1 :: o2 :: o3 :: o4 :: os)) - 1 =? 2)%Z = false) by (apply Z.eqb_neq; cbn [List.length]; lia). rewrite Q.
        destruct (coefficients i (o1 :: o2 :: o3 :: o4 :: os)) as [|c0 [|c1 [|c2 [|c3 c]]]] eqn:E; try discriminate.
        eexists; split; reflexivity.
Qed.
Lemma components_ok rs os nu : os <> [] -> Forall (fun o : order => List.length o = 9) os ->
  (List.length os = 1 -> nu_data (D := D) (A := A) rs = Some nu /\ fine_nu nu) ->
  exists fs, List.length fs = 7 /\ components rs (Z.of_nat (List.length os) - 1) (flat_map entries os) 0 names = Some (combine (firstn 7 names) fs) /\
    forall i, i < 7 -> given nu i os (nth i fs (Poly [])).
Proof.
  intros No F Hnu.
  assert (C : forall i, i < 7 -> exists f, component rs (Z.of_nat (List.length os) - 1) (flat_map entries os) i (nth i names EmptyString) = Some f /\ given nu i os f)
    by (intros i Hi; now apply component_ok).
  destruct (C 0 ltac:(lia)) as (f0 & E0 & G0). destruct (C 1 ltac:(lia)) as (f1 & E1 & G1). destruct (C 2 ltac:(lia)) as (f2 & E2 & G2).
  destruct (C 3 ltac:(lia)) as (f3 & E3 & G3). destruct (C 4 ltac:(lia)) as (f4 & E4 & G4). destruct (C 5 ltac:(lia)) as (f5 & E5 & G5).
  destruct (C 6 ltac:(lia)) as (f6 & E6 & G6). cbn [nth names] in E0, E1, E2, E3, E4, E5, E6.
  exists [f0; f1; f2; f3; f4; f5; f6]. split; [reflexivity|]. split.
  - unfold names. cbn [components String.eqb Ascii.eqb Bool.eqb orb]. rewrite E0, E1, E2, E3, E4, E5, E6. reflexivity.
  - intros i Hi. destruct i as [|[|[|[|[|[|[|i]]]]]]]; try lia; assumption.
Qed.

(** ** Tables *)
Definition replaced (fs : list yield) (i : nat) (ts : list (Z * fn)) : yield := match tabulated_as i ts with Some t => Tabd t | None => nth i fs (Poly []) end.
Lemma split_pairs {B C} (a : list B) : forall (b : list C), List.length b = List.length a -> map fst (combine a b) = a /\ map snd (combine a b) = b.
Proof.
  induction a as [|x a IH]; intros [|y b] L; try discriminate; [now split|]. cbn [combine map fst snd]. destruct (IH b) as [-> ->]; [cbn in L; lia|now split].
Qed.
Lemma tables_ok ts ls : tables_text ts ls -> Forall (fun p => 1 <= fst p <= 7)%Z ts -> forall rest fs, List.length fs = 7 ->
  exists gs, List.length gs = 7 /\ tables (List.length ts) (ls ++ rest) (combine (firstn 7 names) fs) = Some (combine (firstn 7 names) gs) /\
    forall i, i < 7 -> nth i gs (Poly []) = replaced fs i ts.
Proof.
  induction 1 as [ls|k t ts h c d i lr lp ls Hc L1 L2 R1 R2 Ht IH]; intros F rest fs Hl.
  - exists fs. split; [assumption|]. split; [reflexivity|]. reflexivity.
  - inversion F as [|? ? K F']. subst. cbn [fst] in K. cbn [List.length tables].
    replace ((h :: lr ++ lp ++ ls) ++ rest) with (h :: lr ++ lp ++ (ls ++ rest)) by (cbn [app]; now rewrite <- !app_assoc).
    assert (C1 : List.length (fbp t) = List.length (combine (fbp t) (fint t))) by (rewrite combine_length; lia).
    assert (C2 : List.length (fx t) = List.length (combine (fx t) (fy t))) by (rewrite combine_length; lia).
    rewrite C1, C2 in Hc. rewrite (Endf2_Proofs.get_tab1_ok _ _ _ _ _ _ _ _ _ (ls ++ rest) Hc R1 R2).
    destruct (split_pairs (fbp t) (fint t) L1) as [-> ->]. destruct (split_pairs (fx t) (fy t) L2) as [-> ->].
    replace (mkFn (fx t) (fy t) (fbp t) (fint t)) with t by (destruct t; reflexivity).
    destruct fs as [|f0 [|f1 [|f2 [|f3 [|f4 [|f5 [|f6 [|]]]]]]]]; try discriminate.
    assert (Kc : k = 1%Z \/ k = 2%Z \/ k = 3%Z \/ k = 4%Z \/ k = 5%Z \/ k = 6%Z \/ k = 7%Z) by lia.
    assert (St : exists fs', List.length fs' = 7 /\ (forall i, i < 7 -> nth i fs' (Poly []) = if (k =? Z.of_nat (S i))%Z then Tabd t else nth i [f0; f1; f2; f3; f4; f5; f6] (Poly [])) /\
      exists name, Neut_Model.at_ names (k - 1) = Some name /\ assign name (Tabd t) (combine (firstn 7 names) [f0; f1; f2; f3; f4; f5; f6]) = combine (firstn 7 names) fs').
    { destruct Kc as [->|[->|[->|[->|[->|[->| ->]]]]]].
      - exists [Tabd t; f1; f2; f3; f4; f5; f6]. split; [reflexivity|]. split; [intros [|[|[|[|[|[|[|j]]]]]]] Hj; try lia; reflexivity|eexists; split; reflexivity].
      - exists [f0; Tabd t; f2; f3; f4; f5; f6]. split; [reflexivity|]. split; [intros [|[|[|[|[|[|[|j]]]]]]] Hj; try lia; reflexivity|eexists; split; reflexivity].
      - exists [f0; f1; Tabd t; f3; f4; f5; f6]. split; [reflexivity|]. split; [intros [|[|[|[|[|[|[|j]]]]]]] Hj; try lia; reflexivity|eexists; split; reflexivity].
      - exists [f0; f1; f2; Tabd t; f4; f5; f6]. split; [reflexivity|]. split; [intros [|[|[|[|[|[|[|j]]]]]]] Hj; try lia; reflexivity|eexists; split; reflexivity].
      - exists [f0; f1; f2; f3; Tabd t; f5; f6]. split; [reflexivity|]. split; [intros [|[|[|[|[|[|[|j]]]]]]] Hj; try lia; reflexivity|eexists; split; reflexivity].
      - exists [f0; f1; f2; f3; f4; Tabd t; f6]. split; [reflexivity|]. split; [intros [|[|[|[|[|[|[|j]]]]]]] Hj; try lia; reflexivity|eexists; split; reflexivity].
      - exists [f0; f1; f2; f3; f4; f5; Tabd t]. split; [reflexivity|]. split; [intros [|[|[|[|[|[|[|j]]]]]]] Hj; try lia; reflexivity|eexists; split; reflexivity]. }
    destruct St as (fs' & L' & V & name & En & Ea). rewrite En, Ea.
    destruct (IH F' rest fs' L') as (gs & Lg & Eg & Vg). exists gs. split; [assumption|]. split; [exact Eg|]. intros j Hj. rewrite (Vg j Hj).
    unfold replaced. cbn [tabulated_as]. destruct (tabulated_as j ts); [reflexivity|]. rewrite (V j Hj). destruct (k =? Z.of_nat (S j))%Z; reflexivity.
Qed.
Lemma build_ok fs : List.length fs = 7 -> exists r, build (combine (firstn 7 names) fs) = Some r /\ parts r = fs.
Proof.
  intros L. destruct fs as [|f0 [|f1 [|f2 [|f3 [|f4 [|f5 [|f6 [|]]]]]]]]; try discriminate. eexists. split; [reflexivity|]. reflexivity.
Qed.
Theorem from_endf_ok target rs lfc os ts ls nu : section_text lfc os ts ls ->
  (List.length os = 1 -> NoDup (map fst rs) /\ exists r, fission_in (D := D) (A := A) rs r /\ sole (r_products r) nu /\ fine_nu nu) ->
  (lfc = 1%Z -> Forall (fun p => 1 <= fst p <= 7)%Z ts) ->
  exists r, from_endf target true (Some ls) target rs = Some r /\
    forall i, i < 7 -> match tabulated_as i (if (lfc =? 1)%Z then ts else []) with
                       | Some t => nth i (parts r) (Poly []) = Tabd t
                       | None => given nu i os (nth i (parts r) (Poly []))
                       end.
Proof.
  intros (h & za & awr & i & n & a & b & i' & n' & k1 & k2 & -> & Hc & No & F & Hl & Ht) Hnu Hts.
  unfold from_endf. rewrite !Z.eqb_refl. cbn [negb].
  rewrite (Endf2_Proofs.get_cont_ok _ _ _ _ _ _ _ _ Hc).
  rewrite (Dcy_Proofs.list_at_ok _ _ _ _ _ _ _ k2 Hl). cbn [l2 n2].
  destruct (components_ok rs os nu No F) as (fs & Lf & Ef & Gf).
  { intros H1. destruct (Hnu H1) as (N & r & F1 & S1 & N1). split; [|assumption]. apply (nu_data_iff _ _ N). eauto. }
  rewrite Ef. rewrite Nat2Z.id. destruct (Z.eqb_spec lfc 1) as [->|Nl].
  - destruct (tables_ok ts k2 Ht (Hts eq_refl) [] fs Lf) as (gs & Lg & Eg & Vg). rewrite app_nil_r in Eg. rewrite Eg.
    destruct (build_ok gs Lg) as (r & Er & Pr). exists r. split; [exact Er|]. intros j Hj. rewrite Pr, (Vg j Hj). unfold replaced.
    destruct (tabulated_as j ts); [reflexivity|now apply Gf].
  - destruct (build_ok fs Lf) as (r & Er & Pr). exists r. split; [exact Er|]. intros j Hj. cbn [tabulated_as]. rewrite Pr. now apply Gf.
Qed.
End Reading.
