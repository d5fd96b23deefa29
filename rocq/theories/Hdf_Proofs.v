From Coq Require Import ZArith QArith Qcanon List Bool Arith Lia String.
From Coq Require Import DecimalString DecimalNat DecimalFacts.
From Verif Require Import Num Neut_Model Law_Model Law_Spec Hdf_Model Hdf_Spec.
From Verif Require Cont_Model Cont_Spec Cont_Proofs Ang_Model Ang_Spec Ang_Proofs Law_Proofs Nubar_Spec.
Import ListNotations.
Local Open Scope list_scope.
Local Open Scope nat_scope.

(** ** Functions *)
Lemma fn_back f : fn_fine f -> exists n, fn_node f = Some n /\ fn_of n = Some f.
Proof. intros L. unfold fn_node, fn_fine in *. rewrite L, Nat.eqb_refl. eexists. split; [reflexivity|]. destruct f; reflexivity. Qed.
Lemma yield_back y : yield_fine y -> exists n, yield_node y = Some n /\ yield_of n = Some y.
Proof.
  destruct y as [c|f]; intros F; cbn [yield_node].
  - eexists. split; reflexivity.
  - destruct (fn_back f F) as (n & E & O). exists n. split; [exact E|]. unfold fn_node in E. cbn in F. unfold fn_fine in F. rewrite F, Nat.eqb_refl in E. injection E as <-. destruct f; reflexivity.
Qed.
Lemma points_back l more : points_of (rows_of l ++ more) = Some l.
Proof. unfold points_of, rows_of. cbn [app nth_error]. rewrite (Law_Proofs.triples_map Cont_Model.px Cont_Model.pp Cont_Model.pc). f_equal. rewrite <- (map_id l) at 2. apply map_ext. intros [[a b] c]. reflexivity. Qed.

(** ** Angles *)
Lemma angle_back a : angle_fine a -> exists n a', angle_node a = Some n /\ angle_of n = Some a' /\ kept_angle a a' /\ (Forall Ang_Spec.plainly (snd a) -> a' = a).
Proof.
  intros [L S]. destruct (Ang_Proofs.stored _ _ L S) as (g & ms' & T & F & K & P). unfold angle_node. rewrite T. unfold Ang_Model.to_hdf5 in T.
  destruct (Ang_Model.tabulars (snd a)) as [ts|]; [|discriminate]. injection T as <-. cbn [Ang_Model.g_energy Ang_Model.g_mu create group look].
  eexists. exists (fst a, ms'). split; [reflexivity|]. split.
  - unfold angle_of. cbn [kid look app String.eqb Ascii.eqb Bool.eqb value dataset nums rows nats attr]. rewrite <- (app_nil_r (rows_of _)), points_back. exact F.
  - split; [split; [reflexivity | exact K]|]. intros X. rewrite (P X). now destruct a.
Qed.

(** ** Spectra *)
Lemma fit_mono b d : Cont_Spec.fit d -> fit b d.
Proof. destruct d; cbn; [intros [A B]; auto|auto..]. Qed.
Lemma turn_ok b es pre d post v : length es = length (pre ++ d :: post) -> fit b d ->
  exists v', turn b (Cont_Model.to_hdf5 es [] (pre ++ d :: post)) v (length pre) (length es) = Some (Cont_Proofs.as_read d, v').
Proof.
  intros L F. set (f := Cont_Model.to_hdf5 es [] (pre ++ d :: post)). unfold turn.
  assert (O : nth_error (Cont_Model.f_offsets f) (length pre) = Some (Cont_Proofs.sizes pre)) by exact (Cont_Proofs.offsets_nth pre 0 d post).
  assert (M : nth_error (Cont_Model.f_discrete f) (length pre) = Some (Cont_Model.lines_of d)) by apply Cont_Proofs.nth_mid.
  assert (S1 : nth_error (Cont_Model.f_schemes f) (length pre) = Some (Cont_Model.scheme_of d)) by apply Cont_Proofs.nth_mid.
  assert (PL : Cont_Model.f_pairs f = flat_map Cont_Model.columns pre ++ Cont_Model.columns d ++ flat_map Cont_Model.columns post) by (unfold f, Cont_Model.to_hdf5; cbn [Cont_Model.f_pairs]; now rewrite flat_map_app).
  assert (NX : (if length pre <? length es - 1 then nth_error (Cont_Model.f_offsets f) (length pre + 1) else Some (length (Cont_Model.f_pairs f))) = Some (Cont_Proofs.sizes pre + Cont_Model.size d)).
  { rewrite L, app_length. cbn [length]. destruct post as [|e post].
    - cbn [length]. destruct (Nat.ltb_spec (length pre) (length pre + 1 - 1)) as [H|_]; [lia|]. rewrite PL. cbn [flat_map]. rewrite app_nil_r, app_length, Cont_Proofs.size_columns. reflexivity.
    - destruct (Nat.ltb_spec (length pre) (length pre + S (length (e :: post)) - 1)) as [_|H]; [|cbn in H; lia].
      pose proof (Cont_Proofs.offsets_nth (pre ++ [d]) 0 e post) as K. rewrite app_length, <- app_assoc in K. cbn [length app] in K. unfold f, Cont_Model.to_hdf5. cbn [Cont_Model.f_offsets]. rewrite K, Cont_Proofs.sizes_app, Cont_Proofs.sizes_cons. f_equal. unfold Cont_Proofs.sizes at 2. cbn. lia. }
  rewrite O, M, NX. cbn zeta. replace (Cont_Proofs.sizes pre + Cont_Model.size d - Cont_Proofs.sizes pre) with (Cont_Model.size d) by lia. rewrite S1.
  assert (SP : Cont_Proofs.sizes pre = length (flat_map Cont_Model.columns pre)) by reflexivity.
  destruct d as [i l|l|w a i c]; cbn [fit Cont_Spec.fit Cont_Model.lines_of Cont_Model.size Cont_Model.columns Cont_Model.scheme_of Cont_Proofs.as_read] in *.
  - destruct F as [N P]. destruct l as [|t l]; [congruence|]. change (0 <? 0) with false. change (0 <? length (t :: l)) with true. cbn iota. rewrite Cont_Proofs.scheme_code, Nat.add_0_r, PL, SP, Cont_Proofs.slice_mid.
    assert (X : b || Cont_Model.nonneg (t :: l) = true) by (destruct P as [->|P]; [reflexivity|]; apply Cont_Proofs.nonneg_ok in P; rewrite P; apply orb_true_r). rewrite X. cbn. eauto.
  - destruct F as [N P]. destruct l as [|t l]; [congruence|]. rewrite Nat.ltb_irrefl. change (0 <? length (t :: l)) with true. cbn iota. rewrite PL, SP, Cont_Proofs.slice_mid. apply Cont_Proofs.nonneg_ok in P. rewrite P.
    rewrite Nat.eqb_refl. cbn. eauto.
  - destruct F as (PA & PC & NC & w0 & (t & r & -> & ->) & W0 & W1). apply Cont_Proofs.nonneg_ok in PA, PC.
    destruct (Nat.ltb_spec 0 (length (r ++ [t]))) as [_|H]; [|rewrite app_length in H; cbn in H; lia].
    assert (LC : 0 < length c) by (destruct c; [congruence | cbn; lia]).
    destruct (Nat.ltb_spec (length (r ++ [t])) (length (r ++ [t]) + length c)) as [_|H]; [|lia].
    rewrite Cont_Proofs.scheme_code, PL, SP. rewrite <- (app_assoc (r ++ [t]) c), Cont_Proofs.slice_mid, PA.
    replace (length (flat_map Cont_Model.columns pre) + length (r ++ [t])) with (length (flat_map Cont_Model.columns pre ++ (r ++ [t]))) by apply app_length.
    replace (length (flat_map Cont_Model.columns pre) + (length (r ++ [t]) + length c)) with (length (flat_map Cont_Model.columns pre ++ (r ++ [t])) + length c) by (rewrite app_length; lia).
    rewrite (app_assoc (flat_map Cont_Model.columns pre) (r ++ [t])), Cont_Proofs.slice_mid, PC, orb_true_r.
    destruct (Nat.eqb_spec (length (r ++ [t])) 0) as [H|_]; [rewrite app_length in H; cbn in H; lia|].
    destruct (Nat.eqb_spec (length (r ++ [t])) (length (r ++ [t]) + length c)) as [H|_]; [lia|].
    rewrite !last_last. destruct (qleb_spec 0 (Cont_Model.pc t)) as [_|H]; [|now destruct (H W0)]. destruct (qleb_spec 0 (1 - Cont_Model.pc t)) as [_|H]; [|exfalso; qclra]. cbn. eauto.
Qed.
Lemma turns_ok b es : forall post pre v, length es = length (pre ++ post) -> Forall (fit b) post ->
  turns b (Cont_Model.to_hdf5 es [] (pre ++ post)) v (seq (length pre) (length post)) (length es) = Some (map Cont_Proofs.as_read post).
Proof.
  induction post as [|d post IH]; intros pre v L F; [reflexivity|]. inversion F as [|? ? F1 F2]; subst. cbn [length seq turns].
  destruct (turn_ok b es pre d post v L F1) as (v' & T). rewrite T. specialize (IH (pre ++ [d]) v'). rewrite <- app_assoc in IH. cbn [app] in IH. assert (EL : length (pre ++ [d]) = S (length pre)) by (rewrite app_length; cbn; lia).
  rewrite EL in IH. rewrite IH; [reflexivity | exact L | exact F2].
Qed.
Lemma scheme_kept i : kept_scheme i (Cont_Proofs.as_plain i).
Proof. destruct i; [left; auto | right; split; [discriminate | reflexivity]..]. Qed.
Lemma kept_read b d : fit b d -> kept_dist d (Cont_Proofs.as_read d).
Proof.
  destruct d as [i l|l|w a i c]; cbn; [intros _; split; [reflexivity | apply scheme_kept] | reflexivity|].
  intros (_ & _ & _ & p & W & _). split; [reflexivity|]. split; [reflexivity|]. split; [apply scheme_kept|]. exists p. split; [exact W|]. now rewrite (Cont_Proofs.last_weight _ _ W).
Qed.
Lemma kept_reads b ds : Forall (fit b) ds -> Forall2 kept_dist ds (map Cont_Proofs.as_read ds).
Proof. induction 1 as [|d ds F _ IH]; constructor; [now apply (kept_read b) | exact IH]. Qed.
(** The node of spectra, and reading it from where it is. *)
Definition spectra_value (ds : list Cont_Model.dist) (more : list (list Qc)) : node :=
  Node [("offsets"%string, VNats (Cont_Model.offsets_from 0 ds)); ("interpolation"%string, VNats (map Cont_Model.scheme_of ds)); ("n_discrete_lines"%string, VNats (map Cont_Model.lines_of ds))]
    (Some (VRows (rows_of (flat_map Cont_Model.columns ds) ++ more))) [].
Lemma spectra_back b name es ds more n : kid n name = Some (spectra_value ds more) -> length es = length ds -> Forall (fit b) ds ->
  spectra_of b name es n = Some (map Cont_Proofs.as_read ds, Cont_Model.offsets_from 0 ds, rows_of (flat_map Cont_Model.columns ds) ++ more).
Proof.
  intros K L F. unfold spectra_of. rewrite K. unfold spectra_value. cbn [attr look String.eqb Ascii.eqb Bool.eqb nats rows value]. rewrite points_back.
  pose proof (turns_ok b es ds [] (Cont_Model.mkVars None None) L F) as T. cbn [app length] in T. unfold Cont_Model.to_hdf5 in T. rewrite <- L in T. now rewrite T.
Qed.

(** ** Energies *)
Lemma energy_back e : energy_fine e -> exists n e', energy_node e group = Some n /\ energy_of n = Some e' /\ kept_energy e e' /\ (plain_energy e -> e' = e).
Proof.
  destruct e as [p e awr|th ra|bp it es ds|f u|f u|a b u|efl efh tm|f g u|es pdf]; cbn [energy_fine energy_node]; intros F; try contradiction.
  - eexists. exists (Photon p e awr). repeat split.
  - eexists. exists (Level th ra). repeat split.
  - destruct F as (B & L & F). unfold incident_node. rewrite B, Nat.eqb_refl. unfold spectra_node. cbn [create set_attr group look app String.eqb Ascii.eqb Bool.eqb].
    eexists. exists (Continuous bp it es (map Cont_Proofs.as_read ds)). split; [reflexivity|]. split.
    + unfold energy_of. cbn [attr look String.eqb Ascii.eqb Bool.eqb str]. unfold incident_of. cbn [kid look String.eqb Ascii.eqb Bool.eqb attr pair_of value nums].
      erewrite (spectra_back false); [reflexivity | reflexivity | exact L | exact F].
    + split; [repeat split; now apply (kept_reads false)|]. intros P. f_equal. cbn in P. induction P as [|d ds H P IH]; [reflexivity|]. inversion F; subst. cbn. rewrite Cont_Proofs.plainly_read by assumption. f_equal.
      clear -P. induction P as [|d' ds' H P IH]; [reflexivity|]. cbn. now rewrite IH, Cont_Proofs.plainly_read.
  - destruct (fn_back f F) as (n & E & O). rewrite E. eexists. exists (Maxwell f u). split; [reflexivity|]. split; [|split; reflexivity]. unfold energy_of. cbn. now rewrite O.
  - destruct (fn_back f F) as (n & E & O). rewrite E. eexists. exists (Evaporation f u). split; [reflexivity|]. split; [|split; reflexivity]. unfold energy_of. cbn. now rewrite O.
  - destruct F as [FA FB]. destruct (fn_back a FA) as (n & E & O). destruct (fn_back b FB) as (n' & E' & O'). rewrite E, E'. eexists. exists (Watt a b u). split; [reflexivity|]. split; [|split; reflexivity]. unfold energy_of. cbn. now rewrite O, O'.
Qed.

(** ** Kalbach-Mann *)
Definition fits (ds : list Cont_Model.dist) (fs : list fn) : Prop := Forall2 (fun d f => length (fy f) = length (all_points d)) ds fs.
Lemma size_all d : Cont_Model.size d = length (all_points d).
Proof. destruct d; cbn; [reflexivity..|]. symmetry. apply app_length. Qed.
Lemma parameters_written ds fs : fits ds fs -> parameters ds fs = Some (flat_map fy fs).
Proof. induction 1 as [|d f ds fs L _ IH]; [reflexivity|]. cbn [parameters flat_map]. unfold fill. rewrite size_all, L, Nat.eqb_refl, IH. reflexivity. Qed.
Definition reread (d : Cont_Model.dist) (f : fn) : fn := linear (map Cont_Model.px (all_points d)) (fy f).
Fixpoint rereads (ds : list Cont_Model.dist) (fs : list fn) : list fn :=
  match ds, fs with d :: ds', f :: fs' => reread d f :: rereads ds' fs' | _, _ => [] end.
Lemma fits_len ds fs : fits ds fs -> length (flat_map fy fs) = Cont_Proofs.sizes ds.
Proof. induction 1 as [|d f ds fs L _ IH]; [reflexivity|]. cbn [flat_map]. rewrite app_length, IH, Cont_Proofs.sizes_cons, size_all. lia. Qed.
Lemma middle {T} (a b c : list T) n : length b = n -> firstn n (skipn (length a) (a ++ b ++ c)) = b.
Proof. intros <-. rewrite skipn_app, skipn_all, Nat.sub_diag. cbn [app]. rewrite skipn_O, firstn_app, Nat.sub_diag, firstn_all, firstn_O. apply app_nil_r. Qed.
Lemma next_offset n pre d post (x : nat) : n = length (pre ++ d :: post) -> x = Cont_Proofs.sizes (pre ++ d :: post) ->
  (if length pre <? n - 1 then nth_error (Cont_Model.offsets_from 0 (pre ++ d :: post)) (length pre + 1) else Some x) = Some (Cont_Proofs.sizes pre + Cont_Model.size d).
Proof.
  intros -> ->. rewrite app_length. cbn [length]. destruct post as [|e post].
  - cbn [length]. destruct (Nat.ltb_spec (length pre) (length pre + 1 - 1)) as [H|_]; [lia|]. rewrite Cont_Proofs.sizes_app, Cont_Proofs.sizes_cons. f_equal. unfold Cont_Proofs.sizes at 2. cbn. lia.
  - destruct (Nat.ltb_spec (length pre) (length pre + S (length (e :: post)) - 1)) as [_|H]; [|cbn in H; lia].
    pose proof (Cont_Proofs.offsets_nth (pre ++ [d]) 0 e post) as K. rewrite app_length, <- app_assoc in K. cbn [length app] in K. rewrite K, Cont_Proofs.sizes_app, Cont_Proofs.sizes_cons. f_equal. unfold Cont_Proofs.sizes at 2. cbn. lia.
Qed.
Lemma parameter_back n pre d post fpre f fpost : n = length (pre ++ d :: post) -> fits pre fpre -> length (fy f) = length (all_points d) ->
  parameter_of (map Cont_Model.px (flat_map Cont_Model.columns (pre ++ d :: post))) (flat_map fy (fpre ++ f :: fpost)) (Cont_Model.offsets_from 0 (pre ++ d :: post)) (length pre) n = Some (reread d f).
Proof.
  intros N FP L. unfold parameter_of. rewrite Cont_Proofs.offsets_nth. cbn [Nat.add].
  rewrite next_offset with (x := length (map Cont_Model.px (flat_map Cont_Model.columns (pre ++ d :: post)))); [|exact N | apply map_length].
  replace (Cont_Proofs.sizes pre + Cont_Model.size d - Cont_Proofs.sizes pre) with (Cont_Model.size d) by lia. unfold reread. f_equal. f_equal.
  - rewrite flat_map_app, map_app. cbn [flat_map]. rewrite map_app. replace (Cont_Proofs.sizes pre) with (length (map Cont_Model.px (flat_map Cont_Model.columns pre))) by apply map_length.
    apply middle. rewrite map_length. apply Cont_Proofs.size_columns.
  - rewrite flat_map_app. cbn [flat_map]. rewrite <- (fits_len _ _ FP). apply middle. now rewrite size_all.
Qed.
Lemma parameters_go n : forall post fpost pre fpre, n = length (pre ++ post) -> fits pre fpre -> fits post fpost ->
  Forall2 (fun i f => parameter_of (map Cont_Model.px (flat_map Cont_Model.columns (pre ++ post))) (flat_map fy (fpre ++ fpost)) (Cont_Model.offsets_from 0 (pre ++ post)) i n = Some f) (seq (length pre) (length post)) (rereads post fpost).
Proof.
  intros post fpost pre fpre N FP F. revert pre fpre N FP. induction F as [|d f post fpost L F IH]; intros pre fpre N FP; [constructor|].
  cbn [length seq rereads]. constructor; [now apply parameter_back|].
  specialize (IH (pre ++ [d]) (fpre ++ [f])). rewrite <- !app_assoc in IH. cbn [app] in IH. rewrite (app_length pre [d]) in IH. cbn [length] in IH. rewrite Nat.add_1_r in IH. apply IH; [exact N|].
  apply Forall2_app; [exact FP | constructor; [exact L | constructor]].
Qed.
Lemma parameters_back r k (es : list Qc) ds fs : length es = length ds -> fits ds fs -> nth_error r 0 = Some (map Cont_Model.px (flat_map Cont_Model.columns ds)) -> nth_error r k = Some (flat_map fy fs) ->
  parameters_of r k (Cont_Model.offsets_from 0 ds) (length es) = Some (rereads ds fs).
Proof.
  intros L F E0 EK. unfold parameters_of. rewrite E0, EK. apply Law_Proofs.some_all. pose proof (parameters_go (length es) ds fs [] [] L (Forall2_nil _) F) as H. cbn [app length] in H. rewrite <- L in H. exact H.
Qed.
Lemma rereads_kept ds fs : fits ds fs -> Forall3 kept_parameter ds fs (rereads ds fs).
Proof. induction 1 as [|d f ds fs L _ IH]; constructor; [|exact IH]. unfold kept_parameter, reread, linear. cbn. rewrite map_length. auto. Qed.

(** ** Correlated *)
Definition recosine (m : cosine) : cosine :=
  match m with
  | Iso => Cos Cont_Model.Histogram [(- (1), qc 1 2, 0)%Qc; (1, qc 1 2, 1)%Qc]
  | Lines l => Lines l
  | Cos i l => Cos (Cont_Proofs.as_plain i) l
  end.
Lemma recosine_kept m : kept_cosine m (recosine m).
Proof. destruct m; cbn; [auto | reflexivity | split; [reflexivity | apply scheme_kept]]. Qed.
Definition spread (ms : list (nat * list Cont_Model.point)) : nat := length (flat_map snd ms).
Lemma mu_offsets_nth : forall pre j m post, nth_error (mu_offsets j (pre ++ m :: post)) (length pre) = Some (j + spread pre).
Proof.
  induction pre as [|x pre IH]; intros j m post; cbn [app mu_offsets length nth_error]; [unfold spread; cbn; f_equal; lia|].
  rewrite IH. unfold spread. cbn [flat_map]. rewrite app_length. f_equal. lia.
Qed.
Lemma nth_qz (l : list nat) i j : nth_error l i = Some j -> nth_error (map (fun j => qz (Z.of_nat j)) l) i = Some (qz (Z.of_nat j)).
Proof. intros H. now rewrite (map_nth_error _ _ _ H). Qed.
Lemma int_nat j : Z.to_nat (int (qz (Z.of_nat j))) = j.
Proof. change (int (qz (Z.of_nat j))) with (Ang_Model.int (qz (Z.of_nat j))). rewrite Ang_Proofs.int_qz. apply Nat2Z.id. Qed.
Lemma cosine_back pre m post : cosine_fine m -> let ms := map tabular (pre ++ m :: post) in
  cosine_of (map (fun m => qz (Z.of_nat (fst m))) ms) (map (fun j => qz (Z.of_nat j)) (mu_offsets 0 ms)) (flat_map snd ms) (length pre) = Some (recosine m).
Proof.
  intros F ms. unfold cosine_of.
  assert (E : ms = map tabular pre ++ tabular m :: map tabular post) by (unfold ms; rewrite map_app; reflexivity).
  assert (C : nth_error (map (fun m => qz (Z.of_nat (fst m))) ms) (length pre) = Some (qz (Z.of_nat (fst (tabular m))))).
  { rewrite E. rewrite <- (map_length tabular pre). exact (Cont_Proofs.nth_mid (fun m => qz (Z.of_nat (fst m))) (map tabular pre) (tabular m) (map tabular post)). }
  assert (J : nth_error (map (fun j => qz (Z.of_nat j)) (mu_offsets 0 ms)) (length pre) = Some (qz (Z.of_nat (spread (map tabular pre))))).
  { apply nth_qz. rewrite E, <- (map_length tabular pre). apply mu_offsets_nth. }
  rewrite C, J, map_length.
  assert (X : (if length pre <? length ms - 1 then option_map (fun q => Z.to_nat (int q)) (nth_error (map (fun j => qz (Z.of_nat j)) (mu_offsets 0 ms)) (length pre + 1)) else Some (length (flat_map snd ms)))
    = Some (spread (map tabular pre) + length (snd (tabular m)))).
  { rewrite E. rewrite app_length, map_length. cbn [length]. destruct post as [|p post].
    - cbn [map length]. destruct (Nat.ltb_spec (length pre) (length pre + 1 - 1)) as [H|_]; [lia|]. f_equal. rewrite flat_map_app, app_length. cbn [flat_map]. rewrite app_nil_r. reflexivity.
    - destruct (Nat.ltb_spec (length pre) (length pre + S (length (map tabular (p :: post))) - 1)) as [_|H]; [|cbn in H; lia].
      rewrite nth_qz with (j := spread (map tabular pre) + length (snd (tabular m))); [cbn [option_map]; now rewrite int_nat|].
      pose proof (mu_offsets_nth (map tabular pre ++ [tabular m]) 0 (tabular p) (map tabular post)) as K. rewrite <- app_assoc in K. cbn [app] in K. rewrite app_length, map_length in K. cbn [length] in K. cbn [map]. rewrite K. f_equal. unfold spread. rewrite flat_map_app, app_length. cbn [flat_map]. rewrite app_nil_r. reflexivity. }
  rewrite X, int_nat. cbn zeta.
  assert (SL : Cont_Model.slice (flat_map snd ms) (spread (map tabular pre)) (spread (map tabular pre) + length (snd (tabular m))) = snd (tabular m)).
  { rewrite E, flat_map_app. cbn [flat_map]. apply Cont_Proofs.slice_mid. }
  rewrite SL. change (int (qz (Z.of_nat (fst (tabular m))))) with (Ang_Model.int (qz (Z.of_nat (fst (tabular m))))). rewrite Ang_Proofs.int_qz.
  destruct m as [|l|i l]; cbn [tabular fst snd recosine].
  - reflexivity.
  - cbn. cbn in F. apply Cont_Proofs.nonneg_ok in F. now rewrite F.
  - destruct i; reflexivity.
Qed.
Lemma cosines_run all : forall m pre post, all = pre ++ m ++ post -> Forall cosine_fine m -> let ms := map tabular all in
  Forall2 (fun c x => cosine_of (map (fun m => qz (Z.of_nat (fst m))) ms) (map (fun j => qz (Z.of_nat j)) (mu_offsets 0 ms)) (flat_map snd ms) c = Some x) (seq (length pre) (length m)) (map recosine m).
Proof.
  intros m pre post E F ms. revert pre E. induction F as [|x m Fx F IH]; intros pre E; [constructor|]. cbn [length seq map]. constructor.
  - unfold ms. rewrite E. cbn [app]. now apply cosine_back.
  - specialize (IH (pre ++ [x])). rewrite <- app_assoc in IH. cbn [app] in IH. specialize (IH E). rewrite app_length in IH. cbn [length] in IH. rewrite Nat.add_1_r in IH. exact IH.
Qed.
Definition paired (ds : list Cont_Model.dist) (mus : list (list cosine)) : Prop := Forall2 (fun d m => length m = length (all_points d)) ds mus.
Lemma paired_len ds mus : paired ds mus -> length (concat mus) = Cont_Proofs.sizes ds.
Proof. induction 1 as [|d m ds mus L _ IH]; [reflexivity|]. cbn [concat]. rewrite app_length, IH, Cont_Proofs.sizes_cons, size_all. lia. Qed.
Lemma paired_matching ds mus : paired ds mus -> matching ds mus = true.
Proof. induction 1 as [|d m ds mus L _ IH]; [reflexivity|]. cbn. now rewrite size_all, L, Nat.eqb_refl, IH. Qed.
Lemma cosines_go n all : forall post mpost pre mpre, n = length (pre ++ post) -> all = concat (mpre ++ mpost) -> paired pre mpre -> paired post mpost -> Forall (Forall cosine_fine) mpost ->
  let ms := map tabular all in
  Forall2 (fun i x => cosines_of (map (fun m => qz (Z.of_nat (fst m))) ms) (map (fun j => qz (Z.of_nat j)) (mu_offsets 0 ms)) (flat_map snd ms) (Cont_Model.offsets_from 0 (pre ++ post)) i n = Some x)
    (seq (length pre) (length post)) (map (map recosine) mpost).
Proof.
  intros post mpost pre mpre N A PP P. revert pre mpre N A PP. induction P as [|d m post mpost L P IH]; intros pre mpre N A PP F ms; [constructor|]. inversion F as [|? ? F1 F2]; subst.
  cbn [length seq map]. constructor.
  - unfold cosines_of. rewrite Cont_Proofs.offsets_nth. cbn [Nat.add]. rewrite next_offset; [|reflexivity|].
    + replace (Cont_Proofs.sizes pre + Cont_Model.size d - Cont_Proofs.sizes pre) with (Cont_Model.size d) by lia. apply Law_Proofs.some_all. rewrite size_all, <- L, <- (paired_len _ _ PP).
      apply (cosines_run _ m (concat mpre) (concat mpost)); [|exact F1]. rewrite concat_app. reflexivity.
    + unfold ms. rewrite !map_length. apply paired_len. apply Forall2_app; [exact PP | constructor; assumption].
  - specialize (IH (pre ++ [d]) (mpre ++ [m])). rewrite <- !app_assoc in IH. cbn [app] in IH. rewrite (app_length pre [d]) in IH. cbn [length] in IH. rewrite Nat.add_1_r in IH. apply IH; [reflexivity | reflexivity | | exact F2].
    apply Forall2_app; [exact PP | constructor; [exact L | constructor]].
Qed.

(** ** Distributions *)
Lemma look_app_ne {A} k k' (c : A) l : String.eqb k k' = false -> look k (l ++ [(k', c)]) = look k l.
Proof. intros K. induction l as [|[k0 x] l IH]; cbn; [now rewrite K|]. now rewrite IH. Qed.
Lemma look_app_eq {A} k (c : A) l : look k l = None -> look k (l ++ [(k, c)]) = Some c.
Proof. induction l as [|[k0 x] l IH]; cbn; [now rewrite String.eqb_refl|]. destruct (String.eqb k k0); [discriminate|exact IH]. Qed.
Definition base (app : option node) : node := match app with None => group | Some k => Node [] None [("applicability"%string, k)] end.
Ltac evaluate := cbn [kid attr look app create set_attr group String.eqb Ascii.eqb Bool.eqb str num integer nums ints nats rows pair_of value dataset option_map base].
Lemma law_back d o : law_fine d -> exists n d', law_node d (base o) = Some n /\ law_of n = Some d' /\ kept_law d d' /\ kid n "applicability"%string = o /\ (plain_law d -> d' = d).
Proof.
  destruct d as [[e|bp it es ds r s|bp it es ds mus|m k awr q] a]; cbn [law_fine law_node].
  - intros [FE FA].
    assert (EB : exists ne e', match e with None => ne = None | Some e => exists n, ne = Some n /\ energy_node e group = Some n end /\
      match ne with None => Some None | Some k => option_map Some (energy_of k) end = Some e' /\ both kept_energy e e' /\ (for_some plain_energy e -> e' = e)).
    { destruct e as [e|]; [|exists None, None; cbn; auto]. destruct (energy_back e FE) as (n & e' & A & B & C & D). exists (Some n), (Some e'). split; [eauto|]. cbn. rewrite B. split; [reflexivity|]. split; [exact C|]. intros P. now rewrite D. }
    assert (AB : exists na a', match a with None => na = None | Some a => exists n, na = Some n /\ angle_node a = Some n end /\
      match na with None => Some None | Some k => option_map Some (angle_of k) end = Some a' /\ both kept_angle a a' /\ (for_some (fun a => Forall Ang_Spec.plainly (snd a)) a -> a' = a)).
    { destruct a as [a|]; [|exists None, None; cbn; auto]. destruct (angle_back a FA) as (n & a' & A & B & C & D). exists (Some n), (Some a'). split; [eauto|]. cbn. rewrite B. split; [reflexivity|]. split; [exact C|]. intros P. now rewrite D. }
    destruct EB as (ne & e' & E1 & E2 & E3 & E4). destruct AB as (na & a' & A1 & A2 & A3 & A4).
    assert (G : exists n, match a with None => Some (set_attr "type" (VStr "uncorrelated") (base o)) | Some a => match angle_node a with Some k => create "angle" k (set_attr "type" (VStr "uncorrelated") (base o)) | None => None end end =
        Some (Node [("type", VStr "uncorrelated")]%string None n) /\ look "angle"%string n = na /\ look "energy"%string n = None /\ look "applicability"%string n = o).
    { destruct a as [a|].
      - destruct A1 as (n & -> & ->). destruct o; evaluate; eexists; repeat split.
      - subst na. destruct o; evaluate; eexists; repeat split. }
    destruct G as (kn & G1 & G2 & G3 & G4). rewrite G1.
    assert (H : exists n, match e with None => Some (Node [("type", VStr "uncorrelated")]%string None kn) | Some e => match energy_node e group with Some k => create "energy" k (Node [("type", VStr "uncorrelated")]%string None kn) | None => None end end =
        Some (Node [("type", VStr "uncorrelated")]%string None n) /\ look "angle"%string n = na /\ look "energy"%string n = ne /\ look "applicability"%string n = o).
    { destruct e as [e|].
      - destruct E1 as (n & -> & ->). cbn [create]. rewrite G3. eexists. split; [reflexivity|].
        rewrite (look_app_ne "angle"%string "energy"%string), (look_app_ne "applicability"%string "energy"%string) by reflexivity. split; [exact G2|]. split; [now apply look_app_eq | exact G4].
      - subst ne. eexists. split; [reflexivity|]. auto. }
    destruct H as (n & H1 & H2 & H3 & H4). rewrite H1. eexists. exists (Uncorrelated e', a'). split; [reflexivity|]. split.
    + unfold law_of. evaluate. rewrite H2, H3, E2, A2. reflexivity.
    + split; [split; assumption|]. split; [exact H4|]. intros [P Q]. now rewrite (E4 P), (A4 Q).
  - intros ((B & L & F) & FR & FS). unfold incident_node. rewrite B, Nat.eqb_refl, (parameters_written _ _ FR), (parameters_written _ _ FS). unfold spectra_node.
    assert (G : exists n, match o with None => True | Some _ => True end /\ (match create "energy" (Node [("interpolation", VPair bp it)]%string (Some (VNums es)) []) (set_attr "type" (VStr "kalbach-mann") (base o)) with
       | Some n => create "distribution" (spectra_value ds [flat_map fy r; flat_map fy s]) n | None => None end = Some n) /\ attr n "type"%string = Some (VStr "kalbach-mann") /\
       kid n "energy"%string = Some (Node [("interpolation", VPair bp it)]%string (Some (VNums es)) []) /\ kid n "distribution"%string = Some (spectra_value ds [flat_map fy r; flat_map fy s]) /\ kid n "applicability"%string = o).
    { destruct o; evaluate; eexists; repeat split. }
    destruct G as (n & _ & G1 & G2 & G3 & G4 & G5). unfold spectra_value in G1. destruct (create "energy" _ _) as [n0|]; [|discriminate]. rewrite G1. exists n. eexists. split; [reflexivity|]. split.
    + unfold law_of. rewrite G2. evaluate. unfold incident_of. rewrite G3. evaluate. erewrite (spectra_back false); [|exact G4 | exact L | exact F].
      erewrite parameters_back; [|exact L | exact FR | reflexivity | reflexivity]. erewrite parameters_back; [reflexivity | exact L | exact FS | reflexivity | reflexivity].
    + cbn [kept_law]. split; [repeat split; [now apply (kept_reads false) | now apply rereads_kept..]|]. split; [exact G5|]. intros (P & PR & PS & ->).
      assert (Q : forall fs, Forall2 plain_parameter ds fs -> rereads ds fs = fs) by (clear; induction 1 as [|d f ds fs H _ IH]; [reflexivity|]; cbn; rewrite IH; f_equal; symmetry; exact H).
      rewrite !Q by assumption. f_equal. f_equal. clear -P. induction P as [|d ds H P IH]; [reflexivity|]. cbn. now rewrite IH, Cont_Proofs.plainly_read.
  - intros ((B & L & F) & FM & FC & FF). unfold correlated_node, incident_node. rewrite B, Nat.eqb_refl.
    assert (HX : forallb has_x ds && matching ds mus = true).
    { rewrite (paired_matching _ _ FC), andb_true_r. apply forallb_forall. intros x X. rewrite Forall_forall in FM. specialize (FM x X). destruct x as [| |w u i c]; [reflexivity..|]. now destruct (FM w u i c). }
    rewrite HX. cbn zeta. unfold spectra_node. set (ms := map tabular (concat mus)).
    set (more := [map (fun m => qz (Z.of_nat (fst m))) ms; map (fun j => qz (Z.of_nat j)) (mu_offsets 0 ms)]).
    assert (G : exists n, (match create "energy" (Node [("interpolation", VPair bp it)]%string (Some (VNums es)) []) (set_attr "type" (VStr "correlated") (base o)) with
       | Some n => match create "energy_out" (spectra_value ds more) n with Some n => create "mu" (dataset (VRows (rows_of (flat_map snd ms)))) n | None => None end | None => None end = Some n) /\ attr n "type"%string = Some (VStr "correlated") /\
       kid n "energy"%string = Some (Node [("interpolation", VPair bp it)]%string (Some (VNums es)) []) /\ kid n "energy_out"%string = Some (spectra_value ds more) /\
       kid n "mu"%string = Some (dataset (VRows (rows_of (flat_map snd ms)))) /\ kid n "applicability"%string = o).
    { destruct o; evaluate; eexists; repeat split. }
    destruct G as (n & G1 & G2 & G3 & G4 & G5 & G6). unfold spectra_value in G1. destruct (create "energy" _ _) as [n0|]; [|discriminate]. rewrite G1. exists n. eexists. split; [reflexivity|]. split.
    + unfold law_of. rewrite G2. evaluate. unfold correlated_of, incident_of. rewrite G3. evaluate. erewrite (spectra_back true); [|exact G4 | exact L | exact F]. rewrite G5. evaluate.
      rewrite <- (app_nil_r (rows_of (flat_map snd ms))), points_back. unfold more. cbn [rows_of app nth_error].
      pose proof (cosines_go (length es) (concat mus) ds mus [] [] L eq_refl (Forall2_nil _) FC FF) as H. cbn [app length] in H. rewrite <- L in H. apply Law_Proofs.some_all in H. fold ms in H. rewrite H. reflexivity.
    + cbn [kept_law]. split; [repeat split; [now apply (kept_reads true)|]|].
      { clear. induction mus as [|m mus IH]; constructor; [|exact IH]. induction m as [|x m IHm]; constructor; [apply recosine_kept | exact IHm]. }
      split; [exact G6|]. intros (P & PC & ->). f_equal. f_equal.
      * clear -P. induction P as [|d ds H P IH]; [reflexivity|]. cbn. now rewrite IH, Cont_Proofs.plainly_read.
      * clear -PC. induction PC as [|m mus H _ IH]; [reflexivity|]. cbn. rewrite IH. f_equal. induction H as [|x m Hx _ IHm]; [reflexivity|]. cbn. rewrite IHm. f_equal. destruct x as [|l|i l]; [contradiction | reflexivity|]. destruct Hx as [->| ->]; reflexivity.
  - intros (M & K & A). eexists. exists (NBody m k awr q, None). split; [reflexivity|]. split; [|split; [split; reflexivity|split; [destruct o; reflexivity | intros P; cbn in P; now rewrite P]]].
    destruct o; unfold law_of; evaluate; apply qltb_lt in M, A; apply Z.ltb_lt in K; rewrite M, A, K; reflexivity.
Qed.

(** ** Products *)
Lemma digits_inj i j : digits i = digits j -> i = j.
Proof.
  unfold digits. intros H. assert (E : forall d, NilZero.uint_of_string (NilZero.string_of_uint (Nat.to_uint d)) = Some (Nat.to_uint d)).
  { intros d. rewrite NilZero.usu; [reflexivity|]. intros N. pose proof (f_equal Nat.of_uint N) as X. rewrite DecimalNat.Unsigned.of_to in X. cbn in X. subst d. discriminate. }
  pose proof (E i) as A. rewrite H, E in A. injection A as A. apply (f_equal Nat.of_uint) in A. rewrite !DecimalNat.Unsigned.of_to in A. now symmetry.
Qed.
Lemma append_inj p a b : String.append p a = String.append p b -> a = b.
Proof. induction p as [|c p IH]; [auto|]. cbn. intros H. injection H as H. now apply IH. Qed.
Lemma numbered_eqb p i j : String.eqb (numbered p i) (numbered p j) = (i =? j).
Proof.
  destruct (Nat.eqb_spec i j) as [->|N]; [apply String.eqb_refl|]. apply String.eqb_neq. intros H. apply N. apply digits_inj. now apply append_inj in H.
Qed.
Definition app_at (app : list fn) (i : nat) : option fn := match app with [] => None | _ => nth_error app i end.
Definition app_node (o : option fn) : option node := match o with Some f => fn_node f | None => None end.
Definition base_of (app : list fn) (i : nat) : option node :=
  match app with [] => Some group | _ => match nth_error app i with Some f => match fn_node f with Some k => create "applicability" k group | None => None end | None => None end end.
Lemma base_ok app i : (app = [] \/ i < length app) -> Forall fn_fine app -> exists o, base_of app i = Some (base o) /\
  match o with None => Some None | Some k => option_map Some (fn_of k) end = Some (app_at app i).
Proof.
  intros H F. unfold base_of, app_at. destruct app as [|f app]; [exists None; auto|]. destruct H as [H|H]; [discriminate|].
  destruct (nth_error (f :: app) i) as [g|] eqn:E; [|apply nth_error_None in E; cbn in *; lia]. apply nth_error_In in E. rewrite Forall_forall in F. destruct (fn_back g (F g E)) as (n & A & B). rewrite A. exists (Some n). split; [reflexivity|]. cbn. now rewrite B.
Qed.
Lemma dists_back app : Forall fn_fine app -> forall ds i attrs d0 ks, Forall law_fine ds -> (app = [] \/ i + length ds <= length app) ->
  (forall j, i <= j -> look (numbered "distribution_" j) ks = None) ->
  exists ks' l, write_dists i app ds (Node attrs d0 ks) = Some (Node attrs d0 (ks ++ ks')) /\ (forall k, (forall j, i <= j -> String.eqb k (numbered "distribution_" j) = false) -> look k (ks ++ ks') = look k ks) /\
    (forall a d, Forall2 (fun j x => read_dist (Node a d (ks ++ ks')) j = Some x) (seq i (length ds)) l) /\ Forall2 kept_law ds (map fst l) /\ map snd l = map (app_at app) (seq i (length ds)) /\ (Forall plain_law ds -> map fst l = ds).
Proof.
  intros FA. induction ds as [|d ds IH]; intros i attrs d0 ks F N K.
  - exists [], []. rewrite app_nil_r. cbn. repeat split; auto; constructor.
  - inversion F as [|? ? F1 F2]; subst. cbn [write_dists length].
    destruct (base_ok app i) as (o & B1 & B2); [destruct N as [N|N]; [now left | right; cbn in N; lia] | exact FA|]. unfold base_of in B1. rewrite B1.
    destruct (law_back d o F1) as (n & d' & L1 & L2 & L3 & L4 & L5). rewrite L1. cbn [create]. rewrite K by lia.
    destruct (IH (S i) attrs d0 (ks ++ [(numbered "distribution_" i, n)]) F2) as (ks' & l & W & O & R & KL & AP & PL).
    { destruct N as [N|N]; [now left | right; cbn in N; lia]. }
    { intros j J. rewrite look_app_ne; [apply K; lia|]. rewrite numbered_eqb. apply Nat.eqb_neq. lia. }
    rewrite <- app_assoc in *. cbn [Datatypes.app] in *. exists ((numbered "distribution_" i, n) :: ks'), ((d', app_at app i) :: l). split; [exact W|]. split.
    { intros k H. rewrite O by (intros j J; apply H; lia). apply look_app_ne. apply H. lia. }
    split.
    { intros a e. cbn [seq]. constructor; [|apply R]. unfold read_dist. cbn [kid]. rewrite O by (intros j J; rewrite numbered_eqb; apply Nat.eqb_neq; lia).
      rewrite look_app_eq by (apply K; lia). rewrite L4, B2, L2. reflexivity. }
    split; [constructor; assumption|]. split; [cbn [map seq snd]; now rewrite AP|]. intros P. inversion P; subst. cbn. rewrite PL by assumption. f_equal. now apply L5.
Qed.
Lemma apps_kept app : forall n i, (app = [] \/ i + n <= length app) -> flat_map (fun o : option fn => match o with Some f => [f] | None => [] end) (map (app_at app) (seq i n)) = firstn n (skipn i app).
Proof.
  induction n as [|n IH]; intros i H; [reflexivity|]. cbn [seq map flat_map]. rewrite IH by (destruct H; [now left | right; lia]). unfold app_at. destruct app as [|f app]; [rewrite !skipn_nil, !firstn_nil; reflexivity|]. destruct H as [H|H]; [discriminate|].
  set (l := f :: app) in *. clearbody l. clear IH f app. revert l H. induction i as [|i IHi]; intros l H.
  - destruct l as [|x l]; [cbn in H; lia | reflexivity].
  - destruct l as [|x l]; [cbn in H; lia|]. cbn [nth_error skipn]. apply IHi. cbn in H. lia.
Qed.
Lemma particle_back b : particle_of (particle b) = Some b. Proof. destruct b; reflexivity. Qed.
Lemma mode_back m : mode_of (mode_name m) = Some m. Proof. destruct m; reflexivity. Qed.
Lemma product_back p : product_fine p -> exists n p', product_node p group = Some n /\ product_of n = Some p' /\ kept_product p p' /\ (plain_product p -> p' = p).
Proof.
  intros (R & Y & D & A & AF). unfold product_node. destruct (yield_back _ Y) as (y & Y1 & Y2). rewrite Y1.
  set (n0 := if qltb 0 (p_rate p) then _ else _).
  assert (N0 : exists at0, n0 = Node at0 None [] /\ look "particle"%string at0 = Some (VStr (particle (p_neutron p))) /\ look "emission_mode"%string at0 = Some (VStr (mode_name (p_mode p))) /\
    match look "decay_rate"%string at0 with None => Some 0%Qc | Some v => num (Some v) end = Some (p_rate p)).
  { unfold n0. destruct (qltb 0 (p_rate p)) eqn:Q; eexists; (split; [reflexivity|]); cbn [look String.eqb Ascii.eqb Bool.eqb num]; repeat split.
    f_equal. apply Qcle_antisym; [exact R|]. apply Qcnot_lt_le. intros H. apply qltb_lt in H. congruence. }
  destruct N0 as (at0 & -> & AP & AM & AR). cbn [create look app set_attr].
  destruct (dists_back (p_app p) AF (p_dist p) 0 (("n_distribution"%string, VInt (Z.of_nat (length (p_dist p)))) :: at0) None [("yield"%string, y)] D A) as (ks & l & W & O & RD & KL & SN & PL).
  { intros j _. cbn [look]. change (String.eqb (numbered "distribution_" j) "yield") with false. reflexivity. }
  rewrite W. eexists. eexists. split; [reflexivity|]. split.
  - unfold product_of. cbn [attr look String.eqb Ascii.eqb Bool.eqb]. rewrite AP, AM. cbn [str]. rewrite particle_back, mode_back, AR.
    destruct (qltb (p_rate p) 0) eqn:Q; [apply qltb_lt in Q; destruct (Qclt_not_le _ _ Q R)|]. cbn [kid]. rewrite O by (intros j _; reflexivity). cbn [look String.eqb Ascii.eqb Bool.eqb]. rewrite Y2. cbn [integer]. rewrite Nat2Z.id.
    rewrite (Law_Proofs.some_all _ _ _ (RD _ _)). reflexivity.
  - assert (E : flat_map (fun d : (law * option angle) * option fn => match snd d with Some f => [f] | None => [] end) l = firstn (length (p_dist p)) (p_app p)).
    { rewrite <- (apps_kept (p_app p) (length (p_dist p)) 0 A) at 1. rewrite <- SN. clear. induction l as [|x l IH]; [reflexivity|]. cbn. now rewrite IH. }
    rewrite E. split; [repeat split; exact KL|]. intros [P LE]. rewrite (PL P), firstn_all2 by exact LE. now destruct p.
Qed.

(** ** From an ACE table *)
Lemma over_ev (t : Qc) u : (u * ev)%Qc = t -> (0 <= t)%Qc -> (0 <= u)%Qc.
Proof. intros E H. apply Qcnot_lt_le. intros N. apply (Qcmult_lt_compat_r _ _ ev Law_Proofs.ev_pos) in N. rewrite E, Qcmult_0_l in N. apply (Qclt_not_le _ _ N H). Qed.
Lemma per_ev_nonneg cs c : Forall2 (Cont_Spec.per_ev ev) cs c -> Law_Spec.nonnegative cs -> Cont_Spec.nonnegative c.
Proof. intros F. induction F as [|t u cs c (_ & E & _) F IH]; intros N; constructor; [|apply IH; intros x X; apply N; now right]. apply (over_ev _ _ E). apply N. now left. Qed.
Lemma in_ev_nonneg cs c : Forall2 (Cont_Spec.in_ev ev) cs c -> Law_Spec.nonnegative cs -> Cont_Spec.nonnegative c.
Proof. intros F. induction F as [|t u cs c (_ & E & _) F IH]; intros N; constructor; [|apply IH; intros x X; apply N; now right]. rewrite E. apply N. now left. Qed.
Lemma F2_nil {A B} (P : A -> B -> Prop) l l' : Forall2 P l l' -> l <> [] -> l' <> [].
Proof. intros F N ->. inversion F; subst. now apply N. Qed.
Lemma in_ev_weight ls a w : Forall2 (Cont_Spec.in_ev ev) ls a -> Cont_Spec.lines_weight ls w -> Cont_Spec.lines_weight a w.
Proof.
  intros F (t & r & -> & ->). apply Forall2_app_inv_l in F. destruct F as (r' & l' & F1 & F2 & ->). inversion F2 as [|? u ? l'' (_ & _ & E) F3]; subst. inversion F3; subst. exists u, r'. auto.
Qed.
Lemma spectrum_fit any s d : sp_fine s -> sp_stored any s -> spectrum_read s d -> fit any d.
Proof.
  intros [_ NL] (NE & P & W) R. unfold spectrum_read in R. destruct d as [i l|l|w a i c]; cbn [Cont_Spec.ace_dist fit Cont_Spec.fit] in *.
  - destruct R as (E & _ & F). unfold sp_points in NE. rewrite E in NE. cbn in NE. split; [now apply (F2_nil _ _ _ F)|]. destruct P as [P|P]; [now left | right; now apply (per_ev_nonneg _ _ F)].
  - destruct R as (N & _ & F). split; [now apply (F2_nil _ _ _ F) | now apply (in_ev_nonneg _ _ F)].
  - destruct R as (N1 & N2 & _ & FA & FC & _). destruct (W N1 N2) as (NC & p & LW & B1 & B2). split; [now apply (in_ev_nonneg _ _ FA)|]. split; [now apply (per_ev_nonneg _ _ FC)|]. split; [now apply (F2_nil _ _ _ FC)|].
    exists p. split; [now apply (in_ev_weight _ _ _ FA)|]. auto.
Qed.
Lemma spectrum_size s d : spectrum_read s d -> length (all_points d) = length (sp_points s).
Proof.
  unfold spectrum_read, sp_points. rewrite app_length. destruct d as [i l|l|w a i c]; cbn [Cont_Spec.ace_dist all_points].
  - intros (E & _ & F). rewrite E. cbn. symmetry. now apply Law_Proofs.F2_len in F.
  - intros (_ & E & F). rewrite E. cbn. apply Law_Proofs.F2_len in F. lia.
  - intros (_ & _ & _ & FA & FC & _). rewrite app_length. apply Law_Proofs.F2_len in FA, FC. lia.
Qed.
Lemma spectra_fits any ss ds : Forall2 spectrum_read ss ds -> (forall s, In s ss -> sp_fine s /\ sp_stored any s) -> Forall (fit any) ds.
Proof. intros F. induction F as [|s d ss ds R F IH]; intros H; constructor; [|apply IH; intros x X; apply H; now right]. destruct (H s (or_introl eq_refl)). now apply (spectrum_fit any s). Qed.
Lemma regions_len i bp it : in_fine i -> regions_of i bp it -> length bp = length it.
Proof. intros F [(_ & -> & ->)|(_ & -> & ->)]; [reflexivity | symmetry; exact F]. Qed.
Lemma same_fine k f f' : Nubar_Spec.table_fine f -> same_fn k f f' -> fn_fine f'.
Proof. intros [_ L] (X & _ & _ & Y). unfold fn_fine. rewrite X, Y. cbn. rewrite !map_length. now symmetry. Qed.
Lemma energies_len i es : energies_of i es -> length es = length (in_es i).
Proof. intros ->. apply map_length. Qed.
Lemma F2_both {A B C} (P : A -> B -> Prop) (Q : A -> C -> Prop) (R : B -> C -> Prop) l m n : Forall2 P l m -> Forall2 Q l n -> (forall a b c, In a l -> P a b -> Q a c -> R b c) -> Forall2 R m n.
Proof. intros F. revert n. induction F as [|a b l m Pa F IH]; intros n G H; inversion G; subst; constructor; [apply (H a); auto; now left | apply IH; [assumption|]; intros; apply (H a0); auto; now right]. Qed.
Lemma told_fine awr x l start q t d : law_stands x l start t -> Law_Spec.law_fine awr t -> told_stored t -> law_read awr q t d -> law_fine (d, None).
Proof.
  intros (next & number & place & _ & _ & D) F T R. destruct t as [p e|th ra|i out|f u|f u|a b u|i out|i out|n m]; destruct d as [[[]|]| | |]; cbn [law_read] in R; try contradiction; cbn [law_fine for_some energy_fine]; (split; [|exact I]) || idtac; try exact I.
  - destruct R as (R1 & R2 & R3). destruct F as [F1 F2]. destruct D as (locs & L & _ & LF). split; [now apply (regions_len i)|]. split.
    + rewrite (energies_len _ _ R2), <- L, (Law_Proofs.F2_len _ _ _ LF). now apply Law_Proofs.F2_len in R3.
    + apply (spectra_fits false out); [exact R3|]. intros s S. split; [now apply F2|]. cbn in T. rewrite Forall_forall in T. now apply T.
  - destruct R as [R _]. now apply (same_fine ev f).
  - destruct R as [R _]. now apply (same_fine ev f).
  - destruct R as (R1 & R2 & _). destruct F as [F1 F2]. split; [now apply (same_fine ev a) | now apply (same_fine (/ ev) b)].
  - destruct R as (R1 & R2 & R3 & R4 & R5). destruct F as [F1 F2]. destruct D as (locs & L & _ & LF). split; [split; [now apply (regions_len i)|split]|].
    + rewrite (energies_len _ _ R2), <- L, (Law_Proofs.F2_len _ _ _ LF). apply Law_Proofs.F2_len in R3. now rewrite map_length in R3.
    + apply (spectra_fits false (map fst out)); [exact R3|]. intros s S. apply in_map_iff in S. destruct S as (y & <- & Y). split; [now apply F2|]. cbn in T. rewrite Forall_forall in T. now apply T.
    + assert (R3' : Forall2 (fun s d => spectrum_read (fst s) d) out out0) by (clear -R3; revert out0 R3; induction out as [|y out IH]; intros ds R3; inversion R3; subst; constructor; [assumption | now apply IH]).
      split; [apply (F2_both _ _ _ _ _ _ R3' R4) | apply (F2_both _ _ _ _ _ _ R3' R5)]; intros s d f S A (_ & E & _); rewrite E, (spectrum_size _ _ A); apply F2; exact S.
  - destruct R as (R1 & R2 & R3 & R4). destruct F as [F1 F2]. destruct D as (locs & L & _ & LF). cbn in T. rewrite Forall_forall in T.
    assert (R3' : Forall2 (fun s d => spectrum_read (fst s) d) out out0) by (clear -R3; revert out0 R3; induction out as [|y out IH]; intros ds R3; inversion R3; subst; constructor; [assumption | now apply IH]).
    split; [split; [now apply (regions_len i)|split]|].
    + rewrite (energies_len _ _ R2), <- L, (Law_Proofs.F2_len _ _ _ LF). now apply Law_Proofs.F2_len in R3'.
    + apply (spectra_fits true (map fst out)); [exact R3|]. intros s S. apply in_map_iff in S. destruct S as (y & <- & Y). split; [now apply F2|]. now apply T.
    + split; [|split].
      * apply Forall_forall. intros y Y w a i0 c ->. revert Y. revert T. clear -R3'. induction R3' as [|s d out ds R F IH]; intros T Y; [contradiction|]. destruct Y as [->|Y]; [|apply IH; [intros z Z; apply T; now right | exact Y]].
        destruct (T s (or_introl eq_refl)) as [_ X]. unfold spectrum_read in R. cbn [Cont_Spec.ace_dist] in R. destruct R as (N1 & N2 & _). destruct X; contradiction.
      * apply (F2_both _ _ _ _ _ _ R3' R4). intros s d m S A B. rewrite (spectrum_size _ _ A). destruct (F2 s S) as (_ & E & _). rewrite <- E. symmetry. now apply Law_Proofs.F2_len in B.
      * clear -R4. induction R4 as [|s m out mus R _ IH]; constructor; [|exact IH]. clear -R. induction R as [|y c l' m R _ IH]; constructor; [|exact IH]. destruct y as [[k pts]|], c; cbn in R |- *; try contradiction; exact I.
  - destruct R as (-> & -> & -> & _). destruct F as (A & B & C). auto.
Qed.
Lemma ace_kept awr x l start q t : law_stands x l start t -> Law_Spec.law_fine awr t -> told_stored t -> (forall n m, t = TNBody n m -> q <> None) ->
  exists d n d', law_from_ace awr x l start q = Some d /\ law_read awr q t d /\ law_node (d, None) group = Some n /\ law_of n = Some d' /\ kept_law (d, None) d'.
Proof.
  intros S F T Q. destruct (Law_Proofs.reads awr x l start q t S F Q) as (d & E & R). destruct (law_back (d, None) None (told_fine _ _ _ _ _ _ _ S F T R)) as (n & d' & A & B & C & _).
  exists d, n, d'. auto.
Qed.

(** ** Lost *)
Lemma turn_neg es pre d post v i c t : length es = length (pre ++ d :: post) -> continuous_in d i c -> In t c -> (Cont_Model.pp t < 0)%Qc ->
  turn false (Cont_Model.to_hdf5 es [] (pre ++ d :: post)) v (length pre) (length es) = None.
Proof.
  intros L CI IT NG. set (f := Cont_Model.to_hdf5 es [] (pre ++ d :: post)). unfold turn.
  assert (O : nth_error (Cont_Model.f_offsets f) (length pre) = Some (Cont_Proofs.sizes pre)) by exact (Cont_Proofs.offsets_nth pre 0 d post).
  assert (M : nth_error (Cont_Model.f_discrete f) (length pre) = Some (Cont_Model.lines_of d)) by apply Cont_Proofs.nth_mid.
  assert (S1 : nth_error (Cont_Model.f_schemes f) (length pre) = Some (Cont_Model.scheme_of d)) by apply Cont_Proofs.nth_mid.
  assert (PL : Cont_Model.f_pairs f = flat_map Cont_Model.columns pre ++ Cont_Model.columns d ++ flat_map Cont_Model.columns post) by (unfold f, Cont_Model.to_hdf5; cbn [Cont_Model.f_pairs]; now rewrite flat_map_app).
  assert (NX : (if length pre <? length es - 1 then nth_error (Cont_Model.f_offsets f) (length pre + 1) else Some (length (Cont_Model.f_pairs f))) = Some (Cont_Proofs.sizes pre + Cont_Model.size d))
    by (apply next_offset; [exact L | reflexivity]).
  rewrite O, M, NX. cbn zeta. replace (Cont_Proofs.sizes pre + Cont_Model.size d - Cont_Proofs.sizes pre) with (Cont_Model.size d) by lia. rewrite S1.
  assert (NN : Cont_Model.nonneg c = false).
  { destruct (Cont_Model.nonneg c) eqn:E; [|reflexivity]. apply Cont_Proofs.nonneg_ok in E. unfold Cont_Spec.nonnegative in E. rewrite Forall_forall in E. destruct (Qclt_not_le _ _ NG (E t IT)). }
  assert (SL : Cont_Model.lines_of d < Cont_Model.size d /\ Cont_Model.slice (Cont_Model.f_pairs f) (Cont_Proofs.sizes pre + Cont_Model.lines_of d) (Cont_Proofs.sizes pre + Cont_Model.size d) = c).
  { assert (LC : 0 < length c) by (destruct c; [contradiction | cbn; lia]). rewrite PL. destruct CI as [->|(w & a & ->)]; cbn [Cont_Model.lines_of Cont_Model.size Cont_Model.columns].
    - split; [exact LC|]. rewrite Nat.add_0_r. apply Cont_Proofs.slice_mid.
    - split; [lia|]. replace (Cont_Proofs.sizes pre + length a) with (length (flat_map Cont_Model.columns pre ++ a)) by (rewrite app_length; reflexivity).
      replace (Cont_Proofs.sizes pre + (length a + length c)) with (length (flat_map Cont_Model.columns pre ++ a) + length c) by (rewrite app_length; unfold Cont_Proofs.sizes; lia).
      rewrite <- app_assoc, app_assoc. apply Cont_Proofs.slice_mid. }
  destruct SL as [LT SL]. rewrite SL, NN. apply Nat.ltb_lt in LT. rewrite LT. cbn [orb].
  destruct (if 0 <? Cont_Model.lines_of d then _ else _); [|reflexivity]. destruct (Cont_Model.scheme_at (Cont_Model.scheme_of d)); reflexivity.
Qed.
Lemma turns_none b f n i : forall is v, In i is -> (forall v, turn b f v i n = None) -> turns b f v is n = None.
Proof. induction is as [|j is IH]; intros v I0 H; [contradiction|]. cbn [turns]. destruct I0 as [->|I0]; [now rewrite H|]. destruct (turn b f v j n) as [[d v']|]; [|reflexivity]. now rewrite IH. Qed.
Lemma spectra_lost name es ds more n d i c t : kid n name = Some (spectra_value ds more) -> length es = length ds -> In d ds -> continuous_in d i c -> In t c -> (Cont_Model.pp t < 0)%Qc -> spectra_of false name es n = None.
Proof.
  intros K L D C T P. unfold spectra_of. rewrite K. unfold spectra_value. cbn [attr look String.eqb Ascii.eqb Bool.eqb nats rows value]. rewrite points_back.
  apply in_split in D. destruct D as (pre & post & ->). pose proof (turns_none false (Cont_Model.to_hdf5 es [] (pre ++ d :: post)) (length es) (length pre) (seq 0 (length es)) (Cont_Model.mkVars None None)) as H.
  unfold Cont_Model.to_hdf5 in H at 2. rewrite H; [reflexivity | |].
  - apply in_seq. rewrite L, app_length. cbn. lia.
  - intros v. now apply (turn_neg es pre d post v i c t).
Qed.
Lemma kalbach_lost bp it es ds r s a n d i c t : law_node (Kalbach bp it es ds r s, a) group = Some n -> length es = length ds -> In d ds -> continuous_in d i c -> In t c -> (Cont_Model.pp t < 0)%Qc -> law_of n = None.
Proof.
  intros N L D C T P. cbn [law_node] in N. unfold incident_node in N. destruct (length bp =? length it); [|discriminate]. cbn [create set_attr group look] in N.
  destruct (parameters ds r) as [vr|]; [|discriminate]. destruct (parameters ds s) as [vs|]; [|discriminate]. unfold spectra_node in N. cbn [create look app String.eqb Ascii.eqb Bool.eqb] in N. injection N as <-.
  unfold law_of. evaluate. unfold incident_of. evaluate. erewrite spectra_lost; [reflexivity | reflexivity | exact L | exact D | exact C | exact T | exact P].
Qed.
Lemma continuous_lost bp it es ds n d i c t : law_node (Uncorrelated (Some (Continuous bp it es ds)), None) group = Some n -> length es = length ds -> In d ds -> continuous_in d i c -> In t c -> (Cont_Model.pp t < 0)%Qc -> law_of n = None.
Proof.
  intros N L D C T P. cbn [law_node energy_node] in N. unfold incident_node in N. destruct (length bp =? length it); [|discriminate]. unfold spectra_node in N. cbn [create set_attr group look app String.eqb Ascii.eqb Bool.eqb] in N. injection N as <-.
  unfold law_of. evaluate. unfold energy_of. evaluate. unfold incident_of. evaluate. erewrite spectra_lost; [reflexivity | reflexivity | exact L | exact D | exact C | exact T | exact P].
Qed.
Lemma read_negative s d : spectrum_read s d -> sp_lines s <> [] \/ sp_cont s <> [] -> ~ Law_Spec.nonnegative (sp_cont s) -> exists i c t, continuous_in d i c /\ In t c /\ (Cont_Model.pp t < 0)%Qc.
Proof.
  intros R _ N.
  assert (E : exists t, In t (sp_cont s) /\ (Cont_Model.pp t < 0)%Qc).
  { destruct (Cont_Model.nonneg (sp_cont s)) eqn:E; [apply Law_Proofs.nonneg_iff in E; contradiction|]. clear -E. unfold Cont_Model.nonneg in E. induction (sp_cont s) as [|x l IH]; [discriminate|]. cbn [forallb] in E.
    destruct (qleb_spec 0 (Cont_Model.pp x)) as [_|Q]; [destruct IH as (t & A & B); [exact E | exists t; split; [now right | exact B]] | exists x; split; [now left | now apply Qcnot_le_lt]]. }
  destruct E as (t & T & P).
  assert (G : forall cs c, Forall2 (Cont_Spec.per_ev ev) cs c -> In t cs -> exists u, In u c /\ (Cont_Model.pp u < 0)%Qc).
  { intros cs c F. induction F as [|a b cs c (_ & E & _) F IH]; intros I0; [contradiction|]. destruct I0 as [->|I0]; [|destruct (IH I0) as (u & A & B); exists u; split; [now right | exact B]].
    exists b. split; [now left|]. apply Qcnot_le_lt. intros H. apply (Qclt_not_le _ _ P). rewrite <- E. replace 0%Qc with (0 * ev)%Qc by ring. apply Qcmult_le_compat_r; [exact H | discriminate]. }
  unfold spectrum_read in R. destruct d as [i l|l|w a i c]; cbn [Cont_Spec.ace_dist] in R.
  - destruct R as (_ & _ & F). destruct (G _ _ F T) as (u & A & B). exists i, l, u. split; [now left | auto].
  - destruct R as (_ & E & _). rewrite E in T. contradiction.
  - destruct R as (_ & _ & _ & _ & F & _). destruct (G _ _ F T) as (u & A & B). exists i, c, u. split; [right; now exists w, a | auto].
Qed.
Lemma ace_lost awr x l start q i out s : law_stands x l start (TKalbach i out) -> Law_Spec.law_fine awr (TKalbach i out) -> In s out -> ~ Law_Spec.nonnegative (sp_cont (fst s)) ->
  exists d n, law_from_ace awr x l start q = Some d /\ law_node (d, None) group = Some n /\ law_of n = None.
Proof.
  intros S F I0 N. destruct (Law_Proofs.reads awr x l start q _ S F) as (d & E & R); [discriminate|]. destruct d as [| bp it es ds r a | |]; cbn [law_read] in R; try contradiction. destruct R as (R1 & R2 & R3 & R4 & R5). destruct F as [F1 F2].
  destruct S as (next & number & place & _ & _ & locs & L & _ & LF).
  assert (R3' : Forall2 (fun s d => spectrum_read (fst s) d) out ds) by (clear -R3; revert ds R3; induction out as [|y out IH]; intros ds R3; inversion R3; subst; constructor; [assumption | now apply IH]).
  assert (FR : fits ds r /\ fits ds a).
  { split; [apply (F2_both _ _ _ _ _ _ R3' R4) | apply (F2_both _ _ _ _ _ _ R3' R5)]; intros s' d f S A (_ & X & _); rewrite X, (spectrum_size _ _ A); apply F2; exact S. }
  destruct FR as [FR FS].
  assert (W : exists n, law_node (Kalbach bp it es ds r a, None) group = Some n).
  { cbn [law_node]. unfold incident_node. rewrite (regions_len _ _ _ F1 R1), Nat.eqb_refl, (parameters_written _ _ FR), (parameters_written _ _ FS). eexists. reflexivity. }
  destruct W as (n & W). exists (Kalbach bp it es ds r a), n. split; [exact E|]. split; [exact W|].
  assert (X : exists d, In d ds /\ spectrum_read (fst s) d).
  { clear -R3' I0. induction R3' as [|y d out ds A F IH]; [contradiction|]. destruct I0 as [->|I0]; [exists d; split; [now left | exact A]|]. destruct (IH I0) as (d' & B & C). exists d'. split; [now right | exact C]. }
  destruct X as (d & D & RD). destruct (read_negative _ _ RD) as (j & c & t & C & T & P); [|exact N|].
  - right. intros E0. apply N. rewrite E0. intros t [].
  - apply (kalbach_lost _ _ _ _ _ _ _ _ d j c t W); auto. rewrite (energies_len _ _ R2), <- L, (Law_Proofs.F2_len _ _ _ LF). now apply Law_Proofs.F2_len in R3'.
Qed.
