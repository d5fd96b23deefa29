(** Reading cross sections, proofs: tables that are read without failure, and one that fails. *)
From Coq Require Import ZArith QArith Qcanon List Bool Arith Lia.
From Verif Require Import Num Neut_Model Neut_Spec Neut_Proofs NeutSum_Proofs NeutAll_Proofs NeutFinal_Proofs.
From Verif Require AceEdit_Model Sums_Model Sums_Spec Sums_Proofs.
Import ListNotations.
Local Open Scope Z_scope.
Local Notation lookup := AceEdit_Model.lookup.

(** *** A laid out table *)
Lemma stands_in x p l i v : stands x p l -> nth_error l i = Some v -> stands x (p + Z.of_nat i) [v].
Proof.
  intros H E. pose proof (err_lt _ _ _ E) as L. apply stands_iff in H as (P & B & H). apply stands_iff. cbn [length]. split; [lia|]. split; [lia|].
  intros [|j] Hj; [|lia]. specialize (H i L). rewrite E in H. cbn [nth_error]. rewrite <- H. f_equal. lia.
Qed.
Lemma concat_block l : forall i h, nth_error l i = Some h -> exists w, concat (map block l) = concat (map block (firstn i l)) ++ block h ++ w.
Proof.
  induction l as [|h' l IH]; intros [|i] h E; cbn [nth_error] in E; try discriminate.
  - inversion E; subst h'. eexists. reflexivity.
  - destruct (IH i h E) as (w & Ew). exists w. cbn [firstn map concat]. now rewrite Ew, <- app_assoc.
Qed.
Lemma offset_S l i h : nth_error l i = Some h -> offset l (S i) = (offset l i + 2 + length (c_values h))%nat.
Proof.
  revert i. induction l as [|h' l IH]; intros [|i] E; cbn [nth_error] in E; try discriminate.
  - inversion E; subst h'. unfold offset. cbn [firstn map concat length]. rewrite app_length. cbn [length block]. lia.
  - unfold offset in *. change (firstn (S (S i)) (h' :: l)) with (h' :: firstn (S i) l). change (firstn (S i) (h' :: l)) with (h' :: firstn i l). cbn [map concat]. rewrite !app_length, (IH i E). lia.
Qed.
Lemma offset_mono l i j : (i <= j)%nat -> (offset l i <= offset l j)%nat.
Proof.
  revert i j. induction l as [|h l IH]; intros [|i] [|j] L; unfold offset in *; cbn [firstn map concat length]; try lia.
  rewrite !app_length. specialize (IH i j ltac:(lia)). lia.
Qed.
Section Lay.
Variable c : content.
Hypothesis K : consistent c.
Local Notation N := (Z.of_nat (length (c_grid c))).
Local Notation k := (Z.of_nat (length (c_channels c))).
Lemma lay_grid : stands (xss (lay c)) (jxs (lay c) 1) (c_grid c ++ c_total c ++ c_abs c ++ c_elastic c).
Proof. eexists [0%Qc], _. split; [reflexivity|reflexivity]. Qed.
Lemma lay_iso : stands (xss (lay c)) (jxs (lay c) 8) [qz 0].
Proof.
  eexists ([0%Qc] ++ c_grid c ++ c_total c ++ c_abs c ++ c_elastic c), _. split.
  - cbn [lay xss]. rewrite <- !app_assoc. reflexivity.
  - rewrite !app_length. destruct (k_lengths _ K) as (E1 & E2 & E3). rewrite E1, E2, E3. cbn [length lay jxs]. lia.
Qed.
Lemma lay_mts : stands (xss (lay c)) (jxs (lay c) 3) (map (fun h => qz (c_mt h)) (c_channels c)).
Proof.
  eexists ([0%Qc] ++ (c_grid c ++ c_total c ++ c_abs c ++ c_elastic c) ++ [0%Qc]), _. split.
  - cbn [lay xss]. rewrite <- !app_assoc. reflexivity.
  - rewrite !app_length. destruct (k_lengths _ K) as (E1 & E2 & E3). rewrite E1, E2, E3. cbn [length lay jxs]. lia.
Qed.
Lemma lay_qs : stands (xss (lay c)) (jxs (lay c) 4) (map c_q (c_channels c)).
Proof.
  eexists ([0%Qc] ++ (c_grid c ++ c_total c ++ c_abs c ++ c_elastic c) ++ [0%Qc] ++ map (fun h => qz (c_mt h)) (c_channels c)), _. split.
  - cbn [lay xss]. rewrite <- !app_assoc. reflexivity.
  - rewrite !app_length, !map_length. destruct (k_lengths _ K) as (E1 & E2 & E3). rewrite E1, E2, E3. cbn [length lay jxs]. lia.
Qed.
Lemma lay_tys : stands (xss (lay c)) (jxs (lay c) 5) (map (fun h => qz (c_ty h)) (c_channels c)).
Proof.
  eexists ([0%Qc] ++ (c_grid c ++ c_total c ++ c_abs c ++ c_elastic c) ++ [0%Qc] ++ map (fun h => qz (c_mt h)) (c_channels c) ++ map c_q (c_channels c)), _. split.
  - cbn [lay xss]. rewrite <- !app_assoc. reflexivity.
  - rewrite !app_length, !map_length. destruct (k_lengths _ K) as (E1 & E2 & E3). rewrite E1, E2, E3. cbn [length lay jxs]. lia.
Qed.
Lemma lay_locs : stands (xss (lay c)) (jxs (lay c) 6) (map (fun i => qz (Z.of_nat (offset (c_channels c) i) + 1)) (seq 0 (length (c_channels c)))).
Proof.
  eexists ([0%Qc] ++ (c_grid c ++ c_total c ++ c_abs c ++ c_elastic c) ++ [0%Qc] ++ map (fun h => qz (c_mt h)) (c_channels c) ++ map c_q (c_channels c) ++ map (fun h => qz (c_ty h)) (c_channels c)), _. split.
  - cbn [lay xss]. rewrite <- !app_assoc. reflexivity.
  - rewrite !app_length, !map_length. destruct (k_lengths _ K) as (E1 & E2 & E3). rewrite E1, E2, E3. cbn [length lay jxs]. lia.
Qed.
Lemma lay_block i h : nth_error (c_channels c) i = Some h -> stands (xss (lay c)) (jxs (lay c) 7 + Z.of_nat (offset (c_channels c) i)) (block h).
Proof.
  intros E. destruct (concat_block _ _ _ E) as (w & Ew).
  exists ([0%Qc] ++ (c_grid c ++ c_total c ++ c_abs c ++ c_elastic c) ++ [0%Qc] ++ map (fun h => qz (c_mt h)) (c_channels c) ++ map c_q (c_channels c) ++ map (fun h => qz (c_ty h)) (c_channels c) ++
     map (fun i => qz (Z.of_nat (offset (c_channels c) i) + 1)) (seq 0 (length (c_channels c))) ++ concat (map block (firstn i (c_channels c)))), w. split.
  - cbn [lay xss]. rewrite Ew. rewrite <- !app_assoc. reflexivity.
  - rewrite !app_length, !map_length, seq_length. destruct (k_lengths _ K) as (E1 & E2 & E3). rewrite E1, E2, E3. fold (offset (c_channels c) i). cbn [length lay jxs]. lia.
Qed.
Lemma lay_loc i : (i < length (c_channels c))%nat -> stands (xss (lay c)) (jxs (lay c) 6 + Z.of_nat i) [qz (Z.of_nat (offset (c_channels c) i) + 1)].
Proof.
  intros H. apply (stands_in _ _ _ _ _ lay_locs). rewrite err_map. rewrite (nth_error_nth' _ 0%nat) by (rewrite seq_length; exact H). rewrite seq_nth by exact H. reflexivity.
Qed.
Lemma lay_says : says (lay c) c.
Proof.
  split; [apply K|split; [reflexivity|apply lay_grid]|reflexivity|].
  intros i h E. pose proof (err_lt _ _ _ E) as L.
  split; [apply (stands_in _ _ _ _ _ lay_mts); now rewrite err_map, E|]. split; [apply (stands_in _ _ _ _ _ lay_qs); now rewrite err_map, E|].
  split; [apply (stands_in _ _ _ _ _ lay_tys); now rewrite err_map, E|]. split; [apply (k_channels _ K); now apply nth_error_In in E|].
  exists (Z.of_nat (offset (c_channels c) i) + 1). split; [now apply lay_loc|].
  replace (jxs (lay c) 7 + (Z.of_nat (offset (c_channels c) i) + 1) - 1) with (jxs (lay c) 7 + Z.of_nat (offset (c_channels c) i)) by lia. now apply lay_block.
Qed.
(** Where the values are. *)
Lemma lay_values i q h : nth_error (c_channels c) i = Some h -> values_at (lay c) c (S i) q -> q = jxs (lay c) 7 + Z.of_nat (offset (c_channels c) i) + 2.
Proof.
  intros E (loc & H & ->). pose proof (stands_one _ _ _ _ _ _ H (lay_loc i (err_lt _ _ _ E))) as Eq. apply qz_inj in Eq. lia.
Qed.
Lemma lay_valued p : valued (lay c) c p -> 1 + 3 * N <= p < 1 + 4 * N \/
  exists i h, nth_error (c_channels c) i = Some h /\ jxs (lay c) 7 + Z.of_nat (offset (c_channels c) i) + 2 <= p < jxs (lay c) 7 + Z.of_nat (offset (c_channels c) (S i)).
Proof.
  intros (m & q & Hm & V & B). destruct m as [|i].
  - left. cbn [values_at values_of] in *. destruct (k_lengths _ K) as (_ & _ & E). cbn [lay jxs] in V. lia.
  - right. destruct (err_ex (c_channels c) i ltac:(lia)) as (h & E). exists i, h. split; [exact E|]. rewrite (lay_values _ _ _ E V) in B. cbn [values_of] in B. rewrite E in B. rewrite (offset_S _ _ _ E). lia.
Qed.
Lemma lay_7 : jxs (lay c) 7 = 2 + 4 * N + 4 * k. Proof. reflexivity. Qed.
Lemma lay_apart : apart (lay c) c.
Proof.
  split.
  - intros p Hp V. change (jxs (lay c) 1) with 1 in Hp. apply lay_valued in V as [V|(i & h & E & V)]; [lia|]. rewrite lay_7 in V. lia.
  - intros i Hi. assert (F : forall p, 2 + 4 * N <= p < 2 + 4 * N + 4 * k -> ~ valued (lay c) c p).
    { intros p Hp V. apply lay_valued in V as [V|(j & h & E & V)]; [lia|]. rewrite lay_7 in V. lia. }
    split; [apply F; cbn [lay jxs]; lia|]. split; [apply F; cbn [lay jxs]; lia|]. split; [apply F; cbn [lay jxs]; lia|]. split; [apply F; cbn [lay jxs]; lia|].
    intros p V. destruct (err_ex _ _ Hi) as (h & E). rewrite (lay_values _ _ _ E V). clear V.
    assert (G : forall q, jxs (lay c) 7 + Z.of_nat (offset (c_channels c) i) <= q < jxs (lay c) 7 + Z.of_nat (offset (c_channels c) i) + 2 -> ~ valued (lay c) c q).
    { intros q Hq V. apply lay_valued in V as [V|(j & h' & E' & V)]; [rewrite lay_7 in Hq; lia|].
      destruct (Nat.lt_trichotomy i j) as [L|[L|L]].
      - pose proof (offset_mono (c_channels c) (S i) j L) as M. rewrite (offset_S _ _ _ E) in M. lia.
      - subst j. lia.
      - pose proof (offset_mono (c_channels c) (S j) i L) as M. lia. }
    split; apply G; lia.
Qed.
Lemma lay_bare : bare (lay c) c.
Proof.
  split; try reflexivity. exists 0. split; [lia|]. split; [apply lay_iso|]. intros V. apply lay_valued in V as [V|(i & h & E & V)]; [cbn [lay jxs] in V; lia|]. rewrite lay_7 in V. cbn [lay jxs] in V. lia.
Qed.
End Lay.

(** *** Success *)
Section Success.
Context {D A : Type} (R : readers D A).
Variables (a0 : ace) (c : content).
Hypothesis (S0 : says a0 c) (AP : apart a0 c) (ONCE : listed_once c) (BARE : bare a0 c).
Local Notation g := (energies c 0 (length (c_grid c))).
Lemma no_photons a m t : nxs a 6 = 0 -> photons R a m t = Some [].
Proof. intros E. unfold photons. rewrite E. reflexivity. Qed.
Lemma one_succeeds k a : (k <= length (c_channels c))%nat -> inv a0 c k a -> exists r a', reaction_from_ace R a (Z.of_nat k) = Some (r, a').
Proof.
  intros Hk I. unfold reaction_from_ace. destruct BARE as [B1 B2 B3 (iso & Hiso & B4 & B5)].
  destruct k as [|i].
  - change (0 <? Z.of_nat 0) with false. cbv iota zeta. set (x' := clear_negative _ _ _).
    assert (I' : inv a0 c 1 (put a x')).
    { unfold x'. rewrite (i_nxs _ _ _ _ I), (i_jxs _ _ _ _ I), (proj1 (s_grid _ _ S0)).
      replace (jxs a0 1 + 4 * Z.of_nat (length (c_grid c))) with (jxs a0 1 + 3 * Z.of_nat (length (c_grid c)) + Z.of_nat (length (values_of c 0))) by (cbn [values_of]; destruct (s_lengths _ _ S0) as (_ & _ & ->); lia).
      apply inv_next; auto. reflexivity. }
    unfold angles. rewrite (i_nxs _ _ _ _ I'), B1. change (Z.of_nat 0 <? 0 + 1) with true. cbv iota. rewrite (i_jxs _ _ _ _ I').
    rewrite (int_at_stands _ _ iso []) by (replace (jxs a0 8 + Z.of_nat 0) with (jxs a0 8) by lia; apply (stands_kept1 _ _ _ _ _ _ I'); auto).
    rewrite (proj2 (Z.leb_le _ _) Hiso). rewrite no_photons by (rewrite (i_nxs _ _ _ _ I'); exact B2). eauto.
  - replace (0 <? Z.of_nat (S i)) with true by (symmetry; apply Z.ltb_lt; lia). cbv iota zeta.
    destruct (err_ex (c_channels c) i ltac:(lia)) as (h & Eh). destruct (s_channel _ _ S0 i h Eh) as (M & Q & T & B & loc & L & V).
    destruct (a_lists _ _ AP i ltac:(lia)) as (N3 & N4 & N5 & N6 & N7).
    assert (Va : values_at a0 c (S i) (jxs a0 7 + loc + 1)) by (exists loc; auto).
    specialize (N7 _ Va) as [N7 N8].
    assert (Vlen : length (values_of c (S i)) = length (c_values h)) by (cbn [values_of]; now rewrite Eh).
    rewrite (i_jxs _ _ _ _ I).
    replace (jxs a0 3 + Z.of_nat (S i) - 1) with (jxs a0 3 + Z.of_nat i) by lia.
    replace (jxs a0 4 + Z.of_nat (S i) - 1) with (jxs a0 4 + Z.of_nat i) by lia.
    replace (jxs a0 6 + Z.of_nat (S i) - 1) with (jxs a0 6 + Z.of_nat i) by lia.
    rewrite (int_at_stands _ _ (c_mt h) []) by (apply (stands_kept1 _ _ _ _ _ _ I); auto).
    rewrite (at_stands _ _ (c_q h) []) by (apply (stands_kept1 _ _ _ _ _ _ I); auto).
    rewrite (int_at_stands _ _ loc []) by (apply (stands_kept1 _ _ _ _ _ _ I); auto).
    pose proof (stands_cons _ _ _ _ V) as [V1 V2]. pose proof (stands_cons _ _ _ _ V2) as [V3 _].
    replace (jxs a0 7 + loc - 1 + 1) with (jxs a0 7 + loc) in V3 by lia.
    rewrite (int_at_stands _ (jxs a0 7 + loc - 1) (Z.of_nat (c_first h) + 1) [])
      by (apply (stands_kept1 _ _ _ _ _ _ I); auto; now replace (jxs a0 7 + loc - 1) with (jxs a0 7 + loc + 1 - 2) by lia).
    rewrite (int_at_stands _ (jxs a0 7 + loc) (Z.of_nat (length (c_values h))) [])
      by (apply (stands_kept1 _ _ _ _ _ _ I); auto; now replace (jxs a0 7 + loc) with (jxs a0 7 + loc + 1 - 1) by lia).
    set (x' := clear_negative _ _ _).
    assert (I' : inv a0 c (S (S i)) (put a x')).
    { unfold x'. pose proof (inv_next a0 c S0 (S i) a _ Hk I Va) as I'. now rewrite Vlen in I'. }
    change (xss (put a x')) with x'.
    assert (Ty : int_at x' (jxs a0 5 + Z.of_nat i) = Some (c_ty h)).
    { apply (int_at_stands _ _ (c_ty h) []). change x' with (xss (put a x')). apply (stands_kept1 _ _ _ _ _ _ I'); auto. }
    change (jxs (put a x')) with (jxs a). rewrite (i_jxs _ _ _ _ I).
    replace (jxs a0 5 + Z.of_nat (S i) - 1) with (jxs a0 5 + Z.of_nat i) by lia. rewrite Ty.
    unfold neutrons, angles. rewrite (i_nxs _ _ _ _ I'), B1. replace (Z.of_nat (S i) <? 0 + 1) with false by (symmetry; apply Z.ltb_ge; lia). cbn [fst snd].
    rewrite no_photons by (rewrite (i_nxs _ _ _ _ I'); exact B2). eauto.
Qed.
Lemma loop_succeeds m : forall k a data, (k + m <= S (length (c_channels c)))%nat -> inv a0 c k a -> exists data' a', read_reactions R a (map Z.of_nat (seq k m)) data = Some (data', a').
Proof.
  induction m as [|m IH]; intros k a data Hk I; cbn [seq map read_reactions]; [eauto|].
  destruct (one_succeeds k a ltac:(lia) I) as (r & a' & E). rewrite E. cbn [fst snd]. apply IH; [lia|]. eapply one_reaction; eauto. lia.
Qed.
Lemma sum_succeeds d0 x mt l (RD : read c d0 x) (NE : forall m f vs, gives c m f vs -> vs <> []) : l <> [] -> (forall m, In m l -> present d0 m = true) ->
  exists r, @redundant_reaction D A x g d0 mt l = Some r.
Proof.
  intros Hl P. unfold redundant_reaction.
  assert (E1 : exists rs, all_some (map (fun m => lookup m d0) l) = Some rs /\ rs <> [] /\ forall r, In r rs -> exists m, lookup m d0 = Some r).
  { assert (G : exists rs, all_some (map (fun m => lookup m d0) l) = Some rs /\ length rs = length l /\ forall r, In r rs -> exists m, lookup m d0 = Some r).
    { clear Hl. induction l as [|m l' IH]; [exists []; repeat split; easy|]. destruct IH as (rs & E & Le & F); [intros k Hk; apply P; cbn; auto|].
      destruct (proj1 (present_lookup d0 m)) as (r & Er); [apply P; cbn; auto|]. exists (r :: rs). cbn [map all_some]. rewrite Er, E. cbn. split; [reflexivity|]. split; [lia|].
      intros u [<-|Hu]; eauto. }
    destruct G as (rs & E & Le & F). exists rs. repeat split; auto. intros ->. destruct l; [congruence|discriminate]. }
  destruct E1 as (rs & -> & Hrs & F). destruct rs as [|r rs]; [congruence|]. cbn [map least]. cbv zeta.
  set (es := slice _ _ _). clearbody es.
  assert (E2 : forall rs, (forall r, In r rs -> exists m, lookup m d0 = Some r) -> exists vs, all_some (map (fun r => AceEdit_Model.tab_call (xs_of x r) es) rs) = Some vs).
  { clear Hrs F. intros rs' F. induction rs' as [|u rs' IH]; [exists []; reflexivity|]. destruct IH as (vs & E); [intros; apply F; cbn; auto|].
    destruct (F u (or_introl eq_refl)) as (m & Em). destruct (rd_only _ _ _ RD _ _ Em) as (f & ws & Gm). destruct (rd_gives _ _ _ RD _ _ _ Gm) as (u' & Eu & _ & En & _). assert (u' = u) as -> by congruence.
    pose proof (rd_lens _ _ _ RD _ _ _ Gm) as Le. pose proof (NE _ _ _ Gm) as Nw.
    assert (Hx : AceEdit_Model.tx (xs_of x u) <> []).
    { unfold xs_of. cbn [AceEdit_Model.tx]. rewrite En. intros E0. pose proof (energies_length c f (length ws) Le) as El. rewrite E0 in El. destruct ws; [congruence|discriminate]. }
    cbn [map all_some]. rewrite E. unfold AceEdit_Model.tab_call. destruct (AceEdit_Model.tx (xs_of x u)); [congruence|]. cbn [option_map]. eauto. }
  destruct (E2 (r :: rs) F) as (vs & Ev). cbn [map] in Ev. rewrite Ev. eauto.
Qed.
Lemma levels_succeed d0 x (RD : read c d0 x) (NE : forall m f vs, gives c m f vs -> vs <> []) : forall ms d, ~ In 3 ms -> @grown D A d0 x g d -> exists d', loop (level_sum x g) ms d = Some d'.
Proof.
  induction ms as [|m ms IH]; intros d N3 G; cbn [loop]; [eauto|].
  assert (E : exists d1, level_sum x g d m = Some d1).
  { unfold level_sum. destruct (present d m); [eauto|]. destruct (Sums_Proofs.get_some (present d) m) as (l & El). rewrite El. apply Sums_Proofs.get_spec in El. apply (grown_components d0 x g d m l G) in El.
    destruct l as [|y l]; [eauto|]. rewrite (redundant_same d0 x g d m (y :: l) G) by (intros k Hk; now destruct (proj1 (proj2 El k) Hk) as (_ & P & _)).
    destruct (sum_succeeds d0 x m (y :: l) RD NE) as (r & ->); [discriminate| |eauto]. intros k Hk; now destruct (proj1 (proj2 El k) Hk) as (_ & P & _). }
  destruct E as (d1 & E). rewrite E. apply IH; [intros J; apply N3; cbn; auto|]. eapply level_grown; eauto. intros ->. apply N3. cbn. auto.
Qed.
Lemma mark_succeeds (d : list (Z * @reaction D A)) : exists d', mark d = Some d'.
Proof.
  unfold mark. generalize (present d). intros P. induction d as [|e d IH]; [exists []; reflexivity|]. destruct IH as (d' & E). cbn [map all_some].
  destruct (Sums_Proofs.get_some P (r_mt (snd e))) as (l & ->). rewrite E. cbn [option_map]. eauto.
Qed.
Lemma succeeds : (forall m f vs, gives c m f vs -> vs <> []) -> exists n x, from_ace R a0 = Some (n, x).
Proof.
  intros NE. unfold from_ace. assert (Ra : range (nxs a0 4 + 1) = map Z.of_nat (seq 0 (S (length (c_channels c))))).
  { unfold range. rewrite (s_count _ _ S0). f_equal. f_equal. lia. }
  destruct (loop_succeeds (S (length (c_channels c))) 0 a0 (start a0) ltac:(lia) (inv_0 a0 c)) as (d0 & a1 & E1). rewrite <- Ra in E1. rewrite E1. cbn [fst snd].
  destruct (after_loop R a0 c S0 AP ONCE d0 a1 E1) as (I & RD & _).
  assert (G0 : grid a0 = g).
  { rewrite (grid_kept a0 c S0 AP 0 a0 (inv_0 a0 c)). unfold energies. cbn [skipn]. now rewrite firstn_all. }
  rewrite G0. assert (P0 : photon_mts a1 = []).
  { unfold photon_mts. rewrite (i_nxs _ _ _ _ I), (b_photons _ _ BARE). unfold slice. replace (jxs a1 13 + 0) with (jxs a1 13) by lia. now rewrite Nat.sub_diag. }
  rewrite P0. cbn [map unique fold_right]. match goal with |- context [loop ?f [] d0] => change (loop f [] d0) with (Some d0) end.
  destruct (levels_succeed d0 (xss a1) RD NE [16; 103; 104; 105; 106; 107] d0) as (d2 & ->); [cbn [In]; lia|apply grown_0|].
  destruct (mark_succeeds d2) as (d3 & ->). unfold urr_from_ace. rewrite (i_jxs _ _ _ _ I), (b_tables _ _ BARE). change (0 =? 0) with true. cbv iota. eauto.
Qed.
End Success.

(** *** Photons of MT 3 *)
Lemma loop_hits {T I} (Q : T -> Prop) (f : T -> I -> option T) i : forall is s s', (forall s j s', Q s -> f s j = Some s' -> Q s') -> Q s -> loop f is s = Some s' -> In i is -> exists s1 s2, Q s1 /\ f s1 i = Some s2.
Proof.
  induction is as [|j is IH]; intros s s' H Hs E J; [easy|]. cbn [loop] in E. destruct (f s j) as [s1|] eqn:E1; [|discriminate]. destruct J as [->|J]; [eauto|]. eapply (IH s1); eauto.
Qed.
Section Fails.
Context {D A : Type} (R : readers D A).
Variables (a0 : ace) (c : content).
Hypothesis (S0 : says a0 c) (AP : apart a0 c) (ONCE : listed_once c).
Lemma nonelastic_fails ms t : lists_photons a0 c ms -> In t ms -> t / 1000 = 3 -> (forall v, In v (c_abs c) -> v = 0%Qc) -> ~ given c 3 -> (exists k, Sums_Spec.within 3 k /\ given c k) -> from_ace R a0 = None.
Proof.
  intros Lp It Et Z0 N3 (k & Wk & Gk). destruct (from_ace R a0) as [(n, x)|] eqn:H; [|reflexivity]. exfalso.
  unfold from_ace in H. destruct (read_reactions R a0 _ (start a0)) as [(d0, a1)|] eqn:E1; [|discriminate]. cbn [fst snd] in H.
  destruct (loop (photon_reaction R a1 (grid a0) (absorption_of a0)) _ d0) as [d1|] eqn:E2; [|discriminate]. clear H.
  destruct (after_loop R a0 c S0 AP ONCE d0 a1 E1) as (I & RD & _ & F2 & _).
  assert (Eb : absorption_of (D:=D) (A:=A) a0 = None).
  { rewrite (absorption_reads a0 c S0 AP). destruct (existsb _ (c_abs c)) eqn:Ex; [|reflexivity]. apply exists_nonzero in Ex as (v & Iv & Nv). elim Nv. auto. }
  rewrite Eb in *.
  assert (MT0 : forall m r, lookup m d0 = Some r -> r_mt r = m).
  { intros m r Hr. destruct (rd_only _ _ _ RD m r Hr) as (f & vs & Gv). destruct (rd_gives _ _ _ RD _ _ _ Gv) as (r' & E & M & _). congruence. }
  assert (HIT : exists s1 s2, grown d0 (xss a1) (grid a0) s1 /\ photon_reaction R a1 (grid a0) None s1 3 = Some s2).
  { apply (loop_hits (grown d0 (xss a1) (grid a0)) (photon_reaction R a1 (grid a0) None) 3 (unique (map (fun m => m / 1000) (photon_mts a1))) d0 d1); auto using grown_0.
    - intros s j s' Gs Es. eapply photon_grown; eauto.
    - apply unique_In. rewrite (lists_kept a0 c ms a1 Lp I). apply in_map_iff. eauto. }
  destruct HIT as (s1 & s2 & G & E). unfold photon_reaction in E.
    assert (P3 : present s1 3 = false).
    { destruct (present s1 3) eqn:P; [|reflexivity]. exfalso. apply present_lookup in P as (v & P). destruct (lookup 3 d0) as [w|] eqn:E3; [apply N3; apply (rd_only _ _ _ RD _ _ E3)|]. now destruct (g_new _ _ _ _ G _ _ E3 P). }
    rewrite P3 in E. change (existsb (fun e => fst e =? 3) Sums_Model.sum_rules) with true in E. cbn [negb] in E.
    destruct (Sums_Model.get_reaction_components (present s1) 3) as [l|] eqn:C; [|discriminate]. apply Sums_Proofs.get_spec in C. apply (grown_components d0 (xss a1) (grid a0) s1 3 l G) in C.
    destruct l as [|y l]; [|destruct (redundant_reaction _ _ _ _ _); [|discriminate]; destruct (photons _ _ _ _); discriminate].
    destruct Gk as (f & vs & Gk). destruct (rd_gives _ _ _ RD _ _ _ Gk) as (r & Er & _). assert (Pk : present d0 k = true) by (apply present_lookup; eauto).
    destruct (Sums_Proofs.finest_exists (present d0) (S (Sums_Proofs.rank k)) k ltac:(lia) Pk) as (y & Wy & Fy). apply (proj2 C y). split; [eapply Sums_Proofs.within_trans; eauto|exact Fy].
Qed.
Lemma unchanged x : cleared a0 c x -> (forall k v, In v (values_of c k) -> (0 <= v)%Qc) -> x = xss a0.
Proof.
  intros [L C] P. apply ext_err. intros j. destruct (nth_error (xss a0) j) as [v|] eqn:E; [|apply nth_error_None in E; apply nth_error_None; lia].
  destruct (C j v E) as [C1 C2].
  assert (V : ~ ~ (valued a0 c (Z.of_nat j) \/ ~ valued a0 c (Z.of_nat j))) by tauto.
  destruct (nth_error x j) as [w|] eqn:Ex; [|apply nth_error_None in Ex; apply err_lt in E; lia]. f_equal.
  assert (K : valued a0 c (Z.of_nat j) -> w = v).
  { intros Vj. specialize (C1 Vj). destruct Vj as (k & q & Hk & Vk & B). destruct (values_stand a0 c S0 k Hk) as (q' & Vk' & St). rewrite <- (values_at_fun a0 c _ _ _ Vk Vk') in St.
    assert (Ev : nth_error (values_of c k) (Z.to_nat (Z.of_nat j - q)) = Some v).
    { apply stands_iff in St as (Q0 & Q1 & St). rewrite <- (St (Z.to_nat (Z.of_nat j - q))) by lia. rewrite <- E. f_equal. lia. }
    apply nth_error_In in Ev. apply P in Ev. assert (Cv : clip v = v) by (unfold clip; destruct (qltb v 0) eqn:Q; [apply qltb_lt in Q; exfalso; apply Qclt_not_le in Q; contradiction|reflexivity]). congruence. }
  destruct (Qc_eq_dec w v) as [|N]; [assumption|]. exfalso. apply N. apply K. destruct (qeqb w v) eqn:Q; [apply qeqb_eq in Q; contradiction|].
  exfalso. apply V. intros [Vj|Nj]; [auto|]. specialize (C2 Nj). congruence.
Qed.
End Fails.
