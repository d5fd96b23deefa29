(** Reading cross sections, proofs: sums over components, flags, the whole table. *)
From Coq Require Import ZArith QArith Qcanon List Bool Arith Lia.
From Verif Require Import Num Neut_Model Neut_Spec Neut_Proofs NeutSum_Proofs.
From Verif Require Sums_Model Sums_Spec Sums_Proofs AceEdit_Model AceEdit_Spec AceRead_Proofs.
Import ListNotations.
Local Open Scope Z_scope.
Local Notation lookup := AceEdit_Model.lookup.

(** *** Components do not depend on sums already added *)
Lemma within_anti a b : Sums_Spec.within a b -> Sums_Spec.within b a -> a = b.
Proof. intros H K. apply Sums_Proofs.within_rank in H, K. destruct H as [->|H]; [reflexivity|]. destruct K as [K|K]; [now rewrite K in *|lia]. Qed.
Section Finest.
Variables P P0 : Z -> bool.
Hypothesis (Sub : forall m, P0 m = true -> P m = true)
  (New : forall m, P m = true -> P0 m = false -> exists l, l <> [] /\ Sums_Spec.components (fun k => P0 k = true) m l).
Lemma finest_same m : Sums_Spec.finest (fun k => P k = true) m <-> Sums_Spec.finest (fun k => P0 k = true) m.
Proof.
  split; intros [H K].
  - destruct (P0 m) eqn:E.
    + split; [exact E|]. intros k W Hk. apply K; auto.
    + destruct (New m H E) as (l & Hl & C). destruct l as [|y l]; [congruence|]. destruct (proj1 (proj2 C y) (or_introl eq_refl)) as (W & Py & _).
      pose proof (K y W (Sub _ Py)). congruence.
  - split; [now apply Sub|]. intros k W Hk. destruct (P0 k) eqn:E; [now apply K|].
    destruct (New k Hk E) as (l & Hl & C). destruct l as [|y l]; [congruence|]. destruct (proj1 (proj2 C y) (or_introl eq_refl)) as (W2 & Py & _).
    assert (y = m) by (apply K; auto; eapply Sums_Proofs.within_trans; eauto). subst y. now apply within_anti.
Qed.
Lemma components_same m l : Sums_Spec.components (fun k => P k = true) m l <-> Sums_Spec.components (fun k => P0 k = true) m l.
Proof.
  unfold Sums_Spec.components. split; intros [N H]; split; auto; intros k; rewrite H.
  - now rewrite finest_same.
  - now rewrite finest_same.
Qed.
End Finest.
Lemma all_some_Forall2 {T U} (f : T -> option U) : forall l vs, all_some (map f l) = Some vs -> Forall2 (fun u v => f u = Some v) l vs.
Proof.
  induction l as [|u l IH]; intros vs H; cbn [map all_some] in H; [inversion H; constructor|].
  destruct (f u) as [v|] eqn:E; [|discriminate]. destruct (all_some (map f l)) as [ws|]; [|discriminate]. cbn in H. inversion H. constructor; auto.
Qed.
Lemma Forall2_In_l {T U} (Q : T -> U -> Prop) : forall l m u, Forall2 Q l m -> In u l -> exists v, In v m /\ Q u v.
Proof. intros l m u H. induction H as [|a b l m Hab H IH]; [easy|]. intros [->|I]; [exists b; cbn; auto|]. destruct (IH I) as (v & J & K). exists v. cbn. auto. Qed.
Lemma Forall2_In_r {T U} (Q : T -> U -> Prop) : forall l m v, Forall2 Q l m -> In v m -> exists u, In u l /\ Q u v.
Proof. intros l m u H. induction H as [|a b l m Hab H IH]; [easy|]. intros [->|I]; [exists a; cbn; auto|]. destruct (IH I) as (v & J & K). exists v. cbn. auto. Qed.
Lemma Forall2_len {T U} (Q : T -> U -> Prop) l m : Forall2 Q l m -> length l = length m.
Proof. induction 1; cbn; lia. Qed.

Lemma Forall2_compose {T U V} (P : T -> U -> Prop) (Q : U -> V -> Prop) (W : T -> V -> Prop) : forall l rs vs, Forall2 P l rs -> Forall2 Q rs vs ->
  (forall m r v, In m l -> P m r -> Q r v -> W m v) -> Forall2 W l vs.
Proof.
  intros l rs vs H. revert vs. induction H as [|m r l rs Hm H IH]; intros vs K S; inversion K; subst; constructor.
  - eapply S; eauto. cbn. auto.
  - apply IH; auto. intros. eapply S; eauto. cbn. auto.
Qed.

Section Sums.
Context {D A : Type}.
Variables (c : content) (d0 : list (Z * @reaction D A)) (x : list Qc).
Hypothesis RD : read c d0 x.
Local Notation N := (length (c_grid c)).
Local Notation g := (energies c 0 (length (c_grid c))).

Lemma energies_length f m : (f + m <= N)%nat -> length (energies c f m) = m.
Proof. intros H. unfold energies. rewrite map_length, firstn_length, skipn_length. lia. Qed.
Lemma energies_err f m i : (i < m)%nat -> nth_error (energies c f m) i = nth_error g (f + i).
Proof.
  intros H. unfold energies. cbn [skipn]. rewrite firstn_all, !err_map, err_firstn, err_skipn. destruct (Nat.ltb_spec i m); [reflexivity|lia].
Qed.
Lemma energies_nth f m i : (i < m)%nat -> nth i (energies c f m) 0%Qc = nth (f + i) g 0%Qc.
Proof.
  intros H. pose proof (energies_err f m i H) as E. destruct (nth_error g (f + i)) as [v|] eqn:E2.
  - now rewrite (nth_error_nth _ _ _ E), (nth_error_nth _ _ _ E2).
  - apply nth_error_None in E, E2. now rewrite !nth_overflow.
Qed.

(** The value of one component at an energy of the grid. *)
Lemma comp_value (RES : resolved c) m f vs j : gives c m f vs -> (j < N)%nat ->
  AceEdit_Model.tab_at (AceEdit_Model.mkTab (energies c f (length vs)) vs) (nth j g 0%Qc) = value_at f vs j.
Proof.
  intros G Hj. destruct RES as [INC SEP]. destruct (SEP m f vs G) as [NE S]. pose proof (rd_lens _ _ _ RD _ _ _ G) as B.
  assert (Lg : length g = N) by (apply energies_length; lia). rewrite Lg in S.
  assert (Le : length (energies c f (length vs)) = length vs) by (apply energies_length; lia).
  assert (Lv : (0 < length vs)%nat) by (destruct vs; [congruence|cbn; lia]).
  set (t := AceEdit_Model.mkTab (energies c f (length vs)) vs).
  assert (Last : last (AceEdit_Model.tx t) 0%Qc = nth (f + length vs - 1) g 0%Qc).
  { rewrite AceRead_Proofs.last_nth_q. cbn [t AceEdit_Model.tx]. rewrite Le, (energies_nth f) by lia. f_equal. lia. }
  assert (Hd : hd 0%Qc (AceEdit_Model.tx t) = nth f g 0%Qc).
  { rewrite AceRead_Proofs.hd_nth_q. cbn [t AceEdit_Model.tx]. rewrite (energies_nth f _ 0) by lia. f_equal. lia. }
  unfold value_at. destruct (Nat.leb_spec f j) as [C|C].
  - destruct (Nat.lt_ge_cases (j - f) (length vs)) as [C2|C2].
    + replace (nth j g 0%Qc) with (nth (j - f) (AceEdit_Model.tx t) 0%Qc) by (cbn [t AceEdit_Model.tx]; rewrite (energies_nth f _ (j - f)) by lia; f_equal; lia).
      rewrite AceRead_Proofs.tab_at_grid; [reflexivity|cbn [t AceEdit_Model.tx]; lia|cbn [t AceEdit_Model.tx AceEdit_Model.ty]; lia| |].
      * intros a b Hab. cbn [t AceEdit_Model.tx] in *. rewrite Le in Hab. rewrite (energies_nth f _ a), (energies_nth f _ b) by lia. apply INC. rewrite Lg. lia.
      * intros i Hi. rewrite Last, Hd. cbn [t AceEdit_Model.tx] in *. rewrite Le in Hi. rewrite (energies_nth f _ i) by lia.
        split; intros Ne; apply S; try lia; intros E; apply Ne; f_equal; lia.
    + rewrite (nth_overflow vs) by lia. apply AceRead_Proofs.tab_at_outside.
      * intros E. cbn [t AceEdit_Model.tx] in E. rewrite E in Le. cbn in Le. lia.
      * rewrite Last. apply AceRead_Proofs.far_not_close. apply S; lia.
      * rewrite Hd. apply AceRead_Proofs.far_not_close. apply S; lia.
      * right. intros i Hi. cbn [t AceEdit_Model.tx] in *. rewrite Le in Hi. rewrite (energies_nth f _ i) by lia. apply Qclt_le_weak. apply INC. rewrite Lg. lia.
  - apply AceRead_Proofs.tab_at_outside.
    + intros E. cbn [t AceEdit_Model.tx] in E. rewrite E in Le. cbn in Le. lia.
    + rewrite Last. apply AceRead_Proofs.far_not_close. apply S; lia.
    + rewrite Hd. apply AceRead_Proofs.far_not_close. apply S; lia.
    + left. rewrite Hd. apply INC. rewrite Lg. lia.
Qed.

(** Adding arrays. *)
Lemma add_arrays_length u v : length u = length v -> length (add_arrays u v) = length v.
Proof. intros E. unfold add_arrays. rewrite map_length, combine_length. lia. Qed.
Lemma add_arrays_nth : forall u v j, length u = length v -> nth j (add_arrays u v) 0%Qc = (nth j u 0 + nth j v 0)%Qc.
Proof.
  induction u as [|a u IH]; intros [|b v] j E; cbn in E; try lia; [destruct j; cbn; ring|].
  destruct j as [|j]; [reflexivity|]. cbn. apply IH. lia.
Qed.
Lemma fold_add : forall vs u j, (forall v, In v vs -> length v = length u) ->
  length (fold_left add_arrays vs u) = length u /\ nth j (fold_left add_arrays vs u) 0%Qc = (nth j u 0 + fold_right Qcplus 0 (map (fun v => nth j v 0%Qc) vs))%Qc.
Proof.
  induction vs as [|v vs IH]; intros u j H; cbn [fold_left map fold_right]; [split; [reflexivity|ring]|].
  assert (E : length u = length v) by (symmetry; apply H; cbn; auto).
  destruct (IH (add_arrays u v) j) as [L K].
  - intros w Hw. rewrite add_arrays_length by exact E. rewrite <- E. apply H. cbn. auto.
  - rewrite add_arrays_length in L by exact E. split; [lia|]. rewrite K, add_arrays_nth by exact E. ring.
Qed.
Lemma least_spec l i : least l = Some i -> In i l /\ forall k, In k l -> i <= k.
Proof.
  destruct l as [|v r]; cbn [least]; [discriminate|]. intros H. inversion H as [H']. clear H. revert v H'. 
  assert (G : forall r v, (fold_left Z.min r v = v \/ In (fold_left Z.min r v) r) /\ fold_left Z.min r v <= v /\ forall k, In k r -> fold_left Z.min r v <= k).
  { clear. induction r as [|w r IH]; intros v; cbn [fold_left].
    - repeat split; auto; [lia|easy].
    - destruct (IH (Z.min v w)) as (A1 & A2 & A3). repeat split.
      + destruct A1 as [A1|A1]; [|right; cbn; auto]. rewrite A1. destruct (Z.min_spec v w) as [[_ E]|[_ E]]; rewrite E; cbn; auto.
      + lia.
      + intros k [->|K]; [lia|now apply A3]. }
  intros v H'. destruct (G r v) as (A1 & A2 & A3). rewrite H' in *. split; [cbn; destruct A1; auto|]. intros k [->|K]; auto.
Qed.

Lemma sum_of (RES : resolved c) mt l r : (forall m, In m l -> present d0 m = true) ->
  redundant_reaction x g d0 mt l = Some r -> sums c x r l /\ r_mt r = mt /\ r_products r = [].
Proof.
  intros Pl H. unfold redundant_reaction in H.
  destruct (all_some (map (fun m => lookup m d0) l)) as [rs|] eqn:E1; [|discriminate]. apply all_some_Forall2 in E1.
  destruct (least _) as [idx|] eqn:E2; [|discriminate]. cbv zeta in H.
  destruct (all_some (map _ rs)) as [vs|] eqn:E3 in H; [|discriminate]. apply all_some_Forall2 in E3. inversion H; subst r; clear H.
  split; [|split; reflexivity].
  apply least_spec in E2 as [In2 Min2]. apply in_map_iff in In2 as (r0 & Ei & I0).
  destruct (Forall2_In_r _ _ _ _ E1 I0) as (m0 & Im0 & L0).
  assert (KEY : forall m r, In m l -> lookup m d0 = Some r -> forall f vs, gives c m f vs -> r_energy r = energies c f (length vs) /\ elements x (r_xs r) = vs /\ match r_idx r with Some i => i | None => 0 end = Z.of_nat f).
  { intros m r Hm Lr f ws Gm. destruct (rd_gives _ _ _ RD _ _ _ Gm) as (r' & L' & _ & A1 & A2 & A3). assert (r' = r) as -> by congruence. auto. }
  destruct (rd_only _ _ _ RD _ _ L0) as (f0 & vs0 & G0). destruct (KEY _ _ Im0 L0 _ _ G0) as (_ & _ & K0).
  rewrite K0 in Ei. subst idx.
  assert (B0 : (f0 + length vs0 <= N)%nat) by exact (rd_lens _ _ _ RD _ _ _ G0).
  assert (MIN : forall m f vs, In m l -> gives c m f vs -> (f0 <= f)%nat).
  { intros m f ws Hm Gm. destruct (Forall2_In_l _ _ _ _ E1 Hm) as (r & Ir & Lr). destruct (KEY _ _ Hm Lr _ _ Gm) as (_ & _ & K). 
    specialize (Min2 (Z.of_nat f)). assert (Z.of_nat f0 <= Z.of_nat f) by (apply Min2; apply in_map_iff; exists r; auto). lia. }
  assert (Lg : length g = N) by (apply energies_length; lia).
  assert (ES : slice g (Z.of_nat f0) (Z.of_nat (length g)) = energies c f0 (N - f0)).
  { rewrite Lg. replace (Z.of_nat N) with (Z.of_nat f0 + Z.of_nat (N - f0)) by lia. rewrite slice_in by (rewrite ?Lg; lia). rewrite !Nat2Z.id. unfold energies. cbn [skipn]. rewrite firstn_all. now rewrite skipn_map, firstn_map. }
  rewrite ES in *. set (es := energies c f0 (N - f0)) in *. assert (Les : length es = (N - f0)%nat) by (apply energies_length; lia).
  assert (LV : forall v, In v vs -> length v = length (map (fun _ : Qc => 0%Qc) es)).
  { intros v Hv. destruct (Forall2_In_r _ _ _ _ E3 Hv) as (r & _ & E). unfold AceEdit_Model.tab_call in E. destruct (AceEdit_Model.tx (xs_of x r)); [discriminate|]. inversion E. now rewrite !map_length. }
  exists f0. cbn [r_energy r_redundant r_xs elements].
  split; [exists m0, vs0; auto|]. split; [exact MIN|]. split; [reflexivity|]. split; [reflexivity|].
  destruct (fold_add vs (map (fun _ => 0%Qc) es) 0 LV) as [FL _]. split; [rewrite FL, map_length; exact Les|].
  intros src SRC j Hj. destruct (fold_add vs (map (fun _ => 0%Qc) es) (j - f0) LV) as [_ ->].
  assert (Z0 : nth (j - f0) (map (fun _ : Qc => 0%Qc) es) 0%Qc = 0%Qc) by (clear; generalize (j - f0)%nat; induction es as [|e es' IH]; intros [|k]; cbn; auto).
  rewrite Z0. rewrite Qcplus_0_l.
  assert (V : Forall2 (fun m v => nth (j - f0) v 0%Qc = value_at (fst (src m)) (snd (src m)) j) l vs).
  { apply (Forall2_compose _ _ _ _ _ _ E1 E3). intros m r v Hm Lr Cv. destruct (KEY _ _ Hm Lr _ _ (SRC m Hm)) as (En & Ex & _).
    unfold AceEdit_Model.tab_call in Cv. destruct (AceEdit_Model.tx (xs_of x r)) eqn:Ne; [discriminate|]. inversion Cv; subst v; clear Cv.
    unfold xs_of. rewrite En, Ex. rewrite (nth_indep _ 0%Qc (AceEdit_Model.tab_at (AceEdit_Model.mkTab (energies c (fst (src m)) (length (snd (src m)))) (snd (src m))) 0%Qc)) by (rewrite map_length; lia).
    rewrite map_nth. unfold es. rewrite (energies_nth f0 _ (j - f0)) by lia. replace (f0 + (j - f0))%nat with j by lia. apply (comp_value RES m); auto; lia. }
  clear - V. induction V as [|m v l vs Hv V IH]; [reflexivity|]. cbn [map fold_right Sums_Spec.total]. now rewrite Hv, IH.
Qed.
End Sums.

(** *** Reactions added after the loop *)
Section Added.
Context {D A : Type} (R : readers D A).
Variables (c : content) (d0 : list (Z * @reaction D A)) (x energy : list Qc).
Hypothesis MT0 : forall m r, lookup m d0 = Some r -> r_mt r = m.

(** What a reaction added is: the sum of its components among those of the file. *)
Definition added (m : Z) (r : @reaction D A) : Prop :=
  m <> 3 /\ exists l r', l <> [] /\ Sums_Spec.components (fun k => present d0 k = true) m l /\ redundant_reaction x energy d0 m l = Some r' /\
    r_mt r = m /\ r_energy r = r_energy r' /\ r_xs r = r_xs r' /\ r_redundant r = true.
Record grown (d : list (Z * @reaction D A)) : Prop := {
  g_old : forall m r, lookup m d0 = Some r -> lookup m d = Some r;
  g_new : forall m r, lookup m d0 = None -> lookup m d = Some r -> added m r }.
Lemma grown_0 : grown d0.
Proof. split; [auto|]. intros m r H K. congruence. Qed.
Lemma grown_components d m l : grown d -> Sums_Spec.components (fun k => present d k = true) m l <-> Sums_Spec.components (fun k => present d0 k = true) m l.
Proof.
  intros G. apply components_same.
  - intros k H. apply present_lookup in H as (v & H). apply present_lookup. exists v. now apply (g_old _ G).
  - intros k H N. apply present_lookup in H as (v & H). apply present_not in N. destruct (g_new _ G _ _ N H) as (_ & l' & r' & Hl & C & _). eauto.
Qed.
Lemma redundant_same d mt l : grown d -> (forall m, In m l -> present d0 m = true) -> redundant_reaction x energy d mt l = redundant_reaction x energy d0 mt l.
Proof.
  intros G H. unfold redundant_reaction. replace (map (fun m => lookup m d) l) with (map (fun m => lookup m d0) l); [reflexivity|].
  apply map_ext_in. intros m Hm. apply H in Hm. apply present_lookup in Hm as (v & E). now rewrite E, (g_old _ G _ _ E).
Qed.
Lemma grown_assign d mt l r : grown d -> present d mt = false -> mt <> 3 -> l <> [] -> Sums_Spec.components (fun k => present d k = true) mt l ->
  forall r', redundant_reaction x energy d mt l = Some r' -> r_mt r = mt -> r_energy r = r_energy r' -> r_xs r = r_xs r' -> r_redundant r = true -> grown (assign mt r d).
Proof.
  intros G N N3 Hl C r' E M1 M2 M3 M4. apply present_not in N. apply (grown_components d mt l G) in C. split.
  - intros m u H. rewrite lookup_assign. destruct (Z.eqb_spec m mt) as [->|Nm]; [|now apply (g_old _ G)]. pose proof (g_old _ G _ _ H). congruence.
  - intros m u H K. rewrite lookup_assign in K. destruct (Z.eqb_spec m mt) as [->|Nm]; [|now apply (g_new _ G)]. inversion K; subst u. split; [exact N3|].
    exists l, r'. assert (E' : redundant_reaction x energy d0 mt l = Some r').
    { rewrite <- (redundant_same d mt l G); [exact E|]. intros k Hk. now apply (proj2 C) in Hk as (_ & Hk & _). }
    split; [exact Hl|]. split; [exact C|]. auto.
Qed.
Lemma redundant_fields (d : list (Z * @reaction D A)) mt l r : redundant_reaction x energy d mt l = Some r -> r_mt r = mt /\ r_redundant r = true /\ r_products r = [].
Proof.
  unfold redundant_reaction. intros H. destruct (all_some _) as [rs|]; [|discriminate]. destruct (least _); [|discriminate]. cbv zeta in H. destruct (all_some _); [|discriminate]. now inversion H.
Qed.
Lemma photon_grown a b : xss a = x -> lookup 101 d0 = b -> forall d mt d', grown d -> photon_reaction R a energy b d mt = Some d' -> grown d'.
Proof.
  intros Ex Eb d mt d' G H. unfold photon_reaction in H. rewrite Ex in H. destruct (present d mt) eqn:P; [inversion H; subst d'; exact G|].
  destruct (negb _); [inversion H; subst d'; exact G|]. destruct (Sums_Model.get_reaction_components (present d) mt) as [mts|] eqn:E; [|discriminate].
  apply Sums_Proofs.get_spec in E. destruct mts as [|m0 mts]; [inversion H; subst d'; exact G|].
  destruct (redundant_reaction x energy d mt (m0 :: mts)) as [r|] eqn:Er; [|discriminate]. destruct (photons R a mt _) as [gs|]; [|discriminate].
  destruct (Z.eqb_spec mt 3) as [E3|N3].
  - destruct b as [b|]; [|discriminate]. inversion H; subst d'. split.
    + intros m u Hu. rewrite lookup_assign. destruct (Z.eqb_spec m 101) as [->|]; [congruence|now apply (g_old _ G)].
    + intros m u Hu K. rewrite lookup_assign in K. destruct (Z.eqb_spec m 101) as [->|]; [congruence|now apply (g_new _ G)].
  - inversion H; subst d'. eapply grown_assign; eauto; congruence.
Qed.
Lemma level_grown d mt d' : mt <> 3 -> grown d -> level_sum x energy d mt = Some d' -> grown d'.
Proof.
  intros N3 G H. unfold level_sum in H. destruct (present d mt) eqn:P; [inversion H; subst d'; exact G|].
  destruct (Sums_Model.get_reaction_components (present d) mt) as [mts|] eqn:E; [|discriminate].
  apply Sums_Proofs.get_spec in E. destruct mts as [|m0 mts]; [inversion H; subst d'; exact G|].
  destruct (redundant_reaction x energy d mt (m0 :: mts)) as [r|] eqn:Er; [|discriminate]. inversion H; subst d'.
  destruct (redundant_fields _ _ _ _ Er) as (F1 & F2 & F3). eapply grown_assign; eauto; congruence.
Qed.
Lemma loop_ind {T I} (Q : T -> Prop) (f : T -> I -> option T) : forall is s s', (forall s i s', In i is -> Q s -> f s i = Some s' -> Q s') -> Q s -> loop f is s = Some s' -> Q s'.
Proof.
  induction is as [|i is IH]; intros s s' H Hs E; cbn [loop] in E; [now inversion E; subst|].
  destruct (f s i) as [s1|] eqn:E1; [|discriminate]. apply (IH s1); auto; [intros; eapply H; eauto; cbn; auto|]. eapply H; eauto. cbn; auto.
Qed.
(** The keys of a dictionary only grow. *)
Lemma level_keeps (d : list (Z * @reaction D A)) mt d' m : level_sum x energy d mt = Some d' -> present d m = true -> present d' m = true.
Proof.
  intros H P. unfold level_sum in H. destruct (present d mt); [now inversion H; subst|]. destruct (Sums_Model.get_reaction_components _ _) as [[|m0 mts]|]; [now inversion H; subst| |discriminate].
  destruct (redundant_reaction _ _ _ _ _); [|discriminate]. inversion H. apply present_lookup. rewrite lookup_assign. destruct (m =? mt); [eauto|]. now apply present_lookup.
Qed.
Lemma photon_keeps a b d mt d' m : photon_reaction R a energy b d mt = Some d' -> present d m = true -> present d' m = true.
Proof.
  intros H P. unfold photon_reaction in H. destruct (present d mt); [now inversion H; subst|]. destruct (negb _); [now inversion H; subst|]. destruct (Sums_Model.get_reaction_components _ _) as [[|m0 mts]|]; [now inversion H; subst| |discriminate].
  destruct (redundant_reaction _ _ _ _ _); [|discriminate]. destruct (photons _ _ _ _); [|discriminate]. apply present_lookup. destruct (mt =? 3).
  - destruct b; [|discriminate]. inversion H. rewrite lookup_assign. destruct (m =? 101); [eauto|]. now apply present_lookup.
  - inversion H. rewrite lookup_assign. destruct (m =? mt); [eauto|]. now apply present_lookup.
Qed.
(** A sum over levels is there if a component is. *)
Lemma level_there d mt d' : grown d -> level_sum x energy d mt = Some d' -> forall l, Sums_Spec.components (fun k => present d0 k = true) mt l -> l <> [] -> present d' mt = true.
Proof.
  intros G H l C Hl. unfold level_sum in H. destruct (present d mt) eqn:P; [now inversion H; subst|].
  destruct (Sums_Model.get_reaction_components (present d) mt) as [mts|] eqn:E; [|discriminate]. apply Sums_Proofs.get_spec in E. apply (grown_components _ _ _ G) in E.
  destruct mts as [|m0 mts].
  - exfalso. destruct l as [|y l]; [congruence|]. apply (proj2 E y). apply (proj2 C y). cbn. auto.
  - destruct (redundant_reaction _ _ _ _ _); [|discriminate]. inversion H. apply present_lookup. rewrite lookup_assign, Z.eqb_refl. eauto.
Qed.
Lemma loop_there ms : ~ In 3 ms -> forall d d', grown d -> loop (level_sum x energy) ms d = Some d' ->
  forall mt, In mt ms -> forall l, Sums_Spec.components (fun k => present d0 k = true) mt l -> l <> [] -> present d' mt = true.
Proof.
  induction ms as [|m ms IH]; intros N d d' G H mt I l C Hl; [easy|]. cbn [loop] in H. destruct (level_sum x energy d m) as [d1|] eqn:E; [|discriminate].
  assert (G1 : grown d1) by (eapply level_grown; eauto; intros ->; apply N; cbn; auto).
  destruct I as [->|I]; [|apply (IH ltac:(intros J; apply N; cbn; auto) d1 d' G1 H mt I l C Hl)].
  apply (loop_ind (fun d => present d mt = true) (level_sum x energy) ms d1 d'); auto.
  - intros s i s' _ P E'. eapply level_keeps; eauto.
  - exact (level_there d mt d1 G E l C Hl).
Qed.
Lemma photon_there a b d mt d' : grown d -> photon_reaction R a energy b d mt = Some d' -> (exists p, Sums_Spec.part mt p) -> mt <> 3 ->
  forall l, Sums_Spec.components (fun k => present d0 k = true) mt l -> l <> [] -> present d' mt = true.
Proof.
  intros G H (p & Pp) N3 l C Hl. unfold photon_reaction in H. destruct (present d mt) eqn:P; [now inversion H; subst|].
  assert (K : existsb (fun e => fst e =? mt) Sums_Model.sum_rules = true).
  { apply Sums_Proofs.part_listed in Pp as (l' & I & _). apply existsb_exists. exists (mt, l'). split; [exact I|]. apply Z.eqb_refl. }
  rewrite K in H. cbn [negb] in H.
  destruct (Sums_Model.get_reaction_components (present d) mt) as [mts|] eqn:E; [|discriminate]. apply Sums_Proofs.get_spec in E. apply (grown_components _ _ _ G) in E.
  destruct mts as [|m0 mts].
  - exfalso. destruct l as [|y l]; [congruence|]. apply (proj2 E y). apply (proj2 C y). cbn. auto.
  - destruct (redundant_reaction _ _ _ _ _); [|discriminate]. destruct (photons _ _ _ _); [|discriminate]. destruct (Z.eqb_spec mt 3); [congruence|]. inversion H. apply present_lookup. rewrite lookup_assign, Z.eqb_refl. eauto.
Qed.
Lemma photons_there a b : xss a = x -> lookup 101 d0 = b -> forall ms d d', grown d -> loop (photon_reaction R a energy b) ms d = Some d' ->
  forall mt, In mt ms -> (exists p, Sums_Spec.part mt p) -> mt <> 3 -> forall l, Sums_Spec.components (fun k => present d0 k = true) mt l -> l <> [] -> present d' mt = true.
Proof.
  intros Ex Eb. induction ms as [|m ms IH]; intros d d' G H mt I Pp N3 l C Hl; [easy|]. cbn [loop] in H. destruct (photon_reaction R a energy b d m) as [d1|] eqn:E; [|discriminate].
  assert (G1 : grown d1) by (eapply photon_grown; eauto).
  destruct I as [->|I]; [|apply (IH d1 d' G1 H mt I Pp N3 l C Hl)].
  apply (loop_ind (fun d => present d mt = true) (photon_reaction R a energy b) ms d1 d'); auto.
  - intros s i s' _ P E'. eapply photon_keeps; eauto.
  - exact (photon_there a b d mt d1 G E Pp N3 l C Hl).
Qed.

(** Marking. *)
Lemma mark_lookup (d d' : list (Z * @reaction D A)) : mark d = Some d' -> forall m, lookup m d' = option_map (fun r => match Sums_Model.get_reaction_components (present d) (r_mt r) with
   | Some mts => if same mts (r_mt r) then r else flag r | None => r end) (lookup m d).
Proof.
  unfold mark. intros H m. apply all_some_Forall2 in H. revert H. generalize (present d) as P. intros P H. induction H as [|(k, r) (k', r') d d' E H IH]; [reflexivity|].
  cbn [fst snd] in E. destruct (Sums_Model.get_reaction_components P (r_mt r)) as [mts|] eqn:C; [|discriminate]. cbn [AceEdit_Model.lookup].
  destruct (same mts (r_mt r)) eqn:Sm; inversion E; subst k' r'; cbn [fst snd].
  - destruct (m =? k); [cbn [option_map]; rewrite C, Sm; reflexivity|exact IH].
  - destruct (m =? k); [cbn [option_map]; rewrite C, Sm; reflexivity|exact IH].
Qed.
Lemma same_finest P m l : P m = true -> Sums_Spec.components (fun k => P k = true) m l -> same l m = true <-> Sums_Spec.finest (fun k => P k = true) m.
Proof.
  intros Pm [N C]. split.
  - intros S. destruct l as [|y [|z l]]; cbn [same] in S; try discriminate. apply Z.eqb_eq in S. subst y. apply (proj1 (C m)). cbn. auto.
  - intros F. assert (Im : In m l) by (apply C; split; [constructor|exact F]). assert (U : forall y, In y l -> y = m).
    { intros y Hy. apply C in Hy as (W & Py & _). now apply F. }
    destruct l as [|y [|z l]]; [easy| |].
    + rewrite (U y) by (cbn; auto). cbn [same]. apply Z.eqb_refl.
    + exfalso. inversion N as [|? ? N1 _]; subst. apply N1. rewrite (U y), (U z) by (cbn; auto). cbn. auto.
Qed.
End Added.
