(** Reading cross sections, proofs: the dictionary of reactions and the sums added to it. *)
From Coq Require Import ZArith QArith Qcanon List Bool Arith Lia.
From Verif Require Import Num Neut_Model Neut_Spec Neut_Proofs.
From Verif Require Sums_Model Sums_Spec Sums_Proofs AceEdit_Model AceEdit_Spec AceRead_Proofs.
Import ListNotations.
Local Open Scope Z_scope.
Local Notation lookup := AceEdit_Model.lookup.

(** *** Dictionaries *)
Lemma lookup_assign {V} m k (v : V) l : lookup m (assign k v l) = if m =? k then Some v else lookup m l.
Proof.
  induction l as [|(k', v') l IH]; cbn [assign AceEdit_Model.lookup].
  - reflexivity.
  - destruct (Z.eqb_spec k k') as [->|N]; cbn [AceEdit_Model.lookup].
    + now destruct (m =? k').
    + rewrite IH. destruct (Z.eqb_spec m k'), (Z.eqb_spec m k); subst; congruence.
Qed.
Lemma present_lookup {V} (l : list (Z * V)) m : present l m = true <-> exists v, lookup m l = Some v.
Proof.
  unfold present. induction l as [|(k, v) l IH]; cbn [existsb AceEdit_Model.lookup fst].
  - split; [discriminate|now intros (v & H)].
  - rewrite (Z.eqb_sym k m). destruct (m =? k); cbn [orb]; [|exact IH]. split; [eauto|reflexivity].
Qed.
Lemma present_not {V} (l : list (Z * V)) m : present l m = false <-> lookup m l = None.
Proof.
  pose proof (present_lookup l m) as H. destruct (present l m), (lookup m l) as [v|]; split; intros K; try congruence.
  - destruct (proj1 H eq_refl) as (v & E). discriminate.
  - assert (false = true) by (apply H; eauto). discriminate.
Qed.

Lemma left_out_iff mt : left_out mt = true <-> ignored mt.
Proof.
  unfold left_out, ignored. rewrite orb_true_iff, andb_true_iff, !Z.ltb_lt, Z.eqb_eq. lia.
Qed.
Lemma left_out_not mt : left_out mt = false <-> ~ ignored mt.
Proof. rewrite <- left_out_iff. destruct (left_out mt); split; congruence. Qed.

Section Reading.
Context {D A : Type} (R : readers D A).
Definition keep (d : list (Z * @reaction D A)) (r : reaction) := if left_out (r_mt r) then d else assign (r_mt r) r d.

Lemma keep_other rs : forall d m, (forall r, In r rs -> left_out (r_mt r) = false -> r_mt r <> m) -> lookup m (fold_left keep rs d) = lookup m d.
Proof.
  induction rs as [|r rs IH]; intros d m H; cbn [fold_left]; [reflexivity|].
  rewrite IH by (intros; apply H; cbn; auto). unfold keep. destruct (left_out (r_mt r)) eqn:E; [reflexivity|].
  rewrite lookup_assign. destruct (Z.eqb_spec m (r_mt r)); [|reflexivity]. exfalso. apply (H r); cbn; auto.
Qed.
Lemma keep_one rs : forall d r, In r rs -> NoDup (map r_mt rs) -> left_out (r_mt r) = false -> lookup (r_mt r) (fold_left keep rs d) = Some r.
Proof.
  induction rs as [|u rs IH]; intros d r I N L; [easy|]. cbn [map] in N. inversion N as [|? ? N1 N2]; subst. cbn [fold_left]. destruct I as [->|I].
  - rewrite keep_other by (intros v Hv _ E; apply N1; rewrite <- E; now apply in_map). unfold keep. rewrite L, lookup_assign. now rewrite Z.eqb_refl.
  - now apply IH.
Qed.

Variables (a0 : ace) (c : content).
Hypothesis (S0 : says a0 c) (AP : apart a0 c).

Lemma loop_reads m : forall k a data data' a', (k + m <= S (length (c_channels c)))%nat -> inv a0 c k a ->
  read_reactions R a (map Z.of_nat (seq k m)) data = Some (data', a') ->
  inv a0 c (k + m) a' /\ exists rs, length rs = m /\ (forall j r, nth_error rs j = Some r -> fits R a0 c (k + j) r) /\ data' = fold_left keep rs data.
Proof.
  induction m as [|m IH]; intros k a data data' a' Hk I H; cbn [seq map read_reactions] in H.
  - inversion H; subst. rewrite Nat.add_0_r. split; [exact I|]. exists []. split; [reflexivity|]. split; [|reflexivity]. intros [|j] r E; discriminate.
  - destruct (reaction_from_ace R a (Z.of_nat k)) as [[r a1]|] eqn:E; [|discriminate]. cbn [fst snd] in H.
    destruct (one_reaction R a0 c S0 AP k a r a1 ltac:(lia) I E) as [F I1].
    destruct (IH (S k) a1 _ _ _ ltac:(lia) I1 H) as (I2 & rs & L & Hrs & ->).
    replace (S k + m)%nat with (k + S m)%nat in I2 by lia. split; [exact I2|]. exists (r :: rs). cbn [length]. split; [lia|]. split; [|reflexivity].
    intros [|j] u Eu; cbn in Eu.
    + inversion Eu; subst. now rewrite Nat.add_0_r.
    + replace (k + S j)%nat with (S k + j)%nat by lia. now apply Hrs.
Qed.

(** *** After the loop *)
Definition absorbs : Prop := exists v, In v (c_abs c) /\ v <> 0%Qc.
(** The dictionary after the loop, and XSS. *)
Record read (d0 : list (Z * @reaction D A)) (x : list Qc) : Prop := {
  rd_gives : forall m f vs, gives c m f vs -> exists r, lookup m d0 = Some r /\ r_mt r = m /\ r_energy r = energies c f (length vs) /\ elements x (r_xs r) = vs /\
     match r_idx r with Some i => i | None => 0 end = Z.of_nat f;
  rd_only : forall m r, lookup m d0 = Some r -> given c m;
  rd_lens : forall m f vs, gives c m f vs -> (f + length vs <= length (c_grid c))%nat }.

Lemma view_kept k a p l : inv a0 c k a -> stands (xss a0) p l -> (forall j, p <= j < p + Z.of_nat (length l) -> ~ valued a0 c j) ->
  elements (xss a) (View p (p + Z.of_nat (length l))) = l.
Proof. intros I H N. cbn [elements]. apply (slice_stands _ _ l); [|reflexivity]. now apply (stands_kept a0 c k). Qed.

Lemma blocks : stands (xss a0) (jxs a0 1 + Z.of_nat (length (c_grid c))) (c_total c) /\ stands (xss a0) (jxs a0 1 + 2 * Z.of_nat (length (c_grid c))) (c_abs c).
Proof.
  destruct (s_grid _ _ S0) as [_ G]. destruct (s_lengths _ _ S0) as (L1 & L2 & L3). apply stands_app in G as [_ G]. apply stands_app in G as [G1 G]. apply stands_app in G as [G2 _].
  rewrite L1 in G2. split; [exact G1|]. now replace (jxs a0 1 + 2 * Z.of_nat (length (c_grid c))) with (jxs a0 1 + Z.of_nat (length (c_grid c)) + Z.of_nat (length (c_grid c))) by lia.
Qed.
Lemma exists_nonzero l : existsb (fun q => negb (qeqb q 0%Qc)) l = true <-> exists v, In v l /\ v <> 0%Qc.
Proof.
  rewrite existsb_exists. split; intros (v & I & H); exists v; split; auto.
  - intros ->. discriminate.
  - destruct (qeqb_spec v 0%Qc); [congruence|reflexivity].
Qed.
Definition abs_view : array := View (jxs a0 1 + 2 * Z.of_nat (length (c_grid c))) (jxs a0 1 + 3 * Z.of_nat (length (c_grid c))).
Lemma abs_elements : elements (xss a0) abs_view = c_abs c.
Proof.
  unfold abs_view. destruct (s_lengths _ _ S0) as (_ & L2 & _).
  replace (jxs a0 1 + 3 * Z.of_nat (length (c_grid c))) with (jxs a0 1 + 2 * Z.of_nat (length (c_grid c)) + Z.of_nat (length (c_abs c))) by lia.
  apply (view_kept 0); [apply inv_0|apply blocks|]. intros j Hj. apply (a_grid _ _ AP). lia.
Qed.
Lemma absorption_reads : absorption_of (D:=D) (A:=A) a0 = if existsb (fun q => negb (qeqb q 0%Qc)) (c_abs c) then Some (redundant_xs 101 (energies c 0 (length (c_grid c))) abs_view) else None.
Proof.
  unfold absorption_of. rewrite (proj1 (s_grid _ _ S0)). fold abs_view. rewrite abs_elements. rewrite (grid_kept a0 c S0 AP 0 a0 (inv_0 a0 c)). unfold energies. cbn [skipn]. now rewrite firstn_all.
Qed.

Lemma fits_mt (rs : list (@reaction D A)) : (forall j r, nth_error rs j = Some r -> fits R a0 c (0 + j) r) -> length rs = S (length (c_channels c)) -> map r_mt rs = 2 :: map c_mt (c_channels c).
Proof.
  intros H L. apply ext_err. intros i. rewrite err_map. destruct (Nat.lt_ge_cases i (length rs)) as [Hi|Hi].
  - destruct (err_ex rs i Hi) as (u & E). rewrite E. cbn [option_map]. pose proof (f_rest _ _ _ _ _ (H i u E)) as F. destruct i as [|i]; cbn [Nat.add] in F; cbn [nth_error].
    + f_equal. tauto.
    + destruct F as (h & Eh & -> & _). rewrite err_map, Eh. reflexivity.
  - rewrite (err_none rs) by exact Hi. cbn [option_map]. symmetry. apply err_none. cbn [length]. rewrite map_length. lia.
Qed.

Lemma after_loop (ONCE : listed_once c) d0 a1 : read_reactions R a0 (range (nxs a0 4 + 1)) (start a0) = Some (d0, a1) ->
  inv a0 c (S (length (c_channels c))) a1 /\ read d0 (xss a1) /\ (forall m r, lookup m d0 = Some r -> r_redundant r = true -> m = 1 \/ m = 101) /\
  lookup 101 d0 = absorption_of a0 /\ (exists r, lookup 1 d0 = Some r /\ r_redundant r = true) /\ (forall r, lookup 101 d0 = Some r -> r_redundant r = true) /\
  (forall k, (k <= length (c_channels c))%nat -> exists r, fits R a0 c k r /\ (~ ignored (r_mt r) -> lookup (r_mt r) d0 = Some r)) /\
  (forall r, lookup 1 d0 = Some r \/ lookup 101 d0 = Some r -> r_products r = [] /\ r_derived r = []).
Proof.
  intros H. unfold range in H. rewrite (s_count _ _ S0) in H. replace (Z.to_nat (Z.of_nat (length (c_channels c)) + 1)) with (S (length (c_channels c))) in H by lia.
  destruct (loop_reads (S (length (c_channels c))) 0 a0 _ _ _ ltac:(lia) (inv_0 a0 c) H) as (I & rs & L & F & Ed). cbn [Nat.add] in I.
  pose proof (fits_mt rs F L) as Mts.
  assert (ND : NoDup (map r_mt rs)).
  { rewrite Mts. unfold listed_once in ONCE. inversion ONCE as [|? ? _ O1]; subst. inversion O1 as [|? ? N2 O2]; subst. inversion O2 as [|? ? N3 O3]; subst. constructor; [|exact O3]. intros J. apply N2. cbn. auto. }
  assert (NI : forall m, m = 1 \/ m = 101 -> forall r, In r rs -> r_mt r <> m).
  { intros m Hm r Hr E. assert (J : In m (map r_mt rs)) by (rewrite <- E; now apply in_map). clear E. rewrite Mts in J. unfold listed_once in ONCE.
    inversion ONCE as [|? ? N1 O1]; subst. inversion O1 as [|? ? N2 O2]; subst. inversion O2 as [|? ? N3 O3]; subst. cbn [In] in *. destruct Hm as [-> | ->]; destruct J as [J|J]; try lia; tauto. }
  assert (N1 : lookup 1 (start (D:=D) (A:=A) a0) = Some (redundant_xs 1 (grid a0) (View (jxs a0 1 + nxs a0 3) (jxs a0 1 + 2 * nxs a0 3)))) by reflexivity.
  assert (N101 : lookup 101 (start (D:=D) (A:=A) a0) = absorption_of a0).
  { unfold start. cbn [AceEdit_Model.lookup]. destruct (absorption_of a0); reflexivity. }
  assert (NO : forall m, m <> 1 -> m <> 101 -> lookup m (start (D:=D) (A:=A) a0) = None).
  { intros m H1 H2. unfold start. cbn [AceEdit_Model.lookup]. destruct (Z.eqb_spec m 1); [congruence|]. destruct (absorption_of a0); [|reflexivity]. cbn [AceEdit_Model.lookup]. destruct (Z.eqb_spec m 101); congruence. }
  assert (G0 : grid a0 = energies c 0 (length (c_grid c))).
  { rewrite (grid_kept a0 c S0 AP 0 a0 (inv_0 a0 c)). unfold energies. cbn [skipn]. now rewrite firstn_all. }
  assert (K1 : lookup 1 d0 = lookup 1 (start a0)) by (rewrite Ed; apply keep_other; intros; apply NI; auto).
  assert (K101 : lookup 101 d0 = lookup 101 (start a0)) by (rewrite Ed; apply keep_other; intros; apply NI; auto).
  destruct (s_lengths _ _ S0) as (L1 & L2 & L3).
  (* which reaction a kept one is *)
  assert (KEPT : forall j r, nth_error rs j = Some r -> left_out (r_mt r) = false -> lookup (r_mt r) d0 = Some r).
  { intros j r E Lo. rewrite Ed. apply keep_one; auto. now apply nth_error_In in E. }
  split; [exact I|]. split.
  - split.
    + intros m f vs G. destruct G as [(-> & -> & ->)|[(-> & -> & ->)|[(-> & -> & -> & NZ)|(h & Ih & Ig & -> & -> & ->)]]].
      * rewrite K1, N1. eexists. split; [reflexivity|]. unfold redundant_xs. cbn [r_mt r_energy r_xs r_idx].
        split; [reflexivity|]. split; [rewrite L1; exact G0|]. split; [|reflexivity].
        rewrite (proj1 (s_grid _ _ S0)). replace (jxs a0 1 + 2 * Z.of_nat (length (c_grid c))) with (jxs a0 1 + Z.of_nat (length (c_grid c)) + Z.of_nat (length (c_total c))) by lia.
        apply (view_kept _ _ _ _ I); [apply blocks|]. intros j Hj. apply (a_grid _ _ AP). lia.
      * assert (exists r, nth_error rs 0 = Some r) as (r & E) by (apply err_ex; lia). pose proof (F _ _ E) as Fr.
        destruct (f_rest _ _ _ _ _ Fr) as (M & _ & _ & En & Ix & _). destruct (f_xs _ _ _ _ _ Fr) as (p & V & X).
        exists r. split; [rewrite <- M; apply (KEPT O); auto; rewrite M; reflexivity|]. split; [exact M|]. rewrite map_length, L3. split; [exact En|]. rewrite X, Ix. split; [|reflexivity].
        cbn [elements]. apply (slice_stands _ _ (map clip (c_elastic c))); [|rewrite map_length; reflexivity].
        apply (values_cleared a0 c S0 0 (S (length (c_channels c))) _ _ ltac:(lia) ltac:(lia) I V).
      * rewrite K101, N101, absorption_reads, (proj2 (exists_nonzero _) NZ). eexists. split; [reflexivity|]. unfold redundant_xs. cbn [r_mt r_energy r_xs r_idx].
        split; [reflexivity|]. split; [now rewrite L2|]. split; [|reflexivity]. unfold abs_view.
        replace (jxs a0 1 + 3 * Z.of_nat (length (c_grid c))) with (jxs a0 1 + 2 * Z.of_nat (length (c_grid c)) + Z.of_nat (length (c_abs c))) by lia.
        apply (view_kept _ _ _ _ I); [apply blocks|]. intros j Hj. apply (a_grid _ _ AP). lia.
      * destruct (In_nth_error _ _ Ih) as (i & Ei). assert (Hi : (i < length (c_channels c))%nat) by (eapply err_lt; eauto).
        assert (exists r, nth_error rs (S i) = Some r) as (r & E) by (apply err_ex; lia). pose proof (F _ _ E) as Fr.
        destruct (f_rest _ _ _ _ _ Fr) as (h' & Eh & M & _ & _ & En & Ix). assert (h' = h) as -> by congruence. destruct (f_xs _ _ _ _ _ Fr) as (p & V & X).
        exists r. split; [rewrite <- M; apply (KEPT (S i)); auto; apply left_out_not; now rewrite M|]. split; [exact M|]. rewrite map_length. split; [exact En|]. rewrite X, Ix. split; [|reflexivity].
        cbn [elements]. apply (slice_stands _ _ (map clip (c_values h))); [|rewrite map_length; cbn [Nat.add values_of]; now rewrite Ei].
        pose proof (values_cleared a0 c S0 (S i) (S (length (c_channels c))) _ _ ltac:(lia) ltac:(lia) I V) as W. cbn [values_of] in W. now rewrite Ei in W.
    + intros m r E. destruct (Z.eq_dec m 1) as [->|D1]; [exists O, (c_total c); left; auto|].
      destruct (Z.eq_dec m 101) as [->|D2].
      { exists O, (c_abs c). right. right. left. repeat split. rewrite K101, N101, absorption_reads in E. apply exists_nonzero. now destruct (existsb _ (c_abs c)). }
      destruct (in_dec Z.eq_dec m (map r_mt (filter (fun r => negb (left_out (r_mt r))) rs))) as [J|J].
      * apply in_map_iff in J as (u & Mu & Iu). apply filter_In in Iu as [Iu Lu]. apply negb_true_iff in Lu. destruct (In_nth_error _ _ Iu) as (j & Ej). pose proof (f_rest _ _ _ _ _ (F _ _ Ej)) as Fr. cbn [Nat.add] in Fr.
        destruct j as [|i]; cbn [Nat.add] in Fr.
        -- exists O, (map clip (c_elastic c)). right. left. repeat split. rewrite <- Mu. tauto.
        -- destruct Fr as (h & Eh & M & _). exists (c_first h), (map clip (c_values h)). right. right. right. exists h. repeat split; try congruence.
           ++ now apply nth_error_In in Eh.
           ++ rewrite <- M. now apply left_out_not.
      * rewrite Ed in E. rewrite keep_other in E.
        -- rewrite NO in E by auto. discriminate.
        -- intros u Iu Lu Mu. apply J. rewrite <- Mu. apply in_map. apply filter_In. split; [exact Iu|]. now rewrite Lu.
    + intros m f vs G. destruct G as [(-> & -> & ->)|[(-> & -> & ->)|[(-> & -> & -> & NZ)|(h & Ih & Ig & -> & -> & ->)]]]; rewrite ?map_length; try lia.
      destruct (In_nth_error _ _ Ih) as (i & Ei). now destruct (s_channel _ _ S0 _ _ Ei) as (_ & _ & _ & B & _).
  - split; [|split; [now rewrite K101|split; [|split; [|split]]]].
    + intros m r E Rr. destruct (Z.eq_dec m 1) as [->|D1]; [auto|]. destruct (Z.eq_dec m 101) as [->|D2]; [auto|]. exfalso.
      destruct (in_dec Z.eq_dec m (map r_mt (filter (fun r => negb (left_out (r_mt r))) rs))) as [J|J].
      * apply in_map_iff in J as (u & Mu & Iu). apply filter_In in Iu as [Iu Lu]. apply negb_true_iff in Lu. destruct (In_nth_error _ _ Iu) as (j & Ej).
        pose proof (KEPT _ _ Ej Lu) as K. rewrite Mu, E in K. inversion K; subst u. rewrite (f_flag _ _ _ _ _ (F _ _ Ej)) in Rr. discriminate.
      * rewrite Ed in E. rewrite keep_other in E.
        -- rewrite NO in E by auto. discriminate.
        -- intros u Iu Lu Mu. apply J. rewrite <- Mu. apply in_map. apply filter_In. split; [exact Iu|]. now rewrite Lu.
    + rewrite K1, N1. eexists. split; reflexivity.
    + rewrite K101, N101, absorption_reads. intros r E. destruct (existsb _ _); [|discriminate]. now inversion E.
    + intros k Hk. destruct (err_ex rs k ltac:(lia)) as (r & E). exists r. split; [exact (F _ _ E)|]. intros N. apply (KEPT k); auto. now apply left_out_not.
    + rewrite K1, N1, K101, N101, absorption_reads. intros r [E|E]; [|destruct (existsb _ _); [|discriminate]]; inversion E; split; reflexivity.
Qed.
End Reading.
