(** A table of cross sections, read and stored in HDF5: lemmas. *)
From Coq Require Import ZArith QArith Qcanon List Bool Arith Lia String Permutation.
From Verif Require Import Num Neut_Model Neut_Spec Neut_Proofs NeutSum_Proofs NeutAll_Proofs NeutFinal_Proofs Law_Model Hdf_Model Hdf_Spec Nuc_Model Nuc_Spec Nuc_Proofs.
From Verif Require AceEdit_Model Sums_Model Sums_Spec.
Import ListNotations.
Local Open Scope list_scope.
Local Open Scope Z_scope.
Local Notation lookup := AceEdit_Model.lookup.

Section Sane.
Context {D A : Type} (R : readers D A).
Definition sane_rx (e : Z * @reaction D A) : Prop := r_mt (snd e) = fst e /\ 0 <= fst e /\ match r_idx (snd e) with Some i => 0 <= i | None => True end.
Definition sane (d : list (Z * @reaction D A)) : Prop := NoDup (map fst d) /\ Forall sane_rx d.
Lemma assign_keys k (v : @reaction D A) d : map fst (assign k v d) = if present d k then map fst d else map fst d ++ [k].
Proof. induction d as [|[k' v'] d IH]; [reflexivity|]. cbn [assign present existsb map fst]. rewrite (Z.eqb_sym k' k). destruct (Z.eqb_spec k k') as [->|N]; [reflexivity|]. cbn [map fst orb]. rewrite IH. unfold present. now destruct (existsb _ d). Qed.
Lemma assign_sane k v d : sane d -> sane_rx (k, v) -> sane (assign k v d).
Proof.
  intros [N F] V. split.
  - rewrite assign_keys. destruct (present d k) eqn:P; [exact N|]. apply (Permutation_NoDup (Permutation_app_comm [k] (map fst d))). constructor; [|exact N]. intros I0. apply present_at in I0. congruence.
  - clear N. induction F as [|[k' v'] d E F IH]; cbn [assign]; [repeat constructor; apply V|]. destruct (Z.eqb k k'); constructor; auto.
Qed.
Lemma start_sane a : sane (start a).
Proof.
  unfold start. destruct (absorption_of a) as [r|] eqn:E; [|repeat constructor; cbn; lia || auto].
  - unfold absorption_of in E. destruct (existsb _ _); [|discriminate]. injection E as <-. split; [repeat constructor; cbn; lia|]. repeat constructor; cbn; auto; lia.
Qed.
Lemma keep_sane rs : forall d, (forall r, In r rs -> sane_rx (r_mt r, r)) -> sane d -> sane (fold_left keep rs d).
Proof. induction rs as [|r rs IH]; intros d H S; [exact S|]. cbn [fold_left]. apply IH; [intros u U; apply H; now right|]. unfold keep. destruct (left_out _); [exact S|]. apply assign_sane; [exact S | apply H; now left]. Qed.
Lemma least_nonneg l v : least l = Some v -> Forall (fun z => 0 <= z) l -> 0 <= v.
Proof. destruct l as [|w l]; [discriminate|]. intros [= <-] F. inversion F as [|? ? F1 F2]; subst. clear F. revert w F1. induction F2 as [|u l U _ IH]; intros w W; [exact W|]. cbn [fold_left]. apply IH. lia. Qed.
Lemma all_of_sane d mts rs : Forall sane_rx d -> all_some (map (fun m => lookup m d) mts) = Some rs -> Forall (fun r => match r_idx r with Some i => 0 <= i | None => True end) rs.
Proof.
  intros F. revert rs. induction mts as [|m mts IH]; intros rs E; cbn [map all_some] in E; [injection E as <-; constructor|]. destruct (lookup m d) as [r|] eqn:L; [|discriminate]. destruct (all_some _) as [rs'|]; [|discriminate]. injection E as <-. constructor; [|now apply IH].
  clear - F L. induction F as [|[k v] d S F IH]; [discriminate|]. cbn in L. destruct (Z.eqb m k); [injection L as ->; apply S | now apply IH].
Qed.
Lemma redundant_sane x energy d mt mts r : Forall sane_rx d -> 0 <= mt -> redundant_reaction x energy d mt mts = Some r -> sane_rx (mt, r) /\ match r_idx r with Some i => 0 <= i | None => False end.
Proof.
  intros F M E. unfold redundant_reaction in E. destruct (all_some (map (fun m => lookup m d) mts)) as [rs|] eqn:A1; [|discriminate]. destruct (least _) as [i|] eqn:L; [|discriminate]. destruct (all_some _) as [vs|] in E; [|discriminate]. injection E as <-.
  assert (P : 0 <= i). { apply (least_nonneg _ _ L). rewrite Forall_map. apply (all_of_sane d mts rs F) in A1. revert A1. apply Forall_impl. intros u. destruct (r_idx u); [auto | lia]. }
  repeat split; cbn; assumption.
Qed.
Lemma photon_sane a energy d mt d' b : match b with Some r => sane_rx (101, r) | None => True end -> sane d -> photon_reaction R a energy b d mt = Some d' -> sane d'.
Proof.
  intros B S E. unfold photon_reaction in E. destruct (present d mt); [now injection E as <-|]. destruct (existsb _ Sums_Model.sum_rules) eqn:X; cbn [negb] in E; [|now injection E as <-].
  assert (M : 0 <= mt). { apply existsb_exists in X. destruct X as (e & I0 & X). apply Z.eqb_eq in X. subst mt. assert (K : forallb (fun e => 0 <=? fst e) Sums_Model.sum_rules = true) by reflexivity. rewrite forallb_forall in K. apply Z.leb_le. now apply K. }
  destruct (Sums_Model.get_reaction_components _ _) as [[|m0 mts]|]; [now injection E as <- | | discriminate]. destruct (redundant_reaction _ _ _ _ _) as [r|] eqn:RR; [|discriminate]. destruct (photons _ _ _ _) as [gs|]; [|discriminate].
  destruct (redundant_sane _ _ _ _ _ _ (proj2 S) M RR) as [S1 S2]. destruct (mt =? 3).
  - destruct b as [b|]; [|discriminate]. injection E as <-. now apply assign_sane.
  - injection E as <-. apply assign_sane; [exact S|]. repeat split; cbn; [exact M | destruct (r_idx r); auto].
Qed.
Lemma level_sane x energy d mt d' : 0 <= mt -> sane d -> level_sum x energy d mt = Some d' -> sane d'.
Proof.
  intros M S E. unfold level_sum in E. destruct (present d mt); [now injection E as <-|]. destruct (Sums_Model.get_reaction_components _ _) as [[|m0 mts]|]; [now injection E as <- | | discriminate]. destruct (redundant_reaction _ _ _ _ _) as [r|] eqn:RR; [|discriminate]. injection E as <-.
  apply assign_sane; [exact S|]. now apply (redundant_sane _ _ _ _ _ _ (proj2 S) M RR).
Qed.
Lemma mark_sane (d d' : list (Z * @reaction D A)) : sane d -> mark d = Some d' -> sane d'.
Proof.
  intros [N F] E. unfold mark in E. set (P := fun e : Z * @reaction D A => match Sums_Model.get_reaction_components (present d) (r_mt (snd e)) with Some mts => Some (if same mts (r_mt (snd e)) then e else (fst e, flag (snd e))) | None => None end) in E.
  assert (K : map fst d' = map fst d /\ Forall sane_rx d').
  { assert (HP : forall e e', P e = Some e' -> fst e' = fst e /\ (sane_rx e -> sane_rx e')).
    { unfold P. intros e e'. destruct (Sums_Model.get_reaction_components _ _); [|discriminate]. intros [= <-]. destruct (same _ _); auto. }
    clear N. clearbody P. revert d' E. induction F as [|e d S F IH]; intros d' E; cbn [map all_some] in E; [injection E as <-; split; constructor|]. destruct (P e) as [e'|] eqn:PE; [|discriminate]. destruct (all_some (map P d)) as [d1|]; [|discriminate]. injection E as <-. destruct (IH d1 eq_refl) as [K1 K2]. destruct (HP _ _ PE) as [H1 H2]. split; [cbn; now rewrite K1, H1 | constructor; auto]. }
  destruct K as [K1 K2]. split; [now rewrite K1 | exact K2].
Qed.
Variables (a0 : ace) (c : content).
Hypothesis (S0 : says a0 c) (AP : apart a0 c).
Lemma from_ace_sane n x : (forall h, In h (c_channels c) -> 0 <= c_mt h) -> from_ace R a0 = Some (n, x) -> sane (n_reactions n) /\ match n_urr n with Some u => u_interp u = 2 \/ u_interp u = 5 | None => True end.
Proof.
  intros HM H. unfold from_ace in H. destruct (read_reactions R a0 _ (start a0)) as [(d0, a1)|] eqn:E1; [|discriminate]. cbn [fst snd] in H.
  destruct (loop (photon_reaction R a1 (grid a0) (absorption_of a0)) _ d0) as [d1|] eqn:E2; [|discriminate].
  destruct (loop (level_sum (xss a1) (grid a0)) _ d1) as [d2|] eqn:E3; [|discriminate].
  destruct (mark d2) as [d3|] eqn:E4; [|discriminate]. destruct (urr_from_ace a1) as [u|] eqn:E5; [|discriminate]. injection H as <- <-. cbn [n_reactions n_urr]. split.
  - assert (Q0 : sane d0).
    { rewrite (s_count _ _ S0) in E1. unfold range in E1. replace (Z.to_nat (Z.of_nat (length (c_channels c)) + 1)) with (S (length (c_channels c))) in E1 by lia.
      destruct (loop_reads R a0 c S0 AP (S (length (c_channels c))) 0 a0 (start a0) d0 a1 ltac:(lia) (inv_0 a0 c) E1) as (_ & rs & L & F & ->). apply keep_sane; [|apply start_sane].
      intros r I0. apply In_nth_error in I0. destruct I0 as (j & J). pose proof (f_rest _ _ _ _ _ (F j r J)) as FR. destruct j as [|i]; cbn [Nat.add] in FR.
      - destruct FR as (M & _ & _ & _ & X & _). repeat split; cbn; [lia | rewrite X; lia].
      - destruct FR as (h & Eh & M & _ & _ & _ & X). repeat split; cbn; [rewrite M; apply HM; now apply nth_error_In in Eh | rewrite X; lia]. }
    assert (Q1 : sane d1).
    { apply (loop_ind sane (photon_reaction R a1 (grid a0) (absorption_of a0)) _ d0 d1) in E2; auto. intros s i s' _ Q E. apply (photon_sane a1 (grid a0) s i s' (absorption_of a0)); auto.
      unfold absorption_of. destruct (existsb _ _); [repeat split; cbn; lia || auto | exact I]. }
    assert (Q2 : sane d2).
    { apply (loop_ind sane (level_sum (xss a1) (grid a0)) _ d1 d2) in E3; auto. intros s i s' I0 Q E. apply (level_sane (xss a1) (grid a0) s i s'); auto. cbn [In] in I0. lia. }
    now apply (mark_sane d2).
  - unfold urr_from_ace in E5. destruct (jxs a1 23 =? 0); [now injection E5 as <-|]. repeat (match type of E5 with match ?o with Some _ => _ | None => None end = _ => destruct o; [|discriminate] end). destruct (_ && _) eqn:B in E5; [|discriminate]. injection E5 as <-. cbn. apply andb_true_iff in B. destruct B as [_ B]. apply orb_true_iff in B. now rewrite !Z.eqb_eq in B.
Qed.
End Sane.

(** The reactions as they stand in the table. *)
Section Back.
Variables (R : readers law angle) (a0 : ace) (c : content).
Hypothesis (S0 : says a0 c) (AP : apart a0 c) (LO : listed_once c).
Variables (n : @neutron law angle) (x : list Qc).
Hypothesis (F0 : from_ace R a0 = Some (n, x)).
Lemma channel_all i h : nth_error (c_channels c) i = Some h -> ~ ignored (c_mt h) ->
  exists r, lookup (c_mt h) (n_reactions n) = Some r /\ r_mt r = c_mt h /\ r_q r = (c_q h * qz 1000000)%Qc /\ (r_cm r = true <-> c_ty h < 0) /\
    elements x (r_xs r) = map clip (c_values h) /\ r_idx r = Some (Z.of_nat (c_first h)).
Proof.
  intros Eh Ig. destruct (whole_ok R a0 c S0 AP LO n x F0) as (d0 & d & a1 & W). destruct (channel_read R a0 c n x d0 d a1 W i h Eh Ig) as (r & p & (H1 & H2 & _ & H3) & Q & Cm & _).
  exists r. repeat (split; [assumption|]). assert (Hi : (i < length (c_channels c))%nat) by (eapply err_lt; eauto).
  destruct (w_fits _ _ _ _ _ _ _ _ W (Datatypes.S i) ltac:(lia)) as (r0 & F & K). destruct (f_rest _ _ _ _ _ F) as (h' & Eh' & M & _ & _ & _ & X). assert (h' = h) as -> by congruence.
  rewrite M in K. specialize (K Ig). pose proof (g_old _ _ _ _ (w_grown _ _ _ _ _ _ _ _ W) _ _ K) as G. destruct (final_lookup R a0 c n x d0 d a1 W (c_mt h)) as (u & Eu & Fu). rewrite G in Eu. cbn [option_map] in Eu.
  rewrite H1 in Eu. injection Eu as ->. destruct (Fu r0) as [->| ->]; exact X.
Qed.
Lemma elastic_all : exists r, lookup 2 (n_reactions n) = Some r /\ r_mt r = 2 /\ r_q r = 0%Qc /\ r_cm r = true /\ elements x (r_xs r) = map clip (c_elastic c) /\ r_idx r = Some 0.
Proof.
  destruct (whole_ok R a0 c S0 AP LO n x F0) as (d0 & d & a1 & W).
  destruct (w_fits _ _ _ _ _ _ _ _ W O ltac:(lia)) as (r0 & F & K). destruct (f_rest _ _ _ _ _ F) as (M & Q & Cm & _ & X & _). rewrite M in K. specialize (K ltac:(unfold ignored; lia)).
  pose proof (g_old _ _ _ _ (w_grown _ _ _ _ _ _ _ _ W) _ _ K) as G. destruct (final_lookup R a0 c n x d0 d a1 W 2) as (u & Eu & Fu). rewrite G in Eu. cbn [option_map] in Eu.
  destruct (rd_gives _ _ _ (w_read _ _ _ _ _ _ _ _ W) 2 O (map clip (c_elastic c))) as (r1 & H & _ & _ & Vl & _); [right; left; auto|]. assert (r1 = r0) as -> by congruence.
  exists (u r0). split; [exact Eu|]. destruct (Fu r0) as [->| ->]; cbn [flag r_mt r_q r_cm r_xs r_idx]; repeat (split; [assumption|]); assumption.
Qed.
Lemma lookup_In {V} m (v : V) l : lookup m l = Some v -> In (m, v) l.
Proof. induction l as [|[k w] l IH]; [discriminate|]. cbn. destruct (Z.eqb_spec m k) as [->|N]; [intros [= ->]; now left | intros E; right; auto]. Qed.
Lemma finest_flag m r : lookup m (n_reactions n) = Some r -> m <> 101 -> Sums_Spec.finest (given c) m -> r_redundant r = false.
Proof.
  intros E N Fi. destruct (whole_ok R a0 c S0 AP LO n x F0) as (d0 & d & a1 & W). pose proof (all_flags R a0 c n x d0 d a1 W m r E) as H. destruct (r_redundant r); [|reflexivity]. destruct (proj1 H eq_refl); [contradiction | contradiction].
Qed.
Variables (name : string) (z a m : Z) (awr kt : Qc).
Hypotheses (Hz : 0 <= z) (Ha : 0 <= a) (Hm : 0 <= m) (Hw : (0 < awr)%Qc).
Hypothesis HM : forall h, In h (c_channels c) -> 0 <= c_mt h.
Hypothesis HP : forall mt r, In (mt, r) (n_reactions n) -> Forall product_fine (r_products r) /\ Forall product_fine (r_derived r).
Let d := of_ace name z a m awr kt n x.
Lemma of_ace_fine : nuclide_fine d.
Proof.
  destruct (from_ace_sane R a0 c S0 AP n x HM F0) as [[N S] U]. rewrite Forall_forall in S.
  assert (T : temperatures d = [kelvin kt]) by reflexivity. assert (E : look (kelvin kt) (d_energy d) <> None) by (cbn; rewrite String.eqb_refl; discriminate).
  split; [reflexivity|]. do 4 (split; [assumption|]). rewrite T. split; [repeat constructor; intros []|]. split; [intros t [<-|[]]; exact E|]. split; [cbn; rewrite map_map; exact N|]. split.
  - intros mt r I0. cbn [d of_ace d_rx] in I0. apply in_map_iff in I0. destruct I0 as ([mt' r0] & [= <- <-] & I0). destruct (S _ I0) as (S1 & S2 & S3). cbn in S1, S2, S3. split; [exact S1|]. split; [exact S2|]. intros _.
    split; [repeat constructor; intros []|]. cbn [of_rx x_xs x_products x_derived]. split; [rewrite T; intros t [<-|[]]; cbn; rewrite String.eqb_refl; discriminate|]. split; [|exact (HP mt' r0 I0)].
    intros t y [[= <- <-]|[]]. split; [left; rewrite T; now left|]. split; [exact E|]. cbn. destruct (r_idx r0); auto.
  - cbn [d of_ace d_urr]. destruct (n_urr n) as [u|]; cbn; (split; [repeat constructor; intros [] |]); [|intros _ _ []]. intros t u' [[= _ <-]|[]]. exact U.
Qed.
Lemma one_back r d' nu i : stored d d' -> lookup i (n_reactions n) = Some r -> r_redundant r = false -> kept_reactions d nu d' ->
  exists r', reaction_at (d_rx d') i = Some r' /\ x_mt r' = r_mt r /\ x_q r' = r_q r /\ x_cm r' = r_cm r /\ x_redundant r' = false /\
    forall j, r_idx r = Some j -> look (kelvin kt) (x_xs r') = Some (Table (linear (skipn (Z.to_nat j) (n_energy n)) (elements x (r_xs r))) (Some j)).
Proof.
  intros _ E Fl K. destruct (K i (of_rx (kelvin kt) x r)) as (r' & E' & K1 & K2 & K3 & K4 & K5 & _).
  - cbn [d of_ace d_rx]. apply in_map_iff. exists (i, r). split; [reflexivity | now apply lookup_In].
  - left. exact Fl.
  - exists r'. split; [exact E'|]. split; [exact K1|]. split; [exact K2|]. split; [exact K3|]. split; [rewrite K4; exact Fl|]. intros j J.
    specialize (K5 (kelvin kt)). cbn [of_rx x_xs look] in K5. rewrite String.eqb_refl in K5. destruct (look (kelvin kt) (x_xs r')) as [y|]; [|contradiction]. cbn in K5. destruct K5 as (f & idx & [= <- <-] & ->). rewrite J. cbn [linear fy].
    unfold at_temperature. cbn. now rewrite String.eqb_refl.
Qed.
End Back.
