(** The data of a nuclide in HDF5, theorems. *)
From Coq Require Import DecimalString Qround.
From Coq Require Import ZArith QArith Qcanon List Bool Arith Lia String Permutation Sorted.
From Verif Require Import Num Neut_Model Neut_Spec Neut_Proofs NeutFinal_Proofs Law_Model Hdf_Model Hdf_Spec Hdf_Proofs Nuc_Model Nuc_Spec Nuc_Proofs NucAce_Proofs.
From Verif Require AceEdit_Model Sums_Model Sums_Spec Sums_Proofs Cont_Model Cont_Spec Ang_Model Ang_Spec Hdf_Props Nubar_Props Law_Props.
Import ListNotations.
Local Open Scope string_scope.
Local Open Scope list_scope.
Local Open Scope Z_scope.

(** The data of a nuclide can be exported to a new file, and what is read back is that
    nuclide, its temperatures, grids and probability tables, every reaction of the file, and
    for the others the sums of what there is. *)
Theorem C71_round_trip : forall d, nuclide_fine d -> exists g d', export_to_hdf5 d [] = Some [(d_name d, g)] /\ from_hdf5 [(d_name d, g)] = Some d' /\ stored d d'.
Proof.
  intros d F. destruct (nuclide_back d F) as (g & d' & E1 & E2 & S). exists g, d'. split; [|split; [exact E2 | exact S]]. unfold export_to_hdf5. destruct F as [-> _]. cbn [look]. now rewrite E1.
Qed.
Print Assumptions C71_round_trip.
(** Or to a file with other nuclides, which stay. *)
Theorem C71_group : forall d f, nuclide_fine d -> look (d_name d) f = None ->
  exists g d', export_to_hdf5 d f = Some (f ++ [(d_name d, g)]) /\ nuclide_of (d_name d) g = Some d' /\ stored d d'.
Proof.
  intros d f F L. destruct (nuclide_back d F) as (g & d' & E1 & E2 & S). exists g, d'. split; [|split; [exact E2 | exact S]]. unfold export_to_hdf5. destruct F as [-> _]. now rewrite L, E1.
Qed.
Print Assumptions C71_group.
(** Data of ENDF files are refused, and so is a nuclide that is in the file. *)
Theorem C71_refused : forall d f, d_endf d = true \/ look (d_name d) f <> None -> export_to_hdf5 d f = None.
Proof. intros d f [E|N]; unfold export_to_hdf5; [now rewrite E|]. destruct (d_endf d); [reflexivity|]. now destruct (look (d_name d) f). Qed.
Print Assumptions C71_refused.
(** A reaction whose values stand against the grid from its first energy on, and whose
    products are plain, comes back as it was. *)
Definition on_grid (d : nuclide) (r : nrx) : Prop :=
  forall t x, look t (x_xs r) = Some x -> exists i y, x = Table (linear (skipn (Z.to_nat i) (at_temperature d t)) y) (Some i).
Theorem C71_same : forall d d' mt r, stored d d' -> In (mt, r) (d_rx d) -> written r -> on_grid d r -> Forall plain_product (x_products r) ->
  exists r', reaction_at (d_rx d') mt = Some r' /\ x_mt r' = x_mt r /\ x_q r' = x_q r /\ x_cm r' = x_cm r /\ x_redundant r' = x_redundant r /\ x_products r' = x_products r /\
    forall t, look t (x_xs r') = look t (x_xs r).
Proof.
  intros d d' mt r (_ & _ & _ & _ & nu & _ & K & _) I0 Wr G P. destruct (K mt r I0 Wr) as (r' & E & K1 & K2 & K3 & K4 & K5 & K6 & _). exists r'. repeat (split; [assumption|]). split.
  - clear - K6 P. induction K6 as [|p p' l l' [_ H] _ IH]; [reflexivity|]. inversion P; subst. f_equal; auto.
  - intros t. specialize (K5 t). specialize (G t). destruct (look t (x_xs r)) as [x|], (look t (x_xs r')) as [x'|]; cbn in K5; try contradiction; [|reflexivity]. destruct (G x eq_refl) as (i & y & ->). destruct K5 as (f & idx & [= <- <-] & ->). reflexivity.
Qed.
Print Assumptions C71_same.
(** Files of older versions have no flag for redundant reactions: a reaction that is not
    redundant is read from them as from a file with the flag. *)
Definition without (k : string) (n : node) : node := let 'Node a v l := n in Node (filter (fun e => negb (String.eqb k (fst e))) a) v l.
Lemma attr_without k k' n : attr (without k n) k' = if String.eqb k k' then None else attr n k'.
Proof.
  destruct n as [a v l]. cbn [without attr]. induction a as [|[u x] a IH]; cbn [filter look fst]; [now destruct (String.eqb k k')|].
  destruct (String.eqb_spec k u) as [->|N]; cbn [negb look].
  - rewrite IH. destruct (String.eqb_spec u k') as [->|N']; [reflexivity|]. destruct (String.eqb_spec k' u); [congruence | reflexivity].
  - destruct (String.eqb_spec k' u) as [->|N']; [|exact IH]. destruct (String.eqb_spec k u); [congruence | reflexivity].
Qed.
Theorem C71_unflagged : forall energy n r, rx_of energy n = Some r ->
  (attr n "redundant" = None -> x_redundant r = false) /\
  exists r', rx_of energy (without "redundant" n) = Some r' /\ x_redundant r' = false /\ (x_redundant r = false -> r' = r).
Proof.
  intros energy n r E. unfold rx_of in E.
  destruct (integer (attr n "mt")) as [mt|] eqn:E1; [|discriminate]. destruct (num (attr n "Q_value")) as [q|] eqn:E2; [|discriminate].
  destruct (integer (attr n "center_of_mass")) as [cm|] eqn:E3; [|discriminate].
  destruct (match attr n "redundant" with None => Some 0 | Some v => integer (Some v) end) as [red|] eqn:E4; [|discriminate].
  destruct (read_xs energy (items n)) as [xs|] eqn:E5; [|discriminate].
  destruct (all_some _) as [ps|] eqn:E6 in E; [|discriminate]. injection E as <-. cbn [x_redundant]. split.
  - intros N. rewrite N in E4. injection E4 as <-. reflexivity.
  - exists (mkNrx mt q (truth cm) false xs ps []). split; [|split; [reflexivity | intros <-; reflexivity]].
    assert (I0 : items (without "redundant" n) = items n) by now destruct n.
    assert (K0 : forall k, kid (without "redundant" n) k = kid n k) by now destruct n.
    unfold rx_of. rewrite !attr_without, I0. cbn [String.eqb Ascii.eqb Bool.eqb]. rewrite E1, E2, E3, E5.
    rewrite (map_ext _ (fun i => match kid n (numbered "product_" i) with Some g => product_of g | None => None end)) by (intros i; now rewrite K0).
    rewrite E6. reflexivity.
Qed.
Print Assumptions C71_unflagged.
(** A table of cross sections, read, stored and read back: elastic scattering and every
    reaction listed that is not a sum of others listed, each with its Q value, frame, place on
    the grid and values; the temperature; the grid. *)
Theorem C71_ace : forall (R : readers law angle) a c n x name z ma m awr kt, says a c -> apart a c -> listed_once c -> from_ace R a = Some (n, x) ->
  (forall h, In h (c_channels c) -> 0 <= c_mt h) -> (forall mt r, In (mt, r) (n_reactions n) -> Forall product_fine (r_products r) /\ Forall product_fine (r_derived r)) ->
  0 <= z -> 0 <= ma -> 0 <= m -> (0 < awr)%Qc ->
  let d := of_ace name z ma m awr kt n x in
  let g := energies c 0 (length (c_grid c)) in
  exists f d', export_to_hdf5 d [] = Some f /\ from_hdf5 f = Some d' /\ stored d d' /\ d_kts d' = [kt] /\ look (kelvin kt) (d_energy d') = Some g /\
    (exists r, reaction_at (d_rx d') 2 = Some r /\ x_q r = 0%Qc /\ x_cm r = true /\ look (kelvin kt) (x_xs r) = Some (Table (linear g (map clip (c_elastic c))) (Some 0))) /\
    forall h, In h (c_channels c) -> ~ ignored (c_mt h) -> Sums_Spec.finest (given c) (c_mt h) ->
      exists r, reaction_at (d_rx d') (c_mt h) = Some r /\ x_mt r = c_mt h /\ x_q r = (c_q h * qz 1000000)%Qc /\ (x_cm r = true <-> c_ty h < 0) /\ x_redundant r = false /\
        look (kelvin kt) (x_xs r) = Some (Table (linear (skipn (c_first h) g) (map clip (c_values h))) (Some (Z.of_nat (c_first h)))).
Proof.
  intros R a c n x name z ma m awr kt S P O F HM HP Hz Ha Hm Hw d g. pose proof (of_ace_fine R a c S P n x F name z ma m awr kt Hz Ha Hm Hw HM HP) as Fi. change (of_ace name z ma m awr kt n x) with d in Fi.
  destruct (C71_round_trip d Fi) as (nd & d' & E1 & E2 & St). exists [(d_name d, nd)], d'. split; [exact E1|]. split; [exact E2|]. split; [exact St|].
  assert (Eg : n_energy n = g) by (destruct (whole_ok R a c S P O n x F) as (d0 & d1 & a1 & W); exact (w_energy _ _ _ _ _ _ _ _ W)).
  pose proof St as (_ & (T & _) & G & _ & nu & _ & K & _).
  split; [cbn [d of_ace d_kts] in T; now apply Permutation_length_1_inv in T|]. split.
  { destruct (G (kelvin kt)) as [G1 _]. rewrite G1; [|left; now left]. cbn. rewrite String.eqb_refl. now rewrite Eg. }
  split.
  - destruct (elastic_all R a c S P O n x F) as (r & L & M & Q & Cm & V & X). destruct (one_back n x name z ma m awr kt r d' nu 2 St L) as (r' & A1 & A2 & A3 & A4 & A5 & A6); [|exact K|].
    { apply (finest_flag R a c S P O n x F 2 r L); [lia|]. split; [exists 0%nat, (map clip (c_elastic c)); right; left; auto|]. intros k Wk _. destruct (Sums_Proofs.within_down _ _ Wk) as [E|(b & Pb & _)]; [exact E|]. unfold Sums_Spec.part in Pb. lia. }
    exists r'. split; [exact A1|]. split; [congruence|]. split; [congruence|]. rewrite (A6 0 X), V, Eg. reflexivity.
  - intros h Ih Ig Fh. destruct (In_nth_error _ _ Ih) as (i & Ei). destruct (channel_all R a c S P O n x F i h Ei Ig) as (r & L & M & Q & Cm & V & X).
    destruct (one_back n x name z ma m awr kt r d' nu (c_mt h) St L) as (r' & A1 & A2 & A3 & A4 & A5 & A6); [|exact K|].
    { apply (finest_flag R a c S P O n x F (c_mt h) r L); [|exact Fh]. intros E. unfold listed_once in O. inversion O as [|? ? _ O1]; subst. inversion O1 as [|? ? _ O2]; subst. inversion O2 as [|? ? O3 _]; subst. apply O3. rewrite <- E. now apply in_map. }
    exists r'. split; [exact A1|]. split; [congruence|]. split; [congruence|]. split; [now rewrite A4|]. split; [exact A5|]. rewrite (A6 _ X), V, Eg, Nat2Z.id. reflexivity.
Qed.
Print Assumptions C71_ace.

(** *** Not so *)
(** Not true: reading gives the nuclide just written.  It gives the first of the file by name. *)
Theorem C71_first_refuted : forall d name g f, String.leb (d_name d) name = false -> export_to_hdf5 d [(name, g)] = Some f -> from_hdf5 f = from_hdf5 [(name, g)].
Proof.
  intros d name g f L E. unfold export_to_hdf5 in E. destruct (d_endf d); [discriminate|]. destruct (look _ _); [discriminate|]. destruct (nuclide_node d) as [g'|]; [|discriminate]. injection E as <-.
  unfold from_hdf5. cbn [app ordered fold_right insert fst]. destruct (String.leb name (d_name d)) eqn:L'; [reflexivity|]. destruct (String.leb_total name (d_name d)); congruence.
Qed.
Print Assumptions C71_first_refuted.
(** Of several nuclides in a file the one whose name comes first is read, wherever its group
    was written. *)
Theorem C71_first : forall f name g, In (name, g) f -> NoDup (map fst f) -> (forall name' g', In (name', g') f -> String.leb name name' = true) ->
  from_hdf5 f = nuclide_of name g.
Proof.
  intros f name g I0 N H. unfold from_hdf5. pose proof (ordered_sorted f) as St. pose proof (ordered_perm f) as P. destruct (ordered f) as [|[n' g'] l] eqn:E.
  - apply Permutation_nil in P. subst f. destruct I0.
  - assert (In (n', g') f) by (apply (Permutation_in _ P); now left).
    assert (In (name, g) ((n', g') :: l)) as [X|X] by (apply (Permutation_in _ (Permutation_sym P)); exact I0); [now injection X as -> ->|].
    inversion St as [|? ? S1 F]; subst. pose proof (proj1 (Forall_forall _ _) F _ X) as B. unfold before in B. cbn [fst] in B.
    pose proof (H _ _ H0) as B'. assert (n' = name) as -> by (now apply String.leb_antisym).
    assert (N' : NoDup (map fst ((name, g') :: l))) by (apply (Permutation_NoDup (Permutation_map fst (Permutation_sym P)) N)).
    exfalso. cbn [map fst] in N'. inversion N' as [|? ? Hn ?]; subst. apply Hn. apply (in_map fst) in X. exact X.
Qed.
Print Assumptions C71_first.
Example C71_first_of_two : exists f : file, length f = 2%nat /\ NoDup (map fst f) /\ In ("H1", group) f /\ hd_error (map fst f) = Some "U235" /\
  forall name' g', In (name', g') f -> String.leb "H1" name' = true.
Proof.
  exists [("U235", group); ("H1", group)]. repeat split; cbn; [repeat constructor; cbn; intuition discriminate | auto|].
  intros name' g' [E|[E|[]]]; injection E as <- <-; reflexivity.
Qed.

(** A temperature is called by its kelvins (with k = 8.6173303e-5 eV/K), halves going to
    the even neighbour. *)
Theorem C71_names : forall n, 0 <= n ->
  kelvin (qc (n * 86173303) 1000000000000) = String.append (NilZero.string_of_int (Z.to_int n)) "K" /\
  kelvin (qc ((2 * n + 1) * 86173303) 2000000000000) = String.append (NilZero.string_of_int (Z.to_int (if Z.even n then n else n + 1))) "K".
Proof.
  assert (R : forall q (f : Z), (qz f <= q)%Qc -> (q < qz f + 1)%Qc -> Qfloor q = f).
  { intros q f L U. assert (A1 : (inject_Z f <= this q)%Q).
    { rewrite <- (Qred_correct (inject_Z f)). exact L. }
    assert (A2 : (this q < inject_Z (f + 1))%Q).
    { rewrite <- (Qred_correct (inject_Z (f + 1))). assert (X : (qz f + 1 = qz (f + 1))%Qc).
      { apply Qc_is_canon. unfold qz, Qcplus, Q2Qc. cbn [this]. rewrite !Qred_correct. unfold Qeq. cbn. lia. }
      rewrite X in U. exact U. }
    pose proof (Qfloor_resp_le _ _ A1) as B1. rewrite Qfloor_Z in B1. pose proof (Qfloor_le q) as B2.
    assert (B3 : (inject_Z (Qfloor q) < inject_Z (f + 1))%Q) by (eapply Qle_lt_trans; eassumption). rewrite <- Zlt_Qlt in B3. lia. }
  assert (D : forall a : Z, forall b : positive, (qc (a * 86173303) (b * 1000000000000) / K_BOLTZMANN = qc a b)%Qc).
  { intros a b. apply Qc_is_canon. unfold K_BOLTZMANN, qc, Qcdiv, Qcmult, Qcinv, Q2Qc. cbn [this]. rewrite !Qred_correct. 
    unfold Qeq, Qmult, Qinv. cbn [Qnum Qden]. rewrite !Pos2Z.inj_mul. ring. }
  intros n Hn. split; unfold kelvin, round_half_even.
  - change 1000000000000%positive with (1 * 1000000000000)%positive. rewrite D. rewrite (R (qc n 1) n).
    + assert (E : (qc n 1 - qz n = 0)%Qc) by (change (qc n 1) with (qz n); ring). rewrite E. reflexivity.
    + apply Qcle_refl.
    + apply Qclt_minus_iff. assert (E : (qz n + 1 + - qc n 1 = 1)%Qc) by (change (qc n 1) with (qz n); ring). rewrite E. reflexivity.
  - change 2000000000000%positive with (2 * 1000000000000)%positive. rewrite D.
    assert (E : (qc (2 * n + 1) 2 = qz n + qc 1 2)%Qc) by (apply Qc_is_canon; unfold qz, qc, Qcplus, Q2Qc; cbn [this]; rewrite !Qred_correct; unfold Qeq, Qplus; cbn [Qnum Qden]; lia).
    rewrite (R (qc (2 * n + 1) 2) n).
    + assert (E' : (qc (2 * n + 1) 2 - qz n = qc 1 2)%Qc) by (rewrite E; ring). rewrite E'. reflexivity.
    + rewrite E. apply Qcle_minus_iff. assert (X : (qz n + qc 1 2 + - qz n = qc 1 2)%Qc) by ring. rewrite X. discriminate.
    + rewrite E. apply Qclt_minus_iff. assert (X : (qz n + 1 + - (qz n + qc 1 2) = 1 + - qc 1 2)%Qc) by ring. rewrite X. reflexivity.
Qed.
Print Assumptions C71_names.
(** 0.5 K and 1.5 K. *)
Example C71_names_hypotheses_met : kelvin (qc 86173303 2000000000000) = "0K" /\ kelvin (qc (3 * 86173303) 2000000000000) = "2K".
Proof. split; vm_compute; reflexivity. Qed.

(** The cross sections of a reaction read are those of the groups named after a temperature
    that have one; groups without one are passed over. *)
Theorem C71_sections : forall energy n r, rx_of energy n = Some r -> forall t, In t (map fst (x_xs r)) <->
  exists g, In (t, g) (let 'Node _ _ ks := n in ks) /\ ends_in_k t = true /\ kid g "xs" <> None.
Proof.
  intros energy n r E t. unfold rx_of in E. destruct (integer _); [|discriminate]. destruct (num _); [|discriminate]. destruct (integer _); [|discriminate].
  destruct (match attr n "redundant" with None => _ | Some _ => _ end); [|discriminate]. destruct (read_xs energy (items n)) as [xs|] eqn:R; [|discriminate].
  destruct (all_some _); [|discriminate]. injection E as <-. cbn [x_xs].
  assert (H : forall l xs, read_xs energy l = Some xs -> (In t (map fst xs) <-> exists g, In (t, g) l /\ ends_in_k t = true /\ kid g "xs" <> None)).
  { clear. induction l as [|[t' g] l IH]; cbn [read_xs]; intros xs E.
    - injection E as <-. split; [intros []|]. intros (g & [] & _).
    - destruct (ends_in_k t') eqn:K.
      + destruct (kid g "xs") as [d|] eqn:Kd.
        * destruct (look t' energy); [|discriminate]. destruct (nums _); [|discriminate]. destruct (integer _); [|discriminate].
          destruct (read_xs energy l) as [ys|] eqn:R; [|discriminate]. injection E as <-. cbn [map fst In]. rewrite (IH ys eq_refl). split.
          -- intros [<-|(g' & I0 & X)]; [exists g; rewrite Kd; repeat split; [now left | exact K | discriminate] | exists g'; split; [now right | exact X]].
          -- intros (g' & [Y|I0] & X); [injection Y as <- <-; now left | right; exists g'; now split].
        * rewrite (IH xs E). split; intros (g' & I0 & X1 & X2).
          -- exists g'. split; [now right | now split].
          -- destruct I0 as [Y|I0]; [injection Y as <- <-; congruence | exists g'; now repeat split].
      + rewrite (IH xs E). split; intros (g' & I0 & X1 & X2).
        * exists g'. split; [now right | now split].
        * destruct I0 as [Y|I0]; [injection Y as <- <-; congruence | exists g'; now repeat split]. }
  rewrite (H _ _ R). destruct n as [a v ks]. cbn [items]. split; intros (g & I0 & X); exists g; (split; [|exact X]).
  - apply (Permutation_in _ (ordered_perm ks)). exact I0.
  - apply (Permutation_in _ (Permutation_sym (ordered_perm ks))). exact I0.
Qed.
Print Assumptions C71_sections.
(** Two temperatures, the first without a cross section. *)
Example C71_sections_hypotheses_met :
  let x := Node [("threshold_idx", VInt 1)] (Some (VNums [qz 3; qz 4])) [] in
  option_map (fun r => map fst (x_xs r)) (rx_of [("294K", [qz 1; qz 2])]
    (Node [("mt", VInt 102); ("Q_value", VNum 0%Qc); ("center_of_mass", VInt 0)] None [("100K", group); ("294K", Node [] None [("xs", x)])])) = Some ["294K"].
Proof. vm_compute. reflexivity. Qed.

(** Not true: what can be held can be exported.  Temperatures that round to the same kelvin
    cannot. *)
Theorem C71_collide_refuted : forall d f, ~ NoDup (temperatures d) -> export_to_hdf5 d f = None.
Proof.
  intros d f N. unfold export_to_hdf5. destruct (d_endf d); [reflexivity|]. destruct (look _ _); [reflexivity|]. unfold nuclide_node, group. rewrite write_all_dup; [reflexivity | constructor | cbn [map app]; now rewrite kts_names].
Qed.
Print Assumptions C71_collide_refuted.
(** Not true: what was read can be exported again.  A sum that reading made, of a kind that is
    written, stops the export; so do the levels of inelastic scattering, of (n,2n) or of
    (n,p) to (n,alpha) in a file without the reaction itself. *)
Lemma xs_sum t l : forall xs n, In (t, Added l) xs -> write_xs xs n = None.
Proof.
  induction xs as [|[u x] xs IH]; intros n I0; [destruct I0|]. cbn [write_xs]. destruct I0 as [[= -> ->]|I0]; [reflexivity|]. destruct (xs_node x); [|reflexivity]. destruct (create _ _ n); [|reflexivity]. now apply IH.
Qed.
Lemma reactions_sum mt r t l : skipped r = false -> In (t, Added l) (x_xs r) -> forall rs n nu, In (mt, r) rs -> write_reactions rs n nu = None.
Proof.
  intros K X. induction rs as [|[m u] rs IH]; intros n nu I0; [destruct I0|]. cbn [write_reactions]. destruct I0 as [[= -> ->]|I0].
  - rewrite K. unfold rx_node. now rewrite (xs_sum t l).
  - destruct (skipped u); [now apply IH|]. destruct (rx_node u); [|reflexivity]. destruct (create _ _ n); [|reflexivity]. destruct (match nu with None => _ | Some _ => _ end); [now apply IH | reflexivity].
Qed.
Lemma export_sum d mt r t l f : In (mt, r) (d_rx d) -> written r -> In (t, Added l) (x_xs r) -> export_to_hdf5 d f = None.
Proof.
  intros I0 Wr X. unfold export_to_hdf5. destruct (d_endf d); [reflexivity|]. destruct (look _ _); [reflexivity|]. unfold nuclide_node. destruct (write_all _ _ group); [|reflexivity]. destruct (create "kTs" _ _); [|reflexivity]. destruct (grids d); [|reflexivity].
  destruct (write_all _ _ group); [|reflexivity]. destruct (create "energy" _ _); [|reflexivity]. rewrite (reactions_sum mt r t l); auto. now apply skipped_written.
Qed.
Theorem C71_again_refuted : forall d d' mt parts m r f, stored d d' -> d_kts d <> [] -> In mt [4; 16; 103; 104; 105; 106; 107] -> In (mt, parts) Sums_Model.sum_rules ->
  (forall r, In (mt, r) (d_rx d) -> ~ written r) -> In m parts -> In (m, r) (d_rx d) -> written r -> export_to_hdf5 d' f = None.
Proof.
  intros d d' mt parts m r f (_ & _ & _ & _ & nu & _ & K & Rb) NT M4 MR NW Im Ir Wr. destruct (K m r Ir Wr) as (r' & Er' & _). destruct (Rb mt NW) as [H _]. destruct (H parts MR) as (rs & T & _ & Hs).
  assert (rs <> []). { clear - T Im Er' Ir Wr. induction T as [|u v ps rs Eu Ea T IH|u ps rs E T IH]; [destruct Im | discriminate |]. destruct Im as [->|Im]; [|now apply IH]. destruct E as [E|E]; [congruence|]. exfalso. apply E. right. now exists r. }
  destruct (Hs H0) as (s & Es & Sm & _ & _ & _ & _ & _ & _ & Sx & _). unfold temperatures in Sx. destruct (d_kts d) as [|q ks]; [congruence|]. destruct (Sx (kelvin q) (or_introl eq_refl)) as (l & L & _).
  apply (export_sum d' mt s (kelvin q) l); [now apply reaction_In | right; right; now rewrite Sm | now apply look_In].
Qed.
Print Assumptions C71_again_refuted.
(** Not true: absorption that is made again is capture and fission.  Where fission itself is
    not in the file, it is made after absorption, which is capture alone. *)
Theorem C71_fission_refuted : forall d d', stored d d' -> (forall r, In (27, r) (d_rx d) -> ~ written r) -> (forall r, In (18, r) (d_rx d) -> ~ written r) ->
  match reaction_at (d_rx d') 101 with
  | None => reaction_at (d_rx d') 27 = None
  | Some c => exists r nu, reaction_at (d_rx d') 27 = Some r /\ sum_rx (temperatures d) nu 27 [c] r
  end.
Proof.
  intros d d' (_ & _ & _ & _ & nu & _ & _ & Rb) N27 N18. destruct (Rb 27 N27) as [H _]. destruct (H [18; 101]) as (rs & T & H0 & H1); [cbn; auto 10|].
  assert (L : ~ early d 27 18) by (intros [E|(r & I0 & Wr)]; [lia | exact (N18 r I0 Wr)]).
  inversion T as [|? ? ? ? ? ? _|? ? ? _ T1]; subst; [contradiction|]. clear T.
  inversion T1 as [|? r ? rs' E _ T2|? ? ? E T2]; subst; inversion T2; subst; clear T1 T2.
  - rewrite E. destruct H1 as (s & E1 & E2); [discriminate|]. exists s, nu. auto.
  - destruct E as [E|E]; [rewrite E; now apply H0 | exfalso; apply E; left; lia].
Qed.
Print Assumptions C71_fission_refuted.
(** Not true: derived products come back.  Of those of a fission reaction there is never
    more than one; other reactions have none. *)
Theorem C71_nu_refuted : forall d d' mt r, stored d d' -> In (mt, r) (d_rx d) -> written r -> (2 <= length (x_derived r))%nat \/ (x_derived r <> [] /\ ~ fission (x_mt r)) ->
  exists r', reaction_at (d_rx d') mt = Some r' /\ (length (x_derived r') < length (x_derived r))%nat.
Proof.
  intros d d' mt r (_ & _ & _ & _ & nu & Nu & K & _) I0 Wr H. destruct (K mt r I0 Wr) as (r' & E & _ & _ & _ & _ & _ & _ & F1 & F2). exists r'. split; [exact E|].
  assert (Ln : (length nu <= 1)%nat) by (destruct Nu as [[-> _]|(? & ? & ? & ? & ? & ? & ? & _ & _ & _ & _ & -> & _)]; cbn; lia).
  destruct (in_dec Z.eq_dec (x_mt r) [18; 19; 20; 21; 38]) as [Y|N].
  - rewrite (F1 Y). destruct H as [H|[_ H]]; [lia | contradiction].
  - rewrite (F2 N). destruct H as [H|[H _]]; [cbn; lia|]. destruct (x_derived r); [congruence | cbn; lia].
Qed.
Print Assumptions C71_nu_refuted.
(** Not true: a cross section comes back with its energies.  Those of the grid, from its first
    on, take their place: with values for fewer, there are more energies than values. *)
Theorem C71_grid_refuted : forall d d' mt r t f i es, stored d d' -> In (mt, r) (d_rx d) -> written r -> look t (x_xs r) = Some (Table f (Some i)) -> look t (d_energy d) = Some es ->
  (Z.to_nat i + length (fy f) < length es)%nat ->
  exists r' f', reaction_at (d_rx d') mt = Some r' /\ look t (x_xs r') = Some (Table f' (Some i)) /\ fy f' = fy f /\ (length (fy f') < length (fx f'))%nat.
Proof.
  intros d d' mt r t f i es (_ & _ & _ & _ & nu & _ & K & _) I0 Wr X E L. destruct (K mt r I0 Wr) as (r' & E' & _ & _ & _ & _ & Kx & _). specialize (Kx t). rewrite X in Kx. destruct (look t (x_xs r')) as [x'|] eqn:X'; [|contradiction].
  destruct Kx as (f0 & idx & [= <- <-] & ->). exists r'. eexists. split; [exact E'|]. split; [exact X'|]. split; [reflexivity|]. unfold at_temperature. rewrite E. cbn. rewrite skipn_length. lia.
Qed.
Print Assumptions C71_grid_refuted.
(** Not true: every reaction comes back.  One that is redundant, without photons, and not
    among the sums known is lost. *)
Theorem C71_lost_refuted : forall d d' mt, stored d d' -> (forall r, In (mt, r) (d_rx d) -> ~ written r) -> (forall parts, In (mt, parts) Sums_Model.sum_rules -> forall m, In m parts -> reaction_at (d_rx d') m = None) ->
  reaction_at (d_rx d') mt = None.
Proof.
  intros d d' mt (_ & _ & _ & _ & nu & _ & _ & Rb) NW H. destruct (Rb mt NW) as [H1 H2]. destruct (find (fun e => fst e =? mt) Sums_Model.sum_rules) as [[m0 parts]|] eqn:E.
  - apply find_some in E. destruct E as [E M]. apply Z.eqb_eq in M. cbn in M. subst m0. destruct (H1 parts E) as (rs & T & H3 & _). apply H3. specialize (H parts E). clear - T H.
    induction T as [|u v ps rs Eu Ea T IH|u ps rs E T IH]; [reflexivity | rewrite (H u (or_introl eq_refl)) in Eu; discriminate | apply IH; intros m I0; apply H; now right].
  - apply H2. intros parts I0. pose proof (find_none _ _ E _ I0) as X. cbn in X. rewrite Z.eqb_refl in X. discriminate.
Qed.
Print Assumptions C71_lost_refuted.

(** *** Examples *)
(** Uranium at 294 K and 1200 K: elastic, a level of inelastic scattering, (n,f) as first
    chance alone, capture with photons; a total that is redundant. *)
Definition ex_294 : list Qc := [qz 1; qz 2; qz 3].
Definition ex_1200 : list Qc := [qz 1; qz 3].
Definition ex_0 : list Qc := [qz 1; qz 4].
Definition ex_xs (i : nat) (y z : list Qc) : list (string * xsec) :=
  [("1200K", Table (linear (skipn i ex_1200) y) (Some (Z.of_nat i))); ("294K", Table (linear (skipn i ex_294) z) (Some (Z.of_nat i)))].
Definition ex_photon : prod := mkProduct false Prompt 0%Qc (Poly [qz 1]) [] [(Uncorrelated (Some (Photon 0 (qz 5) (qz 10))), None)].
Definition ex_neutron : prod := mkProduct true Prompt 0%Qc (Tabd Hdf_Props.ex_fn) [] [(Uncorrelated None, Some Hdf_Props.ex_angle)].
Definition ex_2 : nrx := mkNrx 2 0%Qc true false (("0K", Table (linear ex_0 [qz 7; qz 8]) None) :: ex_xs 0 [qz 5; qz 6] [qz 5; qz 6; qz 7]) [ex_neutron] [].
Definition ex_51 : nrx := mkNrx 51 (qz (-1)) true false (ex_xs 1 [qz 1] [qz 1; qz 2]) [ex_neutron] [].
Definition ex_19 : nrx := mkNrx 19 (qz 200) false false (ex_xs 0 [qz 3; qz 4] [qz 3; qz 3; qz 4]) [ex_neutron; Hdf_Props.ex_product] [Hdf_Props.ex_product; ex_neutron].
Definition ex_102 : nrx := mkNrx 102 (qz 6) false false (ex_xs 0 [qz 2; qz 1] [qz 2; qz 1; qz 1]) [ex_photon] [].
Definition ex_1 : nrx := mkNrx 1 0%Qc true true (ex_xs 0 [qz 10; qz 12] [qz 10; qz 11; qz 14]) [] [].
Definition ex_18 : nrx := mkNrx 18 0%Qc true true (ex_xs 0 [qz 3; qz 4] [qz 3; qz 3; qz 4]) [] [].
Definition ex_urr : urr := mkUrr [qz 1; qz 2] [[[qz 1; qz 2]]; [[qz 3; qz 4]]] 5 (-1) 0 true.
Definition ex_d : nuclide := mkNuclide false "U235" 92 235 0 (qz 233) [(qz 294 * K_BOLTZMANN)%Qc; (qz 1200 * K_BOLTZMANN)%Qc] [("294K", ex_294); ("1200K", ex_1200); ("0K", ex_0)]
  [(1, ex_1); (18, ex_18); (2, ex_2); (51, ex_51); (19, ex_19); (102, ex_102)] [("294K", ex_urr)].
Lemma ex_temperatures : temperatures ex_d = ["294K"; "1200K"].
Proof. vm_compute. reflexivity. Qed.
Lemma ex_photon_fine : product_fine ex_photon.
Proof. split; [discriminate|]. split; [exact I|]. split; [repeat constructor|]. split; [now left | constructor]. Qed.
Lemma ex_neutron_fine : product_fine ex_neutron.
Proof. split; [discriminate|]. split; [reflexivity|]. split; [repeat constructor; discriminate|]. split; [now left | constructor]. Qed.
Lemma ex_both_fine i y z ps qs mt q cm red : Forall product_fine ps -> Forall product_fine qs -> rx_fine ex_d (mkNrx mt q cm red (ex_xs i y z) ps qs).
Proof.
  intros Ps Qs. unfold rx_fine. rewrite ex_temperatures. cbn [x_xs x_products x_derived ex_xs map fst]. split; [repeat constructor; cbn; intuition discriminate|]. split; [intros t [<-|[<-|[]]]; discriminate|]. split; [|auto].
  intros t x I0. unfold gridded. rewrite ex_temperatures. destruct I0 as [[= <- <-]|[[= <- <-]|[]]]; cbn; (split; [auto|]; split; [discriminate | lia]).
Qed.
Lemma ex_fine : nuclide_fine ex_d.
Proof.
  assert (PF : product_fine Hdf_Props.ex_product) by apply Hdf_Props.C70_product_hypotheses_met. pose proof ex_photon_fine as Ph. pose proof ex_neutron_fine as Ne.
  unfold nuclide_fine. rewrite ex_temperatures. split; [reflexivity|]. cbn [ex_d d_z d_a d_m d_awr]. do 3 (split; [lia|]). split; [reflexivity|]. split; [repeat constructor; cbn; intuition discriminate|]. split; [intros t [<-|[<-|[]]]; discriminate|].
  split; [cbn; repeat constructor; cbn; intuition lia|]. split; [|split; [repeat constructor; intros []|]].
  - intros mt r I0. cbn [ex_d d_rx In] in I0. destruct I0 as [[= <- <-]|[[= <- <-]|[[= <- <-]|[[= <- <-]|[[= <- <-]|[[= <- <-]|[]]]]]]]; (split; [reflexivity|]; split; [lia|]; intros _); try (apply ex_both_fine; repeat (apply Forall_cons; [assumption|]); apply Forall_nil).
    unfold rx_fine. rewrite ex_temperatures. cbn [ex_2 x_xs x_products x_derived ex_xs map fst]. split; [repeat constructor; cbn; intuition discriminate|]. split; [intros t [<-|[<-|[]]]; discriminate|]. split; [|split; repeat (apply Forall_cons; [assumption|]); apply Forall_nil].
    intros t x I0. unfold gridded. rewrite ex_temperatures. destruct I0 as [[= <- <-]|[[= <- <-]|[[= <- <-]|[]]]]; cbn; (split; [auto|]; split; [discriminate | auto; lia]).
  - intros t u [[= _ <-]|[]]. now right.
Qed.
Example C71_round_trip_hypotheses_met : nuclide_fine ex_d /\ look (d_name ex_d) [("U238", group)] = None.
Proof. split; [exact ex_fine | reflexivity]. Qed.
(** What is read back, by number: its cross sections at 294 K as the values of the tables they
    are sums of. *)
Definition read_back (d : nuclide) : option nuclide := match export_to_hdf5 d [] with Some f => from_hdf5 f | None => None end.
Definition values (d : nuclide) (t : string) (mt : Z) : option (list (list Q)) :=
  match reaction_at (d_rx d) mt with Some r => match look t (x_xs r) with Some x => Some (map (fun f => map this (fy f)) (leaves x)) | None => None end | None => None end.
Lemma back_stored d d' : nuclide_fine d -> read_back d = Some d' -> stored d d'.
Proof. intros F E. destruct (C71_round_trip d F) as (g & d1 & E1 & E2 & S). unfold read_back in E. rewrite E1, E2 in E. injection E as <-. exact S. Qed.
Lemma ex_back : exists d', read_back ex_d = Some d' /\ stored ex_d d'.
Proof. destruct (C71_round_trip ex_d ex_fine) as (g & d' & E1 & E2 & S). exists d'. split; [unfold read_back; now rewrite E1, E2 | exact S]. Qed.
Example C71_example : option_map (fun d => (temperatures d, map (fun e => (fst e, x_redundant (snd e), Z.of_nat (length (x_products (snd e))), Z.of_nat (length (x_derived (snd e))))) (d_rx d), values d "294K" 51, values d "0K" 2, map fst (d_urr d))) (read_back ex_d) =
  Some (["1200K"; "294K"], [(2, false, 1, 0); (19, false, 2, 1); (51, false, 1, 0); (102, false, 1, 0); (101, true, 0, 0); (27, true, 0, 0); (18, true, 0, 1); (4, true, 0, 0); (3, true, 0, 0); (1, true, 0, 0)],
        Some [[1#1; 2#1]]%Q, Some [[7#1; 8#1]]%Q, ["294K"]).
Proof. vm_compute. reflexivity. Qed.
(** Not true: temperatures keep their order. *)
Theorem C71_order_refuted : exists d d', nuclide_fine d /\ read_back d = Some d' /\ temperatures d = ["294K"; "1200K"] /\ temperatures d' = ["1200K"; "294K"].
Proof.
  destruct ex_back as (d' & E & S). exists ex_d, d'. split; [exact ex_fine|]. split; [exact E|]. split; [exact ex_temperatures|]. pose proof C71_example as X. rewrite E in X. now injection X.
Qed.
Print Assumptions C71_order_refuted.
(** Not true: total is made of all there is.  Fission in parts is left out. *)
Theorem C71_total_refuted : exists d d', nuclide_fine d /\ read_back d = Some d' /\ values d "294K" 1 = Some [[10#1; 11#1; 14#1]]%Q /\
  values d' "294K" 19 = Some [[3#1; 3#1; 4#1]]%Q /\ values d' "294K" 18 = Some [[3#1; 3#1; 4#1]]%Q /\ values d' "294K" 27 = Some [[2#1; 1#1; 1#1]]%Q /\
  values d' "294K" 1 = Some [[5#1; 6#1; 7#1]; [1#1; 2#1]; [2#1; 1#1; 1#1]]%Q.
Proof.
  destruct ex_back as (d' & E & S). exists ex_d, d'. split; [exact ex_fine|]. split; [exact E|]. split; [vm_compute; reflexivity|].
  assert (X : option_map (fun d => (values d "294K" 19, values d "294K" 18, values d "294K" 27, values d "294K" 1)) (read_back ex_d) =
    Some (Some [[3#1; 3#1; 4#1]]%Q, Some [[3#1; 3#1; 4#1]]%Q, Some [[2#1; 1#1; 1#1]]%Q, Some [[5#1; 6#1; 7#1]; [1#1; 2#1]; [2#1; 1#1; 1#1]]%Q)) by (vm_compute; reflexivity).
  rewrite E in X. cbn [option_map] in X. injection X as X1 X2 X3 X4. auto.
Qed.
Print Assumptions C71_total_refuted.
(** It can be read, and not be exported again. *)
Example C71_again_hypotheses_met : exists d', stored ex_d d' /\ d_kts ex_d <> [] /\ In 4 [4; 16; 103; 104; 105; 106; 107] /\ In (4, Sums_Model.rule 4) Sums_Model.sum_rules /\
  (forall r, In (4, r) (d_rx ex_d) -> ~ written r) /\ In 51 (Sums_Model.rule 4) /\ In (51, ex_51) (d_rx ex_d) /\ written ex_51.
Proof.
  destruct ex_back as (d' & _ & S). exists d'. split; [exact S|]. split; [discriminate|]. split; [now left|]. split; [cbn; auto|]. split; [intros r I0; cbn in I0; intuition congruence|]. split; [cbn; auto|]. split; [cbn; auto 10 | now left].
Qed.
Example C71_fission_hypotheses_met : exists d', stored ex_d d' /\ (forall r, In (27, r) (d_rx ex_d) -> ~ written r) /\ (forall r, In (18, r) (d_rx ex_d) -> ~ written r).
Proof.
  destruct ex_back as (d' & _ & S). exists d'. split; [exact S|]. split; intros r I0; cbn [ex_d d_rx In] in I0; [intuition congruence|]. assert (r = ex_18) as -> by intuition congruence.
  intros Wr. apply skipped_written in Wr. discriminate.
Qed.
Example C71_same_hypotheses_met : exists d', stored ex_d d' /\ In (51, ex_51) (d_rx ex_d) /\ written ex_51 /\ on_grid ex_d ex_51 /\ Forall plain_product (x_products ex_51).
Proof.
  destruct ex_back as (d' & _ & S). exists d'. split; [exact S|]. split; [cbn; auto 10|]. split; [now left|]. split.
  - intros t x L. apply look_In in L. destruct L as [[= <- <-]|[[= <- <-]|[]]]; [exists 1, [qz 1] | exists 1, [qz 1; qz 2]]; reflexivity.
  - constructor; [|constructor]. split; [|cbn; lia]. constructor; [|constructor]. split; [exact I|]. constructor; [now right | constructor].
Qed.
Example C71_nu_hypotheses_met : exists d', stored ex_d d' /\ In (19, ex_19) (d_rx ex_d) /\ written ex_19 /\ (2 <= length (x_derived ex_19))%nat.
Proof. destruct ex_back as (d' & _ & S). exists d'. split; [exact S|]. split; [cbn; auto 10|]. split; [now left | cbn; lia]. Qed.
(** A reaction with a value at the first of two energies only. *)
Definition ex_short : nuclide := mkNuclide false "H1" 1 1 0 (qc 999 1000) [(qz 294 * K_BOLTZMANN)%Qc] [("294K", ex_294)]
  [(102, mkNrx 102 (qz 2) false false [("294K", Table (linear [qz 1] [qz 5]) (Some 0))] [] []); (101, mkNrx 101 0%Qc true true [("294K", Table (linear ex_294 [qz 5; qz 0; qz 0]) None)] [] [])] [].
Lemma short_temperatures : temperatures ex_short = ["294K"]. Proof. vm_compute. reflexivity. Qed.
Lemma short_fine : nuclide_fine ex_short.
Proof.
  unfold nuclide_fine. rewrite short_temperatures. split; [reflexivity|]. cbn [ex_short d_z d_a d_m d_awr]. do 3 (split; [lia|]). split; [reflexivity|]. split; [repeat constructor; intros []|]. split; [intros t [<-|[]]; discriminate|].
  split; [cbn; repeat constructor; cbn; intuition lia|]. split; [|split; [constructor | intros t u []]].
  intros mt r [[= <- <-]|[[= <- <-]|[]]]; (split; [reflexivity|]; split; [lia|]; intros _; unfold rx_fine; rewrite short_temperatures; cbn [x_xs x_products x_derived map fst]; split; [repeat constructor; intros []|]; split; [intros t [<-|[]]; discriminate|]; split; [|auto]);
    intros t x [[= <- <-]|[]]; unfold gridded; rewrite short_temperatures; cbn; (split; [auto|]; split; [discriminate | auto; lia]).
Qed.
Example C71_grid_hypotheses_met : exists d' r, stored ex_short d' /\ In (102, r) (d_rx ex_short) /\ written r /\ look "294K" (x_xs r) = Some (Table (linear [qz 1] [qz 5]) (Some 0)) /\ look "294K" (d_energy ex_short) = Some ex_294 /\ (Z.to_nat 0 + 1 < length ex_294)%nat.
Proof. destruct (C71_round_trip ex_short short_fine) as (g & d' & _ & _ & S). exists d'. eexists. split; [exact S|]. split; [left; reflexivity|]. split; [now left|]. split; [reflexivity|]. split; [reflexivity | cbn; lia]. Qed.
(** Absorption of a table that lists no reactions: redundant, and lost, and total with it. *)
Definition ex_dark : nuclide := mkNuclide false "H1" 1 1 0 (qc 999 1000) [(qz 294 * K_BOLTZMANN)%Qc] [("294K", ex_294)]
  [(2, mkNrx 2 0%Qc true false [("294K", Table (linear ex_294 [qz 5; qz 5; qz 5]) (Some 0))] [] []); (101, mkNrx 101 0%Qc true true [("294K", Table (linear ex_294 [qz 5; qz 4; qz 3]) None)] [] [])] [].
Lemma dark_fine : nuclide_fine ex_dark.
Proof.
  assert (T : temperatures ex_dark = ["294K"]) by (vm_compute; reflexivity). unfold nuclide_fine. rewrite T. split; [reflexivity|]. cbn [ex_dark d_z d_a d_m d_awr]. do 3 (split; [lia|]). split; [reflexivity|]. split; [repeat constructor; intros []|]. split; [intros t [<-|[]]; discriminate|].
  split; [cbn; repeat constructor; cbn; intuition lia|]. split; [|split; [constructor | intros t u []]].
  intros mt r [[= <- <-]|[[= <- <-]|[]]]; (split; [reflexivity|]; split; [lia|]; intros _; unfold rx_fine; rewrite T; cbn [x_xs x_products x_derived map fst]; split; [repeat constructor; intros []|]; split; [intros t [<-|[]]; discriminate|]; split; [|auto]);
    intros t x [[= <- <-]|[]]; unfold gridded; rewrite T; cbn; (split; [auto|]; split; [discriminate | auto; lia]).
Qed.
Example C71_lost_hypotheses_met : exists d', stored ex_dark d' /\ read_back ex_dark = Some d' /\ (exists r, In (101, r) (d_rx ex_dark)) /\ (forall r, In (101, r) (d_rx ex_dark) -> ~ written r) /\
  (forall parts, In (101, parts) Sums_Model.sum_rules -> forall m, In m parts -> reaction_at (d_rx d') m = None) /\ values d' "294K" 1 = Some [[5#1; 5#1; 5#1]]%Q.
Proof.
  destruct (C71_round_trip ex_dark dark_fine) as (g & d' & E1 & E2 & S). assert (B : read_back ex_dark = Some d') by (unfold read_back; now rewrite E1, E2). exists d'. split; [exact S|]. split; [exact B|]. split; [eexists; cbn; eauto|]. split.
  { intros r [[= _]|[[= <-]|[]]] Wr. apply skipped_written in Wr. discriminate. }
  assert (X : option_map (fun d => (map fst (d_rx d), values d "294K" 1)) (read_back ex_dark) = Some ([2; 1], Some [[5#1; 5#1; 5#1]]%Q)) by (vm_compute; reflexivity). rewrite B in X. cbn [option_map] in X. injection X as X1 X2. split; [|exact X2].
  intros parts I0 m Im. assert (K : forallb (fun e => negb (fst e =? 101) || forallb (fun m => negb ((m =? 1) || (m =? 2))) (snd e)) Sums_Model.sum_rules = true) by reflexivity.
  rewrite forallb_forall in K. specialize (K _ I0). cbn [fst snd Z.eqb Pos.eqb negb orb] in K. rewrite forallb_forall in K. specialize (K m Im).
  apply reaction_none. rewrite X1. intros [<-|[<-|[]]]; discriminate.
Qed.
(** Two temperatures that differ by a fifth of a kelvin. *)
Example C71_collide_hypotheses_met : ~ NoDup (temperatures (mkNuclide false "H1" 1 1 0 (qz 1) [(qz 294 * K_BOLTZMANN)%Qc; (qc 1471 5 * K_BOLTZMANN)%Qc] [] [] [])).
Proof. intros N. assert (E : temperatures (mkNuclide false "H1" 1 1 0 (qz 1) [(qz 294 * K_BOLTZMANN)%Qc; (qc 1471 5 * K_BOLTZMANN)%Qc] [] [] []) = ["294K"; "294K"]) by (vm_compute; reflexivity). rewrite E in N. inversion N as [|? ? H _]; subst. apply H. now left. Qed.
Example C71_first_hypotheses_met : String.leb (d_name ex_d) "H1" = false /\ exists f, export_to_hdf5 ex_d [("H1", group)] = Some f.
Proof. split; [reflexivity|]. destruct (C71_group ex_d [("H1", group)] ex_fine eq_refl) as (g & d' & E & _). eauto. Qed.
(** A table with laws, as in Law_Props.v. *)
Definition ace_readers : readers law angle := mkReaders law angle (fun _ _ _ _ _ _ => 0%Qc) (law_from_ace (qz 10)) (fun _ => true) (Uncorrelated None) (fun _ _ _ => Some Hdf_Props.ex_angle) (fun _ _ => Hdf_Props.ex_angle) (fun _ => None).
Lemma ace_products n x : from_ace ace_readers Law_Props.tx_a = Some (n, x) -> forall mt r, In (mt, r) (n_reactions n) -> Forall product_fine (r_products r) /\ Forall product_fine (r_derived r).
Proof.
  intros E. assert (F : Forall (fun e => Forall product_fine (fst e) /\ Forall product_fine (snd e)) (map (fun e => (r_products (snd e), r_derived (snd e))) (n_reactions n))).
  { assert (X : option_map (fun p => map (fun e => (r_products (snd e), r_derived (snd e))) (n_reactions (fst p))) (from_ace ace_readers Law_Props.tx_a) = Some (map (fun e => (r_products (snd e), r_derived (snd e))) (n_reactions n))) by now rewrite E.
    clear E. revert X. generalize (map (fun e : Z * @reaction law angle => (r_products (snd e), r_derived (snd e))) (n_reactions n)). intros l X.
    match type of X with ?L = _ => let v := eval vm_compute in L in assert (Y : L = v) by (vm_compute; reflexivity) end. rewrite Y in X. clear Y. injection X as <-.
    repeat match goal with |- Forall _ (_ :: _) => apply Forall_cons | |- Forall _ [] => apply Forall_nil | |- Forall _ _ /\ Forall _ _ => split; cbn [fst snd] end.
    all: split; [discriminate|]; split; [first [exact I | reflexivity]|]; split; [|split; [first [now left | right; cbn; lia] | repeat constructor]].
    all: cbn [p_dist]; repeat match goal with |- Forall law_fine (_ :: _) => apply Forall_cons | |- Forall law_fine [] => apply Forall_nil end.
    all: try (split; [first [exact I | reflexivity | cbn; auto] | first [exact I | reflexivity | split; [reflexivity | repeat constructor; discriminate]]]).
    all: try (split; [reflexivity | split; [lia | reflexivity]]).
    split; [reflexivity|]. split; [reflexivity|]. constructor; [|constructor; [split; [discriminate | right; repeat constructor; discriminate] | constructor]].
    split; [repeat constructor; discriminate|]. split; [repeat constructor; discriminate|]. split; [discriminate|]. eexists. split; [eexists; exists []; split; reflexivity | split; discriminate]. }
  intros mt r I0. rewrite Forall_map, Forall_forall in F. exact (F (mt, r) I0).
Qed.
Example C71_ace_hypotheses_met : exists n x, from_ace ace_readers Law_Props.tx_a = Some (n, x) /\ says Law_Props.tx_a Nubar_Props.ex_c /\ apart Law_Props.tx_a Nubar_Props.ex_c /\ listed_once Nubar_Props.ex_c /\
  (forall h, In h (c_channels Nubar_Props.ex_c) -> 0 <= c_mt h) /\ (forall mt r, In (mt, r) (n_reactions n) -> Forall product_fine (r_products r) /\ Forall product_fine (r_derived r)) /\
  option_map (fun d => (map fst (d_rx d), values d "294K" 16)) (read_back (of_ace "U235" 92 235 0 (qz 233) (qz 294 * K_BOLTZMANN)%Qc n x)) = Some ([2; 5; 16; 18; 102; 101; 27; 3; 1], Some [[2#1; 3#1]]%Q).
Proof.
  destruct Law_Props.C69_products_hypotheses_met as (S & P & O & _). destruct (from_ace ace_readers Law_Props.tx_a) as [[n x]|] eqn:E; [|vm_compute in E; discriminate]. exists n, x. split; [reflexivity|]. split; [exact S|]. split; [exact P|]. split; [exact O|].
  split; [intros h Ih; cbn in Ih; intuition (subst; cbn; lia)|]. split; [exact (ace_products n x E)|].
  assert (X : match from_ace ace_readers Law_Props.tx_a with Some (n, x) => option_map (fun d => (map fst (d_rx d), values d "294K" 16)) (read_back (of_ace "U235" 92 235 0 (qz 233) (qz 294 * K_BOLTZMANN)%Qc n x)) | None => None end = Some ([2; 5; 16; 18; 102; 101; 27; 3; 1], Some [[2#1; 3#1]]%Q)) by (vm_compute; reflexivity).
  rewrite E in X. exact X.
Qed.
