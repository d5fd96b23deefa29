(** What a table of photon data says, proofs. *)
From Coq Require Import ZArith QArith Qcanon List Bool Lia String.
From Verif Require Import Num Neut_Model Neut_Spec Neut_Proofs Hdf_Model Atom_Model Atom_Spec.
From Verif Require Sab_Model Sab_Proofs.
Import ListNotations.
Local Open Scope string_scope.
Local Open Scope list_scope.
Local Open Scope Z_scope.

Lemma names_subshells : names = SUBSHELLS.
Proof. vm_compute. reflexivity. Qed.
Lemma names_nodup : NoDup names.
Proof. rewrite names_subshells. repeat constructor; cbn; intuition discriminate. Qed.
Lemma named_subshell d s : named d s -> subshell d = Some (Some s).
Proof.
  intros [H N]. unfold subshell. destruct (Z.eqb_spec d 0); [lia|]. rewrite names_subshells in N. unfold at_. destruct (Z.leb_spec 0 (d - 1)); [|lia]. now rewrite N.
Qed.
Lemma named_shell d s : named d s -> shell_of d = Some s.
Proof. intros H. unfold shell_of. now rewrite (named_subshell d s H). Qed.
Lemma part_subshell d s : part d s -> subshell d = Some s.
Proof. intros [[-> ->]|(n & N & ->)]; [reflexivity|now apply named_subshell]. Qed.
Lemma named_inj d d' s : named d s -> named d' s -> d = d'.
Proof.
  intros [H N] [H' N']. pose proof names_nodup as ND. rewrite NoDup_nth_error in ND. assert (L : (Z.to_nat (d - 1) < List.length names)%nat) by (apply nth_error_Some; congruence).
  specialize (ND _ (Z.to_nat (d' - 1)) L). rewrite N, N' in ND. specialize (ND eq_refl). lia.
Qed.
Lemma named_fun d s s' : named d s -> named d s' -> s = s'.
Proof. intros [_ N] [_ N']. congruence. Qed.

(** ** Cross sections *)
Lemma mega_ev l : mega l = map ev l.
Proof. reflexivity. Qed.
Section Exp.
Context (exp : Qc -> Qc).
Lemma values_ok a c idx vs : says a c -> size vs = size (c_energy c) -> stands (xss a) idx vs -> table exp (c_energy c) vs (values exp a idx).
Proof.
  intros S L St. destruct (s_eszg a c S) as [N E]. apply stands_app in E as [E _]. unfold values, table. cbn [fx fy fbp fint]. split; [|split; [|split; [now rewrite N|reflexivity]]].
  - unfold grid. rewrite (slice_stands _ _ _ (nxs a 3) E) by exact N. rewrite mega_ev, map_map. reflexivity.
  - rewrite (slice_stands _ _ _ (nxs a 3) St) by (unfold size in *; congruence). clear. induction vs as [|v vs IH]; cbn [map]; constructor; [|exact IH]. destruct (qeqb_spec v 0%Qc) as [->|Ne]; [now left|now right].
Qed.
Lemma blocks_ok a c : says a c -> let n := nxs a 3 in stands (xss a) (jxs a 1 + 1 * n) (c_incoherent c) /\ stands (xss a) (jxs a 1 + 2 * n) (c_coherent c) /\ stands (xss a) (jxs a 1 + 3 * n) (c_photoelectric c) /\ stands (xss a) (jxs a 1 + 4 * n) (c_pair c).
Proof.
  intros S. cbn zeta. destruct (s_eszg a c S) as [N E]. destruct (s_lengths a c S) as (L1 & L2 & L3 & L4). unfold size in *. apply stands_app in E as [_ E]. apply stands_app in E as [E1 E]. apply stands_app in E as [E2 E]. apply stands_app in E as [E3 E4].
  assert (G : forall p q l, stands (xss a) p l -> p = q -> stands (xss a) q l) by (intros p q l H <-; exact H).
  split; [apply (G _ _ _ E1); lia|]. split; [apply (G _ _ _ E2); lia|]. split; [apply (G _ _ _ E3); lia|apply (G _ _ _ E4); lia].
Qed.
Lemma coherent_agreed : coherent_grid = agreed_coherent.
Proof. unfold coherent_grid, agreed_coherent. f_equal. Qed.
Lemma incoherent_agreed : incoherent_grid = agreed_incoherent.
Proof. unfold incoherent_grid, agreed_incoherent. f_equal. Qed.
Lemma factor_coherent a c : says a c -> factor a 502 = Some (linear (c_cx c) (c_cy c)).
Proof.
  intros S. destruct (s_factors a c S) as (L1 & L2 & L3). unfold size in *. unfold factor. rewrite coherent_agreed. cbn [Z.eqb Pos.eqb]. destruct (s_format a c S) as [(F & J3 & _ & J4 & St)|(F & _ & _ & X & St)].
  - destruct (Z.ltb_spec 0 (nxs a 6)); [|lia]. assert ((jxs a 4 - jxs a 3) / 3 = size (c_cx c)) as -> by (rewrite J4; replace (jxs a 3 + 3 * size (c_cx c) - jxs a 3) with (size (c_cx c) * 3) by lia; apply Z.div_mul; lia).
    apply stands_app in St as [Sx St]. apply stands_app in St as [_ Sy]. cbn beta iota zeta. rewrite (slice_stands _ _ _ _ Sx) by reflexivity. f_equal. f_equal. replace (jxs a 3 + size (c_cx c) + 2 * size (c_cx c)) with (jxs a 3 + size (c_cx c) + size (c_cx c) + size (c_cx c)) by lia.
    apply slice_stands; [|unfold size in *; lia]. unfold size. rewrite L2 in Sy. exact Sy.
  - destruct (Z.ltb_spec 0 (nxs a 6)); [lia|]. rewrite <- X. apply stands_app in St as [_ Sy]. cbn beta iota zeta. f_equal. f_equal. replace (jxs a 3 + 2 * Z.of_nat (List.length (c_cx c))) with (jxs a 3 + Z.of_nat (List.length (c_cx c)) + Z.of_nat (List.length (c_cx c))) by lia.
    apply slice_stands; [|lia]. rewrite L2 in Sy. exact Sy.
Qed.
Lemma factor_incoherent a c : says a c -> factor a 504 = Some (linear (c_ix c) (c_iy c)).
Proof.
  intros S. destruct (s_factors a c S) as (L1 & L2 & L3). unfold size in *. unfold factor. rewrite incoherent_agreed. cbn [Z.eqb Pos.eqb]. destruct (s_format a c S) as [(F & J3 & St & _)|(F & X & St & _)].
  - destruct (Z.ltb_spec 0 (nxs a 6)); [|lia]. assert ((jxs a 3 - jxs a 2) / 2 = size (c_ix c)) as -> by (rewrite J3; replace (jxs a 2 + 2 * size (c_ix c) - jxs a 2) with (size (c_ix c) * 2) by lia; apply Z.div_mul; lia).
    apply stands_app in St as [Sx Sy]. cbn beta iota zeta. rewrite (slice_stands _ _ _ _ Sx) by reflexivity. f_equal. f_equal. apply slice_stands; [exact Sy|unfold size in *; lia].
  - destruct (Z.ltb_spec 0 (nxs a 6)); [lia|]. rewrite <- X. cbn beta iota zeta. f_equal. f_equal. apply slice_stands; [exact St|lia].
Qed.

(** ** Compton profiles *)
Lemma all_some_forall2 {A B C} (f : A -> option C) (P : B -> C -> Prop) : forall la lb, Forall2 (fun i b => exists c, f i = Some c /\ P b c) la lb -> exists lc, all_some (map f la) = Some lc /\ Forall2 P lb lc.
Proof.
  intros la lb F. induction F as [|i b la lb (c & E & H) F (lc & El & Fl)]; [exists []; split; [reflexivity|constructor]|]. exists (c :: lc). cbn [map all_some]. rewrite E, El. split; [reflexivity|now constructor].
Qed.
Lemma forall2_seq {B} (Q : nat -> B -> Prop) : forall l s, (forall k b, nth_error l k = Some b -> Q (s + k)%nat b) -> Forall2 Q (seq s (List.length l)) l.
Proof.
  induction l as [|b l IH]; intros s H; cbn [List.length seq]; constructor.
  - specialize (H 0%nat b eq_refl). now rewrite Nat.add_0_r in H.
  - apply IH. intros k b' E. specialize (H (S k) b' E). now rewrite Nat.add_succ_r in H.
Qed.
Definition profile_is (p : prof) (f : fn) : Prop := f = mkFn (f_momenta p) (f_values p) [size (f_momenta p)] [f_interpolation p].
Lemma profile_ok a c k p : says a c -> nth_error (c_profs c) k = Some p -> profile a (Z.of_nat k) = Some (mkFn (f_momenta p) (f_values p) [size (f_momenta p)] [f_interpolation p]).
Proof.
  intros S E. destruct (s_profs a c S) as (_ & _ & _ & H). destruct (H k p E) as (L & loc & St1 & St2). unfold profile. rewrite (int_at_stands _ _ _ _ St1). rewrite (int_at_stands _ _ _ _ St2).
  apply stands_cons in St2 as [_ St2]. replace (jxs a 10 + loc - 1 + 1) with (jxs a 10 + loc) in St2 by lia. rewrite (int_at_stands _ _ _ _ St2). apply stands_cons in St2 as [_ St2]. apply stands_app in St2 as [Sx Sy].
  cbn zeta. rewrite (slice_stands _ _ _ _ Sx) by reflexivity. do 2 f_equal. replace (jxs a 10 + loc + 1 + 2 * size (f_momenta p)) with (jxs a 10 + loc + 1 + size (f_momenta p) + size (f_momenta p)) by lia. apply slice_stands; [exact Sy|unfold size in *; lia].
Qed.
Lemma compton_ok a c : says a c -> compton_from_ace a = Some (match c_profs c with [] => None | ps => Some (mkCompton (map f_electrons ps) (map (fun p => ev (f_binding p)) ps) (map (fun p => mkFn (f_momenta p) (f_values p) [size (f_momenta p)] [f_interpolation p]) ps)) end).
Proof.
  intros S. destruct (s_profs a c S) as (N & Se & Sb & _). unfold compton_from_ace. cbn zeta. destruct (Z.eqb_spec (nxs a 5) 0) as [E|E].
  - rewrite E in N. destruct (c_profs c); [reflexivity|discriminate].
  - assert (exists js, all_some (map (profile a) (range (nxs a 5))) = Some js /\ Forall2 profile_is (c_profs c) js) as (js & -> & F).
    { unfold range. rewrite N. unfold size at 1. rewrite Nat2Z.id, map_map. apply all_some_forall2. apply forall2_seq. intros k p Ek. eexists. split; [exact (profile_ok a c k p S Ek)|reflexivity]. }
    rewrite (slice_stands _ _ _ _ Se) by (rewrite map_length; exact N). rewrite (slice_stands _ _ _ _ Sb) by (rewrite map_length; exact N). rewrite mega_ev, map_map.
    assert (js = map (fun p => mkFn (f_momenta p) (f_values p) [size (f_momenta p)] [f_interpolation p]) (c_profs c)) as -> by (clear - F; induction F as [|p f l l' H F IH]; [reflexivity|cbn [map]; rewrite <- IH; unfold profile_is in H; now subst f]).
    destruct (c_profs c); [exfalso; apply E; rewrite N; reflexivity|reflexivity].
Qed.

(** ** Relaxation *)
Lemma records_ok x : forall ts idx (first : bool) before, (if first then before = 0%Qc else at_ x (idx - 1) = Some before) -> stands x idx (flat_map words ts) ->
  (forall t, In t ts -> (exists n, part (t_second t) n) /\ exists n, part (t_third t) n) ->
  exists rows, records x idx first (List.length ts) = Some (rows, idx + 4 * size ts) /\ own before ts rows.
Proof.
  induction ts as [|t ts IH]; intros idx first before B St H; cbn [List.length records].
  - exists []. split; [do 2 f_equal; unfold size; cbn; lia|constructor].
  - destruct (H t (or_introl eq_refl)) as [(j & Pj) (k & Pk)]. cbn [flat_map] in St. unfold words at 1 in St. cbn [app] in St.
    rewrite (int_at_stands _ _ _ _ St), (part_subshell _ _ Pj). apply stands_cons in St as [_ St]. rewrite (int_at_stands _ _ _ _ St), (part_subshell _ _ Pk). apply stands_cons in St as [_ St]. replace (idx + 1 + 1) with (idx + 2) in St by lia.
    rewrite (at_stands _ _ _ _ St). apply stands_cons in St as [_ St]. replace (idx + 2 + 1) with (idx + 3) in St by lia. pose proof (at_stands _ _ _ _ St) as A3. rewrite A3. apply stands_cons in St as [_ St]. replace (idx + 3 + 1) with (idx + 4) in St by lia.
    destruct (IH (idx + 4) false (t_cumulative t)) as (rows & E & O); [now replace (idx + 4 - 1) with (idx + 3) by lia|exact St|intros u Iu; apply H; now right|].
    exists ((j, k, ev (t_energy t), (t_cumulative t - before)%Qc) :: rows). split; [|now constructor].
    assert ((if first then Some (t_cumulative t) else match at_ x (idx - 1) with Some b => Some (t_cumulative t - b)%Qc | None => None end) = Some (t_cumulative t - before)%Qc) as ->.
    { destruct first; [rewrite B; f_equal; qclra|now rewrite B]. }
    rewrite E. do 2 f_equal. unfold size. cbn [List.length]. lia.
Qed.
Lemma transitions_ok a : forall subs ns i idx d, Forall2 (fun s n => named (s_number s) n) subs ns -> NoDup ns -> (forall n, In n ns -> look n d = None) ->
  stands (xss a) (jxs a 15 + i) (map (fun s => qz (size (s_transitions s))) subs) -> stands (xss a) idx (flat_map (fun s => flat_map words (s_transitions s)) subs) ->
  (forall s t, In s subs -> In t (s_transitions s) -> (exists n, part (t_second t) n) /\ exists n, part (t_third t) n) ->
  exists d', transitions a i ns idx d = Some d' /\ Forall2 (transited d') subs ns /\ forall n, ~ In n ns -> look n d' = look n d.
Proof.
  intros subs ns i idx d F. revert i idx d. induction F as [|s n subs ns Hn F IH]; intros i idx d ND Lk S15 S18 H; cbn [transitions].
  - exists d. split; [reflexivity|]. split; [constructor|reflexivity].
  - cbn [map flat_map] in S15, S18. rewrite (int_at_stands _ _ _ _ S15). apply stands_cons in S15 as [_ S15]. replace (jxs a 15 + i + 1) with (jxs a 15 + (i + 1)) in S15 by lia. inversion ND as [|? ? Nn ND']; subst. apply stands_app in S18 as [Sr S18].
    assert (H' : forall s0 t, In s0 subs -> In t (s_transitions s0) -> (exists n, part (t_second t) n) /\ exists n, part (t_third t) n) by (intros s0 t I0; apply H; now right).
    assert (Ln : look n d = None) by (apply Lk; now left).
    destruct (s_transitions s) as [|t ts] eqn:Et.
    + cbn [flat_map List.length] in S18. replace (idx + Z.of_nat 0) with idx in S18 by lia. replace (0 <? size (@nil transition)) with false by reflexivity. cbn iota. destruct (IH (i + 1) idx d ND') as (d' & E & Fd & K); [intros m Im; apply Lk; now right|exact S15|exact S18|exact H'|].
      exists d'. split; [exact E|]. split; [constructor; [unfold transited; rewrite Et, (K n Nn); exact Ln|exact Fd]|]. intros m Nm. apply K. intros I0. apply Nm. now right.
    + assert (0 <? size (t :: ts) = true) as -> by (apply Z.ltb_lt; unfold size; cbn [List.length]; lia). cbn iota. unfold size at 1. rewrite Nat2Z.id.
      destruct (records_ok (xss a) (t :: ts) idx true 0%Qc eq_refl Sr) as (rows & E & O); [intros u Iu; apply (H s u (or_introl eq_refl)); now rewrite Et|]. rewrite E.
      assert (Hl : Z.of_nat (List.length (flat_map words (t :: ts))) = 4 * size (t :: ts)).
      { generalize (t :: ts). clear. intros l. unfold size. induction l as [|u l IHl]; [reflexivity|]. cbn [flat_map]. rewrite app_length. cbn [words List.length]. lia. }
      rewrite Hl in S18. destruct (IH (i + 1) (idx + 4 * size (t :: ts)) (Sab_Model.set_at n rows d) ND') as (d' & E' & Fd & K); [|exact S15|exact S18|exact H'|].
      { intros m Im. rewrite Sab_Proofs.look_set. destruct (String.eqb_spec m n) as [->|_]; [contradiction|]. apply Lk. now right. }
      exists d'. split; [exact E'|]. split.
      * constructor; [|exact Fd]. unfold transited. rewrite Et. exists rows. split; [rewrite (K n Nn), Sab_Proofs.look_set, String.eqb_refl; reflexivity|exact O].
      * intros m Nm. cbn [In] in Nm. rewrite (K m) by tauto. rewrite Sab_Proofs.look_set. destruct (String.eqb_spec m n) as [->|_]; [exfalso; tauto|reflexivity].
Qed.
Lemma set_new {A} k (v : A) l : ~ In k (map fst l) -> Sab_Model.set_at k v l = l ++ [(k, v)].
Proof.
  induction l as [|[k' v'] l IH]; cbn [Sab_Model.set_at map fst In app]; intros N; [reflexivity|]. destruct (String.eqb_spec k k') as [->|_]; [exfalso; tauto|]. now rewrite IH by tauto.
Qed.
Lemma fill_ok {A} (l : list (string * A)) : NoDup (map fst l) -> fill l = l.
Proof.
  intros ND. unfold fill. assert (G : forall l d, NoDup (map fst (d ++ l)) -> fold_left (fun d (e : string * A) => Sab_Model.set_at (fst e) (snd e) d) l d = d ++ l).
  { clear. induction l as [|[k v] l IH]; intros d ND; cbn [fold_left]; [now rewrite app_nil_r|]. cbn [fst snd]. rewrite set_new.
    - rewrite IH; rewrite <- app_assoc; [reflexivity|exact ND].
    - rewrite map_app in ND. cbn [map fst] in ND. apply NoDup_remove_2 in ND. intros I0. apply ND, in_or_app. now left. }
  now apply (G l []).
Qed.
Lemma map_fst_combine {A B} : forall (l : list A) (m : list B), List.length l = List.length m -> map fst (combine l m) = l.
Proof. induction l as [|a l IH]; intros [|b m] E; cbn in *; try reflexivity; try discriminate. f_equal. apply IH. lia. Qed.
Lemma accepted_ok ns vs : (forall v, In v vs -> (0 <= v)%Qc) -> accepted (combine ns vs) = true.
Proof. intros H. apply forallb_forall. intros [n v] I0. apply qleb_le. apply H. now apply in_combine_r in I0. Qed.
Lemma names_of subs : (forall s, In s subs -> exists n, named (s_number s) n) -> NoDup (map s_number subs) -> exists ns, Forall2 (fun s n => named (s_number s) n) subs ns /\ NoDup ns.
Proof.
  induction subs as [|s subs IH]; intros H ND; [exists []; split; constructor|]. cbn [map] in ND. inversion ND as [|? ? Ns ND']; subst. destruct (H s (or_introl eq_refl)) as (n & Hn). destruct IH as (ns & F & N); [intros u Iu; apply H; now right|exact ND'|].
  exists (n :: ns). split; [now constructor|]. constructor; [|exact N]. intros I0. apply Ns. clear - F I0 Hn. induction F as [|u m subs ns Hm F IH]; [destruct I0|]. destruct I0 as [->|I0]; [left; exact (named_inj _ _ _ Hm Hn)|right; now apply IH].
Qed.
Lemma relaxation_ok a c : says a c -> sane c -> exists r ns, relaxation_from_ace a = Some r /\ Forall2 (fun s n => named (s_number s) n) (c_subs c) ns /\ NoDup ns /\ relaxed c r ns /\ forall n, ~ In n ns -> look n (r_transitions r) = None.
Proof.
  intros S [ND H]. destruct (s_subs a c S) as (N & S11 & S12 & S13 & S15 & S16 & S18). destruct (names_of (c_subs c)) as (ns & F & Nn); [intros s Is; apply (H s Is)|exact ND|].
  unfold relaxation_from_ace. cbn zeta. rewrite (slice_stands _ _ _ _ S11), (slice_stands _ _ _ _ S12), (slice_stands _ _ _ _ S13) by (rewrite map_length; exact N).
  assert (all_some (map (fun v => shell_of (int v)) (map (fun s => qz (s_number s)) (c_subs c))) = Some ns) as ->.
  { rewrite map_map. clear - F. induction F as [|s n l l' Hn F IH]; [reflexivity|]. cbn [map all_some]. now rewrite int_qz, (named_shell _ _ Hn), IH. }
  assert (L : List.length ns = List.length (c_subs c)) by (clear - F; induction F; cbn; congruence).
  destruct (transitions_ok a (c_subs c) ns 0 (jxs a 18) [] F Nn) as (d & E & Fd & K); [reflexivity|now rewrite Z.add_0_r|exact S18|intros s t Is It; now apply (H s Is)|]. rewrite E.
  rewrite !fill_ok by (rewrite map_fst_combine; [exact Nn|unfold mega; rewrite ?map_length; exact L]). rewrite mega_ev, map_map. rewrite !accepted_ok.
  - cbn [andb]. eexists. exists ns. split; [reflexivity|]. split; [exact F|]. split; [exact Nn|]. cbn [r_transitions]. split; [now repeat split|]. intros n Hn. now rewrite (K n Hn).
  - intros v Iv. apply in_map_iff in Iv as (s & <- & Is). apply (H s Is).
  - intros v Iv. apply in_map_iff in Iv as (s & <- & Is). destruct (H s Is) as (_ & B & _). unfold ev. apply (Qcmult_le_compat_r 0 _ (qz 1000000)) in B; [|discriminate]. now rewrite Qcmult_0_l in B.
Qed.

(** ** All of it *)
Lemma assign_new {V} k (v : V) l : ~ In k (map fst l) -> assign k v l = l ++ [(k, v)].
Proof. induction l as [|[k' v'] l IH]; cbn [assign map fst In app]; intros N; [reflexivity|]. destruct (Z.eqb_spec k k') as [->|_]; [exfalso; tauto|]. now rewrite IH by tauto. Qed.
Lemma look_combine n v : forall ns (vs : list Qc), NoDup ns -> In (n, v) (combine ns vs) -> look n (combine ns vs) = Some v.
Proof.
  induction ns as [|m ns IH]; intros [|w vs] ND I0; cbn [combine look In] in *; try contradiction. inversion ND as [|? ? Nm ND']; subst. destruct I0 as [I0|I0].
  - injection I0 as -> ->. now rewrite String.eqb_refl.
  - destruct (String.eqb_spec n m) as [->|_]; [apply in_combine_l in I0; contradiction|now apply IH].
Qed.
Lemma subshells_ok a c r : says a c -> forall subs ns idx d, Forall2 (fun s n => named (s_number s) n) subs ns -> (forall s n, In (n, s) (combine ns subs) -> look n (r_binding r) = Some (ev (s_binding s))) ->
  (forall s, In s subs -> In s (c_subs c)) -> stands (xss a) idx (flat_map s_xs subs) -> NoDup (map fst d ++ map (fun s => 533 + s_number s) subs) ->
  exists out, subshells exp a r (map s_number subs) idx d = Some (d ++ out) /\ Forall2 (of_sub exp c) subs out.
Proof.
  intros S subs ns idx d F. revert idx d. induction F as [|s n subs ns Hn F IH]; intros idx d Lb Sub St ND; cbn [map subshells].
  - exists []. split; [now rewrite app_nil_r|constructor].
  - rewrite (named_shell _ _ Hn), (Lb s n) by (now left). cbn [flat_map] in St. apply stands_app in St as [S1 S2]. assert (Ls : size (s_xs s) = size (c_energy c)) by (apply (s_sublengths a c S), Sub; now left).
    cbn [map] in ND. rewrite assign_new by (intros I0; apply NoDup_remove_2 in ND; apply ND, in_or_app; now left).
    assert (Ep : idx + nxs a 3 = idx + Z.of_nat (List.length (s_xs s))) by (destruct (s_eszg a c S) as [-> _]; unfold size in *; lia). rewrite Ep.
    destruct (IH (idx + Z.of_nat (List.length (s_xs s))) (d ++ [(533 + s_number s, mkPrx (533 + s_number s) (values exp a idx) None (Some (ev (s_binding s))))])) as (out & E & Fo).
    + intros s' n' I0. apply Lb. now right.
    + intros s' I0. apply Sub. now right.
    + exact S2.
    + rewrite map_app. cbn [map fst]. now rewrite <- app_assoc.
    + eexists. split; [rewrite E, <- app_assoc; reflexivity|]. constructor; [|exact Fo]. unfold of_sub. cbn [fst snd p_mt p_xs p_factor p_binding]. split; [reflexivity|]. split; [reflexivity|]. split; [now apply (values_ok a c)|]. now split.
Qed.
End Exp.
