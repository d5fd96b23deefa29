(** Thermal scattering data, theorems. *)
From Coq Require Import ZArith QArith Qcanon List Bool Arith String Ascii Lia Permutation Sorted.
From Verif Require Import Num Neut_Model Neut_Spec Neut_Proofs Law_Model Hdf_Model Hdf_Spec Hdf_Proofs Nuc_Model Nuc_Proofs Sab_Model Sab_Spec Sab_Proofs.
From Verif Require Law_Spec Cont_Model Name_Model.
Import ListNotations.
Local Open Scope string_scope.
Local Open Scope list_scope.
Local Open Scope Z_scope.

(** ** Names, nuclides, coherent elastic scattering *)
(** Proper names stay, in every case; aliases, in any case of letters, become the name they
    stand for; whatever is guessed is a proper name, or else the name with [c_]. *)
Theorem C79_proper : forall close s, proper s -> get_thermal_name close s = s.
Proof. intros close s P. unfold get_thermal_name. apply proper_iff in P. now rewrite P. Qed.
Print Assumptions C79_proper.
Theorem C79_alias : forall close k l s, In (k, l) thermal_names -> In (lower s) l -> get_thermal_name close s = k.
Proof. exact alias_name. Qed.
Print Assumptions C79_alias.
Theorem C79_form : forall close s, among close -> proper (get_thermal_name close s) \/ get_thermal_name close s = String.append "c_" s /\ close s all_names = [].
Proof. exact guess_form. Qed.
Print Assumptions C79_form.
(** The nuclides are exactly those the pairs stand for. *)
Theorem C79_nuclides : forall ps l, loop add_nuclides ps [] = Some l -> forall x, In x l <-> exists p, In p ps /\ meant (fst p) x.
Proof. intros ps l H x. rewrite (nuclides_in ps [] l H x). cbn [In]. tauto. Qed.
Print Assumptions C79_nuclides.
(** Not true: each of them once.  A pair of hydrogen or iron given twice is there twice. *)
Theorem C79_twice_refuted : forall p s, 0 < fst p -> Name_Model.symbol (fst p / 1000) = Some s -> In (string_of_list_ascii s) ["H"; "Fe"] ->
  exists n, loop add_nuclides [p; p] [] = Some [n; n].
Proof.
  intros p s P S I. apply Z.ltb_lt in P. apply mem_iff in I. cbn [loop]. unfold add_nuclides. rewrite P, S. cbn zeta. rewrite I. eexists. reflexivity.
Qed.
Print Assumptions C79_twice_refuted.
(** The value between two edges is that of the partial sum of the edge above. *)
Theorem C79_bragg : forall e1 e2 v f1 s f2 e, List.length f1 = List.length e1 -> ascending (e1 ++ v :: e2) -> (forall w, In w e1 -> (w < e)%Qc) -> (e <= v)%Qc ->
  bragg_at (e1 ++ v :: e2) (f1 ++ s :: f2) e = Some (s / e)%Qc.
Proof.
  intros e1 e2 v f1 s f2 e L S A V. apply (bragg_value _ _ e e1 (v :: e2) f1 s f2); auto. intros w [<-|I]; [exact V|].
  apply Qcle_trans with v; [exact V|]. apply Qclt_le_weak. clear - S I. induction e1 as [|x l IH]; [inversion S as [|? ? _ F]; subst; rewrite Forall_forall in F; auto | inversion S; auto].
Qed.
Print Assumptions C79_bragg.
(** Not true: it is the documented one.  It never is, if the sums grow and the energy is
    positive; and above the last edge there is none. *)
Theorem C79_bragg_refuted : forall edges factors e s, List.length factors = List.length edges -> ascending edges -> ascending (0%Qc :: factors) -> (0 < e)%Qc -> documented edges factors e s ->
  bragg_at edges factors e <> Some (s / e)%Qc.
Proof. exact bragg_wrong. Qed.
Print Assumptions C79_bragg_refuted.
Theorem C79_bragg_beyond_refuted : forall edges factors e es, List.length factors = List.length edges -> (forall v, In v edges -> (v < e)%Qc) ->
  bragg_at edges factors e = None /\ (In e es -> bragg_call edges factors es = None).
Proof.
  intros edges factors e es L A. assert (B := bragg_beyond edges factors e A L). split; [exact B|]. intros I. unfold bragg_call. induction es as [|x es IH]; [contradiction|]. cbn [map all_some]. destruct I as [->|I]; [now rewrite B|].
  destruct (bragg_at edges factors x); [|reflexivity]. now rewrite IH.
Qed.
Print Assumptions C79_bragg_beyond_refuted.

(** ** Tables *)
(** What a table says is what is read, in eV, at the temperature of the table. *)
Theorem C80_table : forall close a s ace_name ns name, called (a_name a) ace_name -> table_says (a_arrays a) s -> loop add_nuclides (a_pairs a) [] = Some ns ->
  exists d, t_from_ace close a name = Some d /\ t_name d = get_thermal_name close ace_name /\ t_awr d = a_awr a /\ t_nuclides d = ns /\ table_read s (a_temperature a) d.
Proof. intros close a s ace_name ns name B. apply table_reads. now apply before_dot_iff. Qed.
Print Assumptions C80_table.
(** Tables whose names have not exactly one dot are refused, and coherent elastic scattering
    with cosines. *)
Theorem C80_refused : forall close a name d, t_from_ace close a name = Some d -> (exists n, called (a_name a) n) /\ (jxs (a_arrays a) 4 <> 0 -> nxs (a_arrays a) 5 = 4 -> nxs (a_arrays a) 6 = -1).
Proof. exact table_refused. Qed.
Print Assumptions C80_refused.
(** Not true: the argument [name] is the name. *)
Theorem C80_name_refuted : forall close a name d, t_from_ace close a (Some name) = Some d -> exists n, called (a_name a) n /\ t_name d = get_thermal_name close n.
Proof.
  intros close a name d H. unfold t_from_ace in H. destruct (before_dot (a_name a)) as [n|] eqn:B; [|discriminate]. exists n. split; [now apply before_dot_iff|].
  repeat match type of H with match ?x with _ => _ end = _ => destruct x; try discriminate end. apply some_inj in H. now subst d.
Qed.
Print Assumptions C80_name_refuted.
(** Of the tables of a library, of one name and at different temperatures, each is there at
    its temperature as if read alone. *)
Theorem C80_library : forall close a tables d0 ds, t_from_ace close a None = Some d0 -> Forall2 (fun a d => t_from_ace close a None = Some d /\ t_name d = t_name d0) tables ds ->
  NoDup (t_temperatures d0 ++ flat_map t_temperatures ds) ->
  exists d, from_tables close (a :: tables) = Some d /\ t_name d = t_name d0 /\ t_awr d = t_awr d0 /\ t_mode d = t_mode d0 /\ t_nuclides d = t_nuclides d0 /\ t_kts d = t_kts d0 ++ flat_map t_kts ds /\
    forall x t, In x (d0 :: ds) -> In t (t_temperatures x) -> has_at t x d.
Proof.
  intros close a tables d0 ds E F N. destruct (library close tables d0 ds F (proj2 (ace_owned _ _ _ _ E)) N) as (d & L & A1 & A2 & A3 & A4 & A5 & _ & A7 & A8 & _). exists d. cbn [from_tables]. rewrite E.
  repeat (split; [assumption|]). intros x t [<-|I] T; auto.
Qed.
Print Assumptions C80_library.
(** Another temperature is added; the data there are stay. *)
Theorem C80_added : forall self data q, t_kts data = [q] -> ~ In (kelvin q) (t_temperatures self) -> t_name data = t_name self ->
  exists d, add_data self data = Some d /\ with_temperature (kelvin q) self data d.
Proof. intros self data q K N E. destruct (data_added self data q K N E) as (d & A & W & _). eauto. Qed.
Print Assumptions C80_added.
Theorem C80_other : forall self data q, t_kts data = [q] -> ~ In (kelvin q) (t_temperatures self) -> t_name data <> t_name self -> add_data self data = None.
Proof. exact data_other. Qed.
Print Assumptions C80_other.
(** Not true: data of another material are always refused.  At a temperature there is
    (rounded to 1 K) nothing happens, whatever the material. *)
Theorem C80_again_refuted : forall self data q, t_kts data = [q] -> In (kelvin q) (t_temperatures self) -> add_data self data = Some self.
Proof. exact data_again. Qed.
Print Assumptions C80_again_refuted.
(** Not true: the secondary mode is that of the data.  It is that of the first table. *)
Theorem C80_mode_refuted : forall close a b d0 d1 d, t_from_ace close a None = Some d0 -> t_from_ace close b None = Some d1 -> from_tables close [a; b] = Some d -> t_mode d = t_mode d0.
Proof.
  intros close a b d0 d1 d E0 E1 H. cbn [from_tables loop] in H. rewrite E0 in H. unfold add_temperature_from_ace in H. rewrite E1 in H. unfold add_data in H. destruct (hd_error _) as [t|]; [|discriminate].
  destruct (mem _ _); [apply some_inj in H; now subst|]. destruct (negb _); [discriminate|]. apply some_inj in H. now subst d.
Qed.
Print Assumptions C80_mode_refuted.

(** ** Files *)
(** Data fit to be stored can be exported, and what is read back is what they were; only
    the temperatures are in the order of their names. *)
Theorem C81_round_trip : forall d f, thermal_fine d -> (forall k, In k (map fst (f_groups f)) -> String.leb (t_name d) k = true /\ k <> t_name d) ->
  exists f' d', t_export d f = Some f' /\ t_from_hdf5 f' = Some d' /\ kept_thermal d d'.
Proof. exact round_trip. Qed.
Print Assumptions C81_round_trip.
(** In a file with other materials the others stay, and this one can be read. *)
Theorem C81_group : forall d f, thermal_fine d -> look (t_name d) (f_groups f) = None ->
  exists g d', t_export d f = Some (mkFile (Some version_major) (f_groups f ++ [(t_name d, g)])) /\ thermal_of (t_name d) g = Some d' /\ kept_thermal d d'.
Proof. intros d f F L. destruct (thermal_back d F) as (g & W & d' & R & K). exists g, d'. unfold t_export. now rewrite L, W. Qed.
Print Assumptions C81_group.
(** A table goes into a file and comes back as it was read. *)
Theorem C81_table : forall close a s ace_name ns, called (a_name a) ace_name -> table_says (a_arrays a) s -> filled (o_out s) -> loop add_nuclides (a_pairs a) [] = Some ns ->
  exists d f d', t_from_ace close a None = Some d /\ t_export d (mkFile None []) = Some f /\ t_from_hdf5 f = Some d' /\ same_thermal d d'.
Proof.
  intros close a s ace_name ns B T F N. apply before_dot_iff in B. destruct (table_reads close a s ace_name ns None B T N) as (d & E & _ & _ & _ & R). pose proof (table_fine _ _ _ _ T F R) as Fi.
  destruct (round_trip d (mkFile None []) Fi) as (f & d' & W & O & K); [intros k []|]. exists d, f, d'. repeat (split; [assumption|]). exact (table_same _ _ _ _ _ T F R K).
Qed.
Print Assumptions C81_table.
(** So does a library of tables of the same kinds. *)
Theorem C81_library : forall close a tables d0 ds, t_from_ace close a None = Some d0 -> Forall2 (fun a d => t_from_ace close a None = Some d /\ t_name d = t_name d0) tables ds ->
  NoDup (t_temperatures d0 ++ flat_map t_temperatures ds) -> thermal_fine d0 -> (forall x, In x ds -> alike d0 x /\ thermal_fine x) ->
  exists d f d', from_tables close (a :: tables) = Some d /\ t_export d (mkFile None []) = Some f /\ t_from_hdf5 f = Some d' /\ kept_thermal d d'.
Proof.
  intros close a tables d0 ds E F N F0 FA. destruct (library close tables d0 ds F (proj2 (ace_owned _ _ _ _ E)) N) as (d & L & _ & _ & _ & _ & _ & _ & _ & _ & FD).
  destruct (round_trip d (mkFile None []) (FD F0 FA)) as (f & d' & W & O & K); [intros k []|]. exists d, f, d'. cbn [from_tables]. now rewrite E.
Qed.
Print Assumptions C81_library.
(** Not true: a library that was read can be exported.  Two tables of different kinds are
    read into one, which cannot. *)
Theorem C81_mixed_refuted : forall close a b s s' na nb ma mb, called (a_name a) na -> called (a_name b) nb -> get_thermal_name close na = get_thermal_name close nb ->
  table_says (a_arrays a) s -> table_says (a_arrays b) s' -> loop add_nuclides (a_pairs a) [] = Some ma -> loop add_nuclides (a_pairs b) [] = Some mb ->
  kelvin (a_temperature a * ev)%Qc <> kelvin (a_temperature b * ev)%Qc -> mixed s s' -> exists d, from_tables close [a; b] = Some d /\ forall f, t_export d f = None.
Proof.
  intros close a b s s' na nb ma mb Ba Bb NM Ta Tb Pa Pb NT MX. apply before_dot_iff in Ba, Bb. destruct (table_reads close a s na ma None Ba Ta Pa) as (da & Ea & Na & _ & _ & Ra). destruct (table_reads close b s' nb mb None Bb Tb Pb) as (db & Eb & Nb & _ & _ & Rb).
  destruct (data_added da db (a_temperature b * ev)%Qc) as (d & A & W & _).
  - apply Rb.
  - unfold t_temperatures. rewrite (proj1 Ra). intros [X|[]]. congruence.
  - congruence.
  - exists d. split; [cbn [from_tables loop]; rewrite Ea; unfold add_temperature_from_ace; now rewrite Eb, A|]. intros f. apply no_export. exact (mixed_fails _ _ s s' _ _ da db d Ta Tb Ra Rb NT MX W).
Qed.
Print Assumptions C81_mixed_refuted.
(** Refused: a material that is in the file; temperatures that round to the same name; a file
    of another version, or without one. *)
Theorem C81_refused : forall d f, look (t_name d) (f_groups f) <> None \/ ~ NoDup (t_temperatures d) -> t_export d f = None.
Proof.
  intros d f [H|H]; unfold t_export; [now destruct (look (t_name d) (f_groups f))|]. destruct (look _ _); [reflexivity|]. unfold thermal_node. destruct (t_mode d) as [m|]; [|reflexivity].
  change group with (Node [] None []). rewrite (write_all_dup (fun q => Some (dataset (VNum q))) [] None (combine (t_temperatures d) (t_kts d)) []); [reflexivity | constructor | cbn; unfold t_temperatures in *; now rewrite kt_names].
Qed.
Print Assumptions C81_refused.
Theorem C81_version : forall f, f_version f <> Some 2 -> t_from_hdf5 f = None.
Proof. intros f H. unfold t_from_hdf5. destruct (f_version f) as [v|]; [|reflexivity]. destruct (Z.eqb_spec v version_major) as [->|_]; [now destruct H | reflexivity]. Qed.
Print Assumptions C81_version.

(** ** Cases *)
Definition none (s : string) (l : list string) : list string := [].
Definition first (s : string) (l : list string) : list string := firstn 1 l.
Example C79_names_hypotheses_met : proper "c_H_in_H2O" /\ get_thermal_name none "c_H_in_H2O" = "c_H_in_H2O" /\ In (lower "LwTr") ["hh2o"; "h-h2o"; "lwtr"; "lw"] /\ get_thermal_name none "LwTr" = "c_H_in_H2O" /\
  among none /\ get_thermal_name none "hx" = "c_hx" /\ among first /\ get_thermal_name first "hx" = "c_Al27".
Proof.
  split; [exists ["hh2o"; "h-h2o"; "lwtr"; "lw"]; vm_compute; tauto|]. split; [reflexivity|]. split; [vm_compute; tauto|]. split; [reflexivity|]. split; [intros s l m []|]. split; [reflexivity|]. split; [|reflexivity].
  intros s [|x l] m I; [contradiction|]. destruct I as [<-|[]]. now left.
Qed.
Example C79_nuclides_hypotheses_met : loop add_nuclides [(1001, qz 1); (8016, qz 16)] [] = Some ["H1"; "O0"; "O16"; "O17"; "O18"] /\ meant 8016 "O17" /\ meant 1001 "H1" /\ loop add_nuclides [(1001, qz 1); (1001, qz 1)] [] = Some ["H1"; "H1"].
Proof.
  split; [vm_compute; reflexivity|]. split; [split; [reflexivity|]; eexists; split; [reflexivity|]; right; split; [intros [X|[X|[]]]; discriminate|]; right; split; [vm_compute; tauto|]; exists "1"%char, "7"; split; reflexivity|].
  split; [split; [reflexivity|]; eexists; split; [reflexivity|]; left; split; [left; reflexivity|reflexivity]|vm_compute; reflexivity].
Qed.
Definition ex_edges := [qz 2; qz 3; qz 5].
Definition ex_sums := [qz 4; qz 6; qz 9].
Example C79_bragg_hypotheses_met : ascending ex_edges /\ ascending (0%Qc :: ex_sums) /\ documented ex_edges ex_sums (qz 4) (qz 6) /\ bragg_at ex_edges ex_sums (qz 4) = Some (qz 9 / qz 4)%Qc /\
  documented ex_edges ex_sums (qz 1) 0%Qc /\ bragg_at ex_edges ex_sums (qz 1) = Some (qz 4 / qz 1)%Qc /\ (forall v, In v ex_edges -> (v < qz 6)%Qc) /\ bragg_at ex_edges ex_sums (qz 6) = None.
Proof.
  unfold ex_edges, ex_sums. split; [repeat constructor|]. split; [repeat constructor|]. split.
  { apply (doc_some [qz 2] [qz 5] [qz 4] [qz 9] (qz 3) (qz 6)); [reflexivity|reflexivity|]. intros w [<-|[]]. discriminate. }
  split; [reflexivity|]. split; [apply doc_none; intros v [<-|[<-|[<-|[]]]]; discriminate|]. split; [reflexivity|]. split; [intros v [<-|[<-|[<-|[]]]]; reflexivity | reflexivity].
Qed.
(** A table in bins with coherent elastic scattering, and a continuous one with cosines of
    elastic scattering. *)
Definition numbers (l : list (nat * Z)) (n : nat) : Z := match find (fun e => Nat.eqb (fst e) n) l with Some e => snd e | None => 0 end.
Definition ex_bins : told :=
  mkTold [qz 1; qz 2] [qz 30; qz 31] (InBins false 2 1 [[(qz 1, [qz (-1); qz 1]); (qz 2, [qz 0; qz 1])]; [(qz 3, [qz (-1); qz 0]); (qz 4, [qz 0; qz 0])]]) (Coherent [qz 5; qz 6] [qz 7; qz 8]).
Definition ex_table : table :=
  mkTable "lwtr.10t" (qz 1) (qc 253 10000000000) [(1001, qz 1); (8016, qz 16)]
    (mkAce (numbers [(3%nat, 1); (4%nat, 2); (5%nat, 4); (6%nat, -1); (7%nat, 0)]) (numbers [(1%nat, 1); (3%nat, 6); (4%nat, 18)])
       (map qz [0; 2; 1; 2; 30; 31; 1; -1; 1; 2; 0; 1; 3; -1; 0; 4; 0; 0; 2; 5; 6; 7; 8])).
Definition ex_spectra : told :=
  mkTold [qz 1; qz 2] [qz 30; qz 31] (InSpectra 2 [[((qz 1, qz 1, qz 0), [qz (-1); qz 1])]; [((qz 1, qz 1, qz 0), [qz 0; qz 1]); ((qz 2, qz 1, qz 1), [qz (-1); qz 0])]])
    (WithCosines [qz 5] [qz 7] 2 [[qz (-1); qz 1]]).
Definition ex_continuous : table :=
  mkTable "LWTR.11t" (qz 1) (qc 506 10000000000) [(1001, qz 1)]
    (mkAce (numbers [(3%nat, 3); (5%nat, 3); (6%nat, 1); (7%nat, 2)]) (numbers [(1%nat, 1); (3%nat, 6); (4%nat, 25); (6%nat, 28)])
       (map qz [0; 2; 1; 2; 30; 31; 9; 14; 1; 2; 1; 1; 0; -1; 1; 1; 1; 0; 0; 1; 2; 1; 1; -1; 0; 1; 5; 7; -1; 1])).
Lemma stands_at x (p n : nat) l : firstn n (skipn p x) = l -> (p <= List.length x)%nat -> stands x (Z.of_nat p) l.
Proof.
  intros E L. exists (firstn p x), (skipn n (skipn p x)). split; [|now rewrite firstn_length_le]. rewrite <- E, firstn_skipn. symmetry. apply firstn_skipn.
Qed.
Example C80_table_hypotheses_met : table_says (a_arrays ex_table) ex_bins /\ table_says (a_arrays ex_continuous) ex_spectra /\ filled (o_out ex_bins) /\ filled (o_out ex_spectra) /\
  called (a_name ex_table) "lwtr" /\ called (a_name ex_continuous) "LWTR" /\ get_thermal_name none "lwtr" = get_thermal_name none "LWTR" /\
  kelvin (a_temperature ex_table * ev)%Qc = "294K" /\ kelvin (a_temperature ex_continuous * ev)%Qc = "587K" /\ mixed ex_bins ex_spectra.
Proof.
  split; [|split; [|split; [exact I|split; [|split; [apply before_dot_iff; reflexivity|split; [apply before_dot_iff; reflexivity|repeat (split; [vm_compute; reflexivity|]); right; discriminate]]]]]].
  - split; [reflexivity|]. split; [apply (stands_at _ 1 5); [reflexivity|cbn; lia]|]. split.
    + cbn [o_out ex_bins out_stands]. split; [reflexivity|]. split; [reflexivity|]. split; [reflexivity|]. split; [reflexivity|]. split; [|apply (stands_at _ 6 12); [reflexivity|cbn; lia]].
      intros r [<-|[<-|[]]]; (split; [reflexivity|]); intros b [<-|[<-|[]]]; reflexivity.
    + cbn [o_el ex_bins el_stands]. split; [discriminate|]. split; [reflexivity|]. split; [reflexivity|]. split; [reflexivity|]. apply (stands_at _ 18 5); [reflexivity|cbn; lia].
  - split; [reflexivity|]. split; [apply (stands_at _ 1 5); [reflexivity|cbn; lia]|]. split.
    + cbn [o_out ex_spectra out_stands]. split; [reflexivity|]. split; [reflexivity|]. split; [lia|]. exists [9; 14]. split; [reflexivity|]. split; [apply (stands_at _ 6 4); [reflexivity|cbn; lia]|].
      repeat constructor; try (intros b [<-|[]]; reflexivity); try (intros b [<-|[<-|[]]]; reflexivity); [apply (stands_at _ 10 5) | apply (stands_at _ 15 10)]; try reflexivity; cbn; lia.
    + cbn [o_el ex_spectra el_stands]. split; [discriminate|]. split; [discriminate|]. split; [reflexivity|]. split; [lia|]. split; [reflexivity|]. split; [reflexivity|]. split; [intros m [<-|[]]; reflexivity|].
      split; [apply (stands_at _ 25 3) | apply (stands_at _ 28 2)]; try reflexivity; cbn; lia.
  - intros s [<-|[<-|[]]]; discriminate.
Qed.
Definition ex_hot : table := mkTable "lwtr.12t" (qz 1) (qc 506 10000000000) [(1001, qz 1)] (a_arrays ex_table).
Example C80_library_hypotheses_met : exists d0 d1, t_from_ace none ex_table None = Some d0 /\ t_from_ace none ex_hot None = Some d1 /\ t_name d1 = t_name d0 /\ NoDup (t_temperatures d0 ++ flat_map t_temperatures [d1]) /\
  thermal_fine d0 /\ alike d0 d1 /\ thermal_fine d1 /\ t_kts d1 = [qc 506 10000] /\ ~ In (kelvin (qc 506 10000)) (t_temperatures d0).
Proof.
  destruct C80_table_hypotheses_met as (T & _ & F & _). assert (N1 : exists ns, loop add_nuclides (a_pairs ex_table) [] = Some ns) by (eexists; vm_compute; reflexivity). assert (N2 : exists ns, loop add_nuclides (a_pairs ex_hot) [] = Some ns) by (eexists; vm_compute; reflexivity).
  destruct N1 as [ns N1], N2 as [ms N2]. destruct (table_reads none ex_table ex_bins "lwtr" ns None eq_refl T N1) as (d0 & E0 & M0 & _ & _ & R0). destruct (table_reads none ex_hot ex_bins "lwtr" ms None eq_refl T N2) as (d1 & E1 & M1 & _ & _ & R1).
  exists d0, d1. split; [exact E0|]. split; [exact E1|]. split; [congruence|]. pose proof (table_fine _ _ _ _ T F R0) as F0. pose proof (table_fine _ _ _ _ T F R1) as F1.
  destruct R0 as (K0 & I0 & (A0 & _) & B0 & C0), R1 as (K1 & I1 & (A1 & _) & B1 & C1).
  assert (T0 : t_temperatures d0 = ["294K"]) by (unfold t_temperatures; rewrite K0; vm_compute; reflexivity). assert (T1 : t_temperatures d1 = ["587K"]) by (unfold t_temperatures; rewrite K1; vm_compute; reflexivity).
  split; [cbn [flat_map]; rewrite T0, T1; constructor; [intros [X|[]]; discriminate|]; constructor; [intros []|constructor]|]. split; [exact F0|]. split; [|split; [exact F1|]].
  - unfold alike. rewrite A0, A1, B0, B1, C0, C1, I0, I1. repeat split; discriminate || reflexivity.
  - split; [rewrite K1; f_equal; apply Qc_is_canon; reflexivity|]. rewrite T0. intros [X|[]]. vm_compute in X. discriminate.
Qed.
(** The temperatures come back in the order of the names: 1000 K before 294 K. *)
Theorem C81_order_refuted : exists d d' f, thermal_fine d /\ t_temperatures d = ["294K"; "1000K"] /\ t_export d (mkFile None []) = Some f /\ t_from_hdf5 f = Some d' /\ t_temperatures d' = ["1000K"; "294K"].
Proof.
  set (e := fun t : string => (t, mkFn [qz 1] [qz 2] [1] [2])).
  exists (mkThermal "c_x" (qz 1) [qc 253 10000; qc 8617 100000] [] [] [e "294K"; e "1000K"] [] [] [] (Some "other") ["H1"]). eexists. eexists. split.
  - split; [discriminate|]. assert (T : t_temperatures (mkThermal "c_x" (qz 1) [qc 253 10000; qc 8617 100000] [] [] [e "294K"; e "1000K"] [] [] [] (Some "other") ["H1"]) = ["294K"; "1000K"]) by (vm_compute; reflexivity). rewrite T. split; [constructor; [intros [X|[]]; discriminate|]; constructor; [intros []|constructor]|].
    intros t I. split; [intros X; now destruct X|]. intros _. cbn [t_inelastic t_mode]. exists (mkFn [qz 1] [qz 2] [1] [2]). split; [destruct I as [<-|[<-|[]]]; reflexivity|]. split; [reflexivity|]. split; [intros [X|X]; discriminate|discriminate].
  - split; [vm_compute; reflexivity|]. split; [vm_compute; reflexivity|]. split; vm_compute; reflexivity.
Qed.
Print Assumptions C81_order_refuted.
Example C81_refused_hypotheses_met : exists d, ~ NoDup (t_temperatures d) /\ t_mode d <> None.
Proof. exists (mkThermal "c_x" (qz 1) [qc 253 10000; qc 2530001 100000000] [] [] [] [] [] [] (Some "equal") []). split; [|discriminate]. intros N. vm_compute in N. inversion N as [|? ? X _]. apply X. now left. Qed.
