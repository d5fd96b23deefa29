(** C42, C43: ZAIDs and nuclide names. *)
From Coq Require Import ZArith List Bool Arith Ascii NArith Lia.
From Verif Require Import Text Dec PyNum Name_Model Name_Spec Name_Proofs.
Import ListNotations.
Local Open Scope Z_scope.

(** C43: every name is read back, whatever harmless text follows (a text that starts
    with no digit and, for a ground state, with no state). *)
Theorem C43_round_trip : forall z a m n, 0 <= a -> 0 <= m -> gnd_name z a m = Some n -> zam n = Some (z, a, m).
Proof. exact round_trip. Qed.
Print Assumptions C43_round_trip.
Theorem C43_named : forall z a m, (exists n, gnd_name z a m = Some n) <-> 0 <= z <= 118.
Proof. exact name_exists. Qed.
Print Assumptions C43_named.
Theorem C43_injective : forall z a m z' a' m' n, 0 <= a -> 0 <= m -> 0 <= a' -> 0 <= m' ->
  gnd_name z a m = Some n -> gnd_name z' a' m' = Some n -> (z, a, m) = (z', a', m').
Proof. exact names_inj. Qed.
Print Assumptions C43_injective.
(** Whatever is read has a name that is read alike. *)
Theorem C43_normal : forall t z a m, zam t = Some (z, a, m) -> exists n, gnd_name z a m = Some n /\ zam n = Some (z, a, m).
Proof. exact normal. Qed.
Print Assumptions C43_normal.
(** Only names are read: false, the end of the text is not looked at, so a misspelt
    isomer is read as the ground state. *)
Theorem C43_trailing_refuted : exists t, zam t = Some (95, 242, 0) /\ forall z a m, gnd_name z a m <> Some t.
Proof.
  exists (str "Am242m1"). split; [reflexivity|]. intros z a m H. pose proof (proj1 (name_exists z a m) (ex_intro _ _ H)) as Hz.
  unfold gnd_name in H. destruct (symbol z) as [s|] eqn:S; [|discriminate]. cbn [option_map] in H.
  destruct (symbol_shaped z s S) as [c [r [-> [U L]]]].
  assert (E : exists tail, (c :: r ++ decZ a ++ tail)%list = str "Am242m1" /\ (tail = [] \/ exists d, tail = str "_m" ++ d)%list).
  { destruct (0 <? m).
    - exists (str "_m" ++ decZ m)%list. split; [|eauto]. exact (f_equal (fun o => match o with Some x => x | None => [] end) H).
    - exists []. split; [|now left]. rewrite app_nil_r. exact (f_equal (fun o => match o with Some x => x | None => [] end) H). }
  destruct E as [tail [E T]]. clear H.
  assert (IN : In "m"%char (decZ a) \/ In "_"%char (str "Am242m1")).
  { destruct T as [->|[d ->]].
    - left. rewrite app_nil_r in E.
      destruct r as [|c1 r]; cbn in E; [|destruct r as [|c2 r]; cbn in E].
      + injection E as _ X. rewrite X. now left.
      + injection E as _ _ X. rewrite X. cbn. tauto.
      + cbn in L. injection E as _ _ E2 _. subst c2. rewrite andb_true_iff in L. destruct L as [_ L]. discriminate.
    - right. rewrite <- E. right. rewrite !in_app_iff. right. right. left. now left. }
  destruct IN as [I|I].
  - revert I. apply decZ_notin; [reflexivity | discriminate].
  - cbn in I. intuition discriminate.
Qed.
Print Assumptions C43_trailing_refuted.

(** C42: [metadata r z a m]: the result consists of [z], [a], [m] and the name and
    symbol that belong to them.  Ground states. *)
Theorem C42_ground : forall s z a, 0 <= z <= 118 -> 0 <= a <= 300 -> a <= 3 * z -> (s = Mcnp -> 1000 * z + a <> 95242) ->
  metadata (get_metadata (1000 * z + a) s) z a 0.
Proof. exact ground. Qed.
Print Assumptions C42_ground.
(** First isomers, coded by 400 added to the mass number. *)
Theorem C42_isomer : forall s z a, 0 <= z <= 118 -> 0 <= a <= 300 -> 3 * z - 100 < a -> a <= 3 * z -> (s = Mcnp -> 1000 * z + a <> 95242) ->
  metadata (get_metadata (1000 * z + (a + 400)) s) z a 1.
Proof. exact isomer. Qed.
Print Assumptions C42_isomer.
(** The newer codes, in front of which the state is put. *)
Theorem C42_state_first : forall t z a, 1 <= t -> 0 <= z <= 118 -> 0 <= a < 1000 -> a <= 3 * z ->
  1000000 * t + 1000 * z + a <> 1095242 -> 1000000 * t + 1000 * z + a <> 1000000 ->
  metadata (get_metadata (1000000 * t + 1000 * z + a) Mcnp) z a t.
Proof. exact sza. Qed.
Print Assumptions C42_state_first.
(** Americium-242 is coded the other way round in MCNP libraries. *)
Theorem C42_americium : metadata (get_metadata 95242 Mcnp) 95 242 1 /\ metadata (get_metadata 95642 Mcnp) 95 242 0 /\
  metadata (get_metadata 1095242 Mcnp) 95 242 0 /\ metadata (get_metadata 95242 Nndc) 95 242 0 /\ metadata (get_metadata 95642 Nndc) 95 242 1.
Proof. repeat split; unfold metadata; do 2 eexists; repeat split; reflexivity. Qed.
Print Assumptions C42_americium.
(** Any result: the mass number is the last three digits less some hundreds, at most
    three times the charge; name and symbol belong to it. *)
Theorem C42_bounded : forall zaid s n e z a m, get_metadata zaid s = Some (n, e, z, a, m) ->
  a <= 3 * z /\ (exists j, 0 <= j /\ a = zaid mod 1000 - 100 * j) /\ symbol z = Some e /\ gnd_name z a m = Some n.
Proof. exact bounded. Qed.
Print Assumptions C42_bounded.
(** The code documented for NNDC libraries, 100 m added: every isomer it codes below
    300 is taken for the ground state. *)
Theorem C42_documented_refuted : forall z a m, 0 <= z <= 118 -> 0 <= a -> 0 < m -> a + 100 * m <= 300 -> 3 * z - 100 < a <= 3 * z ->
  metadata (get_metadata (1000 * z + a + 100 * m) Nndc) z a 0.
Proof. exact documented_lost. Qed.
Print Assumptions C42_documented_refuted.
(** Second isomers are taken for first ones; very neutron-rich nuclides and the
    neutron itself get a negative mass number. *)
Theorem C42_second_isomer_refuted : exists z a, metadata (get_metadata (1000 * z + (a + 300 + 100 * 2)) Nndc) z a 1.
Proof. exists 49, 116. do 2 eexists. repeat split; reflexivity. Qed.
Print Assumptions C42_second_isomer_refuted.
Theorem C42_mass_refuted : (exists n e, get_metadata (1000 * 2 + 8) Nndc = Some (n, e, 2, -92, 0)) /\
  (exists n e, get_metadata 1 Nndc = Some (n, e, 0, -99, 0) /\ zam n = None).
Proof. split; do 2 eexists; [reflexivity | split; reflexivity]. Qed.
Print Assumptions C42_mass_refuted.

(** *** Hypotheses met *)
(** The symbol of an atomic number is the one in the periodic table ([n] for 0). *)
Theorem C43_symbols : forall z w, symbol z = Some w <-> (z = 0 /\ w = str "n") \/ element z w.
Proof. exact symbol_element. Qed.
Print Assumptions C43_symbols.
Example C43_symbols_hypotheses_met : element 74 (str "W") /\ element 94 (str "Pu") /\ symbol 74 = Some (str "W").
Proof.
  split; [|split; [|reflexivity]].
  - exists 72, "Hf Ta W Re Os Ir Pt Au Hg Tl Pb Bi Po At Rn"%string, 2%nat. split; [cbn; tauto|]. split; [|reflexivity].
    exists (str "Hf Ta "), (str " Re Os Ir Pt Au Hg Tl Pb Bi Po At Rn"). split; [reflexivity|]. split; [cbn; intuition discriminate|]. split; [discriminate|].
    split; [right; exists (str "Hf Ta"); reflexivity|]. split; [right; eexists; reflexivity | reflexivity].
  - exists 89, "Ac Th Pa U Np Pu Am Cm Bk Cf Es Fm Md No Lr"%string, 5%nat. split; [cbn; tauto|]. split; [|reflexivity].
    exists (str "Ac Th Pa U Np "), (str " Am Cm Bk Cf Es Fm Md No Lr"). split; [reflexivity|]. split; [cbn; intuition discriminate|]. split; [discriminate|].
    split; [right; exists (str "Ac Th Pa U Np"); reflexivity|]. split; [right; eexists; reflexivity | reflexivity].
Qed.
Example C43_hypotheses_met : gnd_name 95 242 1 = Some (str "Am242_m1") /\ gnd_name 92 235 0 = Some (str "U235") /\
  zam (str "Am242_m1") = Some (95, 242, 1) /\ zam (str "n1") = Some (0, 1, 0) /\ zam (str "uranium") = None.
Proof. repeat split. Qed.
Example C42_hypotheses_met : get_metadata 92235 Nndc = Some (str "U235", str "U", 92, 235, 0) /\
  get_metadata 47510 Nndc = Some (str "Ag110_m1", str "Ag", 47, 110, 1) /\ get_metadata 6000 Mcnp = Some (str "C0", str "C", 6, 0, 0) /\
  get_metadata 1047110 Mcnp = Some (str "Ag110_m1", str "Ag", 47, 110, 1) /\
  get_metadata 47210 Nndc = Some (str "Ag110", str "Ag", 47, 110, 0).
Proof. repeat split. Qed.
