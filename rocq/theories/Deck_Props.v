(** C62: the text of the NJOY decks. *)
From Coq Require Import List Bool Arith Lia ZArith Ascii String.
From Verif Require Import Text Dec Deck_Model Deck_Spec Deck_Proofs Deck_RunProofs Deck_NjoyProofs Deck_FormProofs.
From Verif Require Njoy_Model.
Import ListNotations.
Local Open Scope nat_scope.
Local Open Scope list_scope.

(** The deck read card by card is exactly the calls asked for, each with its units,
    material, groups, weights and temperatures, and the tapes go to the files named. *)
Theorem C62_deck : forall a, sensible a -> (heatr a = true -> broadr a = true) ->
  (errorr a = true -> broadr a = true /\ cov_energy_groups a <> None /\ (own_weights a = true -> user_flux_weight_vals a <> None)) ->
  exists t, cards t = flat_map (cards_of a) (calls a) ++ [c0 [w "stop"]] /\
    make_njoy_run a = if Deck_Model.run a then Njoy_Model.Raised Njoy_Model.NotCallable else Njoy_Model.Ok (t, [(20, filename a)], files a).
Proof. exact run_some. Qed.
Print Assumptions C62_deck.

(** Otherwise there is no deck. *)
Theorem C62_no_deck : forall a, sensible a ->
  (errorr a = true -> cov_energy_groups a = None -> make_njoy_run a = Njoy_Model.Raised Njoy_Model.NoGroups) /\
  (errorr a = true -> cov_energy_groups a <> None -> own_weights a = true -> user_flux_weight_vals a = None -> make_njoy_run a = Njoy_Model.Raised Njoy_Model.NoWeights) /\
  (errorr a = true -> cov_energy_groups a <> None -> (own_weights a = true -> user_flux_weight_vals a <> None) -> broadr a = false -> make_njoy_run a = Njoy_Model.Raised Njoy_Model.Unset) /\
  (errorr a = false -> heatr a = true -> broadr a = false -> make_njoy_run a = Njoy_Model.Raised Njoy_Model.Unset).
Proof. exact run_none. Qed.
Print Assumptions C62_no_deck.

(** The units in the text are those of the sequence of modules of C32, so what is shown
    there of the flow of tapes holds for the text. *)
Theorem C62_modules : forall a, sensible a ->
  match make_njoy_run a with
  | Njoy_Model.Ok (t, _, o) =>
      exists cs tapes, cards t = flat_map (cards_of a) cs ++ [c0 [w "stop"]] /\
        Njoy_Model.make_njoy_run (options_of a) = Njoy_Model.Ok (flat_map (asks a) cs, tapes) /\ map fst tapes = map fst o
  | Njoy_Model.Raised f => Njoy_Model.make_njoy_run (options_of a) = Njoy_Model.Raised f
  end.
Proof. exact same_deck. Qed.
Print Assumptions C62_modules.

(** Every GROUPR and ERRORR call says one group less than bounds, and reading one more
    number than groups gives just the bounds of the run. *)
Theorem C62_group_structure : forall a c k, bounds_of a <> [] -> structure_at c = Some k ->
  nth_error (cards_of a c) k = Some (c1 [num (List.length (bounds_of a) - 1)]) /\
  items (List.length (bounds_of a)) (skipn (S k) (cards_of a c)) = Some (bounds_of a).
Proof. exact group_structure. Qed.
Print Assumptions C62_group_structure.

(** Reading a weight table gives its header and the first numbers of the table: all of
    them when their number is even. *)
Theorem C62_weight_table : forall a c k, own_weights a = true -> bounds_of a <> [] -> weights_of a <> [] -> table_at c (List.length (bounds_of a)) = Some k ->
  forall m, 0 < m <= List.length (weights_of a) ->
  let n := num (List.length (weights_of a) / 2) in
  items (8 + m) (skipn k (cards_of a c)) = Some ([w "0."; w "0."; w "0"; w "0"; w "1"; n; n; w "2"] ++ firstn m (weights_of a)).
Proof. exact weight_table. Qed.
Print Assumptions C62_weight_table.

(** Every call that takes the temperatures of the run reads all of them. *)
Theorem C62_temperatures : forall a c k, temps_at c = Some k -> items (List.length (temps_of a)) (skipn k (cards_of a c)) = Some (map shown (temps_of a)).
Proof. exact temperatures_items. Qed.
Print Assumptions C62_temperatures.

(** Covariances of nu and chi are asked for at the last temperature only ... *)
Theorem C62_last_temperature_only : forall a mf p g e t, In (Cov3x mf p g e t) (calls a) -> t = last_temp a.
Proof. exact last_only. Qed.
Print Assumptions C62_last_temperature_only.

(** ... and two temperatures that agree to a tenth of a kelvin have their ACE files
    moved to the same name, so that one replaces the other. *)
Theorem C62_ace_names_refuted : forall a i j s t, acer a = true -> i <> j ->
  nth_error (temps_of a) i = Some s -> nth_error (temps_of a) j = Some t -> tenths s = tenths t ->
  exists m n f, m <> n /\ In (m, f) (files a) /\ In (n, f) (files a).
Proof. exact names_clash. Qed.
Print Assumptions C62_ace_names_refuted.

(** The covariances of each temperature go to a file named after it. *)
Theorem C62_covariance_files : forall a i t, errorr a = true -> nth_error (temps_of a) i = Some t ->
  In (22 + width a * i + 3, w "covr_" ++ shown t ++ w ".txt") (files a).
Proof. exact cov_file. Qed.
Print Assumptions C62_covariance_files.

(** *** Hypotheses met: U-235 at two temperatures with everything on. *)
Definition u235 : args :=
  {| filename := str "u.endf"; mat := 9228; zsymam := str " 92-U -235 "; lib := (str "ENDF/B", 7, 1)%Z;
     temperatures := Some [{| shown := str "300"; tenths := str "300.0" |}; {| shown := str "300.04"; tenths := str "300.0" |}];
     ace := str "ace"; xsdir := str "xsdir"; pendf := None; error := str "0.001"; broadr := true; heatr := true; purr := true; acer := true; errorr := true;
     cov_energy_groups := Some [str "1e-05"; str "0.625"; str "20000000.0"]; Deck_Model.run := false; covr_plot_mts := [102; 18]%Z; chi := true; nu := true;
     iwt_fluxweight := 1%Z; user_flux_weight_vals := Some [str "1e-05"; str "0.5"; str "20000000.0"; str "0.1"] |}.
Lemma numeral_dec t : t <> [] -> forallb (fun c => negb (existsb (eqc c) [sp; nl; "/"; "'"; "{"; "}"]%char)) t = true -> numeral t.
Proof.
  intros N H. split; [easy|]. intros c I B. rewrite forallb_forall in H. apply H in I. apply negb_true_iff in I.
  assert (existsb (eqc c) [sp; nl; "/"; "'"; "{"; "}"]%char = true); [|congruence]. apply existsb_exists. exists c. split; [easy|]. apply Ascii.eqb_refl.
Qed.
Lemma quotable_dec t : forallb (fun c => negb (eqc c nl || eqc c quote)) t = true -> quotable t.
Proof.
  intros H. rewrite forallb_forall in H. split; intros I; apply H in I; vm_compute in I; easy.
Qed.
Example C62_hypotheses_met : sensible u235 /\ bounds_of u235 <> [] /\ weights_of u235 <> [] /\
  (exists t, make_njoy_run u235 = Njoy_Model.Ok (t, [(20, str "u.endf")], files u235) /\ List.length (calls u235) = 27 /\ List.length (cards t) = 218) /\
  In (Cov3x 31 22 33 34 (str "300.04")) (calls u235) /\ In (Xsec 22 23) (calls u235) /\
  In (44, str "ace_300.0") (files u235) /\ In (46, str "ace_300.0") (files u235).
Proof.
  assert (sensible u235) as S0.
  { split.
    - split; [easy|]. repeat constructor; try easy; apply numeral_dec; easy || reflexivity.
    - intros l E. inversion E. split; [easy|]. repeat apply Forall_cons; try apply Forall_nil; apply numeral_dec; easy || reflexivity.
    - intros l E. inversion E. split; [easy|]. repeat apply Forall_cons; try apply Forall_nil; apply numeral_dec; easy || reflexivity.
    - apply numeral_dec; easy || reflexivity.
    - split; apply quotable_dec; reflexivity. }
  split; [exact S0|]. split; [easy|]. split; [easy|]. split.
  - destruct (run_some u235 S0) as (t & C & E); [easy|easy|]. exists t. split; [exact E|]. split; [reflexivity|]. rewrite C. vm_compute. reflexivity.
  - repeat split; vm_compute; intuition.
Qed.
(** What the deck of the simplest run looks like. *)
Example C62_case : exists t, make_njoy_run {| filename := str "h.endf"; mat := 125; zsymam := str "  1-H -  1 "; lib := (str "ENDF/B", 7, 1)%Z; temperatures := None;
     ace := str "ace"; xsdir := str "xsdir"; pendf := Some (str "p"); error := str "0.001"; broadr := true; heatr := false; purr := false; acer := false; errorr := false;
     cov_energy_groups := None; Deck_Model.run := false; covr_plot_mts := []; chi := false; nu := false; iwt_fluxweight := 9%Z; user_flux_weight_vals := None |}
   = Njoy_Model.Ok (t, [(20, str "h.endf")], [(21, str "p")]) /\
   cards t = [([str "reconr"], true); ([str "20"; str "21"], false); ([str "'ENDF/B-7.1 PENDF for   1-H -  1 '"], true); ([str "125"; str "2"], true); ([str "0.001"], true);
     ([str "'ENDF/B-7.1:   1-H -  1 '"], true); ([str "'Processed by NJOY'"], true); ([str "0"], true);
     ([str "broadr"], true); ([str "20"; str "21"; str "22"], false); ([str "125"; str "1"; str "0"; str "0"; str "0."], true); ([str "0.001"], true); ([str "293.6"], false); ([str "0"], true);
     ([str "stop"], false)].
Proof. eexists. split; vm_compute; reflexivity. Qed.
