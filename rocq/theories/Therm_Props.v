(** C63: thermal ACE files and runs of NJOY. *)
From Coq Require Import List Bool Arith Lia ZArith Ascii String.
From Verif Require Import Text Dec Deck_Model Deck_Spec Deck_Proofs Therm_Model Therm_Spec Therm_Proofs.
Import ListNotations.
Local Open Scope nat_scope.
Local Open Scope list_scope.

(** A run that ends has given NJOY its commands and, as tapes, just the files of tapein;
    NJOY has ended with code 0; every file named in tapeout holds the (last) tape that
    NJOY has left for it, every other file is as before. *)
Theorem C63_run : forall njoy cmds tin tout input fs fs', NoDup (map fst tin) -> NoDup (map fst tout) -> Therm_Model.run njoy cmds tin tout input fs = (fs', None) ->
  exists d d', tapes tin (noted cmds input fs) d /\ njoy cmds d = Some (0%Z, d') /\
    forall f, fs' f = match delivered tout d' f with Some c => Some c | None => noted cmds input fs f end.
Proof. exact run_works. Qed.
Print Assumptions C63_run.

(** With file names all different each gets its tape. *)
Theorem C63_each_tape : forall l d n f, NoDup (map snd l) -> In (n, f) l -> delivered l d f = d (tape n).
Proof. exact delivered_one. Qed.
Print Assumptions C63_each_tape.

(** A run that fails changes nothing but the copy of the input, and says why. *)
Theorem C63_run_fails : forall njoy cmds tin tout input fs fs' e, Therm_Model.run njoy cmds tin tout input fs = (fs', Some e) ->
  fs' = noted cmds input fs /\
  match e with
  | NoFile f => (exists n, In (n, f) tin) /\ noted cmds input fs f = None
  | NoProgram => exists d, njoy cmds d = None
  | Failed c => c <> 0%Z /\ exists d d', njoy cmds d = Some (c, d')
  end.
Proof. exact run_fails. Qed.
Print Assumptions C63_run_fails.

(** With all files there and NJOY ending well, so does the run. *)
Theorem C63_run_ends : forall njoy cmds tin tout input fs, NoDup (map fst tin) -> (forall n f, In (n, f) tin -> noted cmds input fs f <> None) ->
  (forall d, tapes tin (noted cmds input fs) d -> exists d', njoy cmds d = Some (0%Z, d')) -> snd (Therm_Model.run njoy cmds tin tout input fs) = None.
Proof. exact run_ends. Qed.
Print Assumptions C63_run_ends.

(** The deck for thermal scattering data, card by card. *)
Theorem C63_deck : forall x given ace xsdir error m emax natom l, proper x given error -> lookup (mat_thermal x) thermal_data = Some m ->
  nth_error (list_values x) 3 = Some emax -> nth_error (list_values x) 5 = Some natom -> Therm_Model.temps_of x given = Some l ->
  exists t, cards t = thermal_cards x m emax error l /\
    thermal_deck x given ace xsdir error = inl (t, [(20, neutron_file x); (21, thermal_file x)], thermal_files ace xsdir l).
Proof. exact deck_some. Qed.
Print Assumptions C63_deck.
(** Without temperatures in the call they are those of the section: the first and as many
    further ones as it says, which must be there. *)
Theorem C63_temperatures : forall x given ace xsdir error m emax natom l, proper x given error -> lookup (mat_thermal x) thermal_data = Some m ->
  nth_error (list_values x) 3 = Some emax -> nth_error (list_values x) 5 = Some natom ->
  given = Some l \/ (given = None /\ exists ts rest, list_temps x = ts ++ rest /\ List.length ts = further x /\ l = first_temp x :: ts) ->
  exists t, cards t = thermal_cards x m emax error l /\
    thermal_deck x given ace xsdir error = inl (t, [(20, neutron_file x); (21, thermal_file x)], thermal_files ace xsdir l).
Proof.
  intros x given ace xsdir error m emax natom l P L V3 V5 T. apply (C63_deck x given ace xsdir error m emax natom l P L V3 V5). unfold Therm_Model.temps_of. destruct T as [->|[-> (ts & rest & E & N & ->)]]; [reflexivity|].
  rewrite E, app_length, N. destruct (Nat.leb_spec (further x) (further x + List.length rest)); [|lia]. now rewrite <- N, firstn_app, firstn_all, Nat.sub_diag, firstn_O, app_nil_r.
Qed.
Print Assumptions C63_temperatures.
Theorem C63_too_few : forall x ace xsdir error, lookup (mat_thermal x) thermal_data <> None -> 6 <= List.length (list_values x) -> List.length (list_temps x) < further x ->
  thermal_deck x None ace xsdir error = inr Exhausted.
Proof.
  intros x ace xsdir error L V T. unfold thermal_deck. destruct (lookup (mat_thermal x) thermal_data) as [m|]; [|congruence].
  destruct (nth_error (list_values x) 3) as [e|] eqn:E3; [|apply nth_error_None in E3; lia]. destruct (nth_error (list_values x) 5) as [e'|] eqn:E5; [|apply nth_error_None in E5; lia].
  unfold Therm_Model.temps_of. destruct (Nat.leb_spec (further x) (List.length (list_temps x))); [lia|reflexivity].
Qed.
Print Assumptions C63_too_few.
Theorem C63_no_deck : forall x given ace xsdir error,
  (lookup (mat_thermal x) thermal_data = None -> thermal_deck x given ace xsdir error = inr KeyError) /\
  (lookup (mat_thermal x) thermal_data <> None -> List.length (list_values x) < 6 -> thermal_deck x given ace xsdir error = inr IndexError).
Proof. exact deck_none. Qed.
Print Assumptions C63_no_deck.

(** All together. *)
Theorem C63_thermal : forall njoy x given ace xsdir error input fs fs', proper x given error -> make_ace_thermal njoy x given ace xsdir error input fs = (fs', None) ->
  exists m emax l t d d', lookup (mat_thermal x) thermal_data = Some m /\ nth_error (list_values x) 3 = Some emax /\ Therm_Model.temps_of x given = Some l /\
    cards t = thermal_cards x m emax error l /\ tapes [(20, neutron_file x); (21, thermal_file x)] (noted t input fs) d /\ njoy t d = Some (0%Z, d') /\
    forall f, fs' f = match delivered (thermal_files ace xsdir l) d' f with Some c => Some c | None => noted t input fs f end.
Proof. exact thermal_run. Qed.
Print Assumptions C63_thermal.
Theorem C63_thermal_fails : forall njoy x given ace xsdir error input fs fs' e, make_ace_thermal njoy x given ace xsdir error input fs = (fs', Some e) ->
  forall f, Some f <> input -> fs' f = fs f.
Proof. exact thermal_fails. Qed.
Print Assumptions C63_thermal_fails.

(** The ACE file named in the call is never written, only one per temperature, although
    the docstring calls [ace] the path of the file to write. *)
Theorem C63_ace_refuted : forall njoy x given ace xsdir error input fs fs', proper x given error -> make_ace_thermal njoy x given ace xsdir error input fs = (fs', None) ->
  input <> Some ace -> (forall t, ace <> xsdir ++ w "_" ++ t) -> fs' ace = fs ace.
Proof. exact ace_unwritten. Qed.
Print Assumptions C63_ace_refuted.

(** The nuclides beyond the third are left out for four materials of the table. *)
Theorem C63_zaids_refuted : forall k m, lookup k thermal_data = Some m -> (firstn 3 (zaids m) <> zaids m <-> In k [47; 49; 58; 59]%Z).
Proof. exact zaids_lost. Qed.
Print Assumptions C63_zaids_refuted.

(** *** Hypotheses met: hydrogen in ZrH at the first two temperatures of the file. *)
Definition hzrh : inputs :=
  {| neutron_file := str "n-001_H_001.endf"; thermal_file := str "tsl-HinZrH.endf"; mat := 125; zsymam := str "  1-H -  1 "; mat_thermal := 7; zsymam_thermal := str " H(ZrH)    ";
     lib := (str "ENDF/B", 7, 1)%Z; coherence := Some 2%Z; list_values := [str "81.98006"; str "58.0"; str "0.99917"; str "1.85"; str "0.0"; str "1.0"]; atoms := 1;
     first_temp := {| shown := str "296.0"; tenths := str "296.0" |}; further := 1; list_temps := [{| shown := str "400.0"; tenths := str "400.0" |}; {| shown := str "500.0"; tenths := str "500.0" |}] |}.
(** An NJOY that leaves on every tape 26 to 29 the first tape. *)
Definition copier : program := fun _ d => Some (0%Z, fun n => if existsb (eqt n) [tape 26; tape 27; tape 28; tape 29] then d (tape 20) else d n).
Definition here : dir := fun n => if eqt n (str "n-001_H_001.endf") then Some (str "H") else if eqt n (str "tsl-HinZrH.endf") then Some (str "ZrH") else None.
Lemma proper_case : proper hzrh None (str "0.001").
Proof.
  assert (forall t, t <> [] -> forallb (fun c => negb (existsb (eqc c) [sp; nl; "/"; "'"; "{"; "}"]%char)) t = true -> numeral t) as ND.
  { intros t N H. split; [easy|]. intros c I B. rewrite forallb_forall in H. apply H in I. apply negb_true_iff in I.
    assert (existsb (eqc c) [sp; nl; "/"; "'"; "{"; "}"]%char = true); [|congruence]. apply existsb_exists. exists c. split; [easy|]. apply Ascii.eqb_refl. }
  assert (forall t, forallb (fun c => negb (eqc c nl || eqc c quote)) t = true -> quotable t) as QD.
  { intros t H. rewrite forallb_forall in H. split; intros I; apply H in I; vm_compute in I; easy. }
  split.
  - apply ND; easy || reflexivity.
  - repeat apply Forall_cons; try apply Forall_nil; apply ND; easy || reflexivity.
  - intros l E. vm_compute in E. inversion E. split; [easy|]. repeat apply Forall_cons; try apply Forall_nil; apply ND; easy || reflexivity.
  - repeat split; apply QD; reflexivity.
Qed.
Example C63_hypotheses_met : proper hzrh None (str "0.001") /\ lookup 7 thermal_data = Some {| name := str "hzrh"; zaids := [1001]%Z; nmix := 1 |} /\
  exists fs', make_ace_thermal copier hzrh None (str "ace") (str "xsdir") (str "0.001") (Some (str "input")) here = (fs', None) /\
    fs' (str "ace_296.0") = Some (str "H") /\ fs' (str "xsdir_400.0") = Some (str "H") /\ fs' (str "ace_500.0") = None /\ fs' (str "ace") = None /\
    option_map (fun t => List.length (cards t)) (fs' (str "input")) = Some 39.
Proof.
  split; [exact proper_case|]. split; [reflexivity|]. eexists. split; [vm_compute; reflexivity|]. repeat split; vm_compute; reflexivity.
Qed.
Example C63_fails_case : exists fs', make_ace_thermal (fun _ d => Some (77%Z, d)) hzrh None (str "ace") (str "xsdir") (str "0.001") None here = (fs', Some (NotRun (Failed 77))).
Proof. eexists. vm_compute. reflexivity. Qed.
(** The first temperature and one of the two others of the section; one with a temperature too few. *)
Example C63_temperatures_hypotheses_met : proper hzrh None (str "0.001") /\ nth_error (list_values hzrh) 3 <> None /\ nth_error (list_values hzrh) 5 <> None /\
  exists t1 t2, list_temps hzrh = [t1] ++ [t2] /\ List.length [t1] = further hzrh.
Proof. split; [exact proper_case|]. split; [discriminate|]. split; [discriminate|]. do 2 eexists. split; reflexivity. Qed.
Example C63_too_few_hypotheses_met : let x := {| neutron_file := neutron_file hzrh; thermal_file := thermal_file hzrh; mat := mat hzrh; zsymam := zsymam hzrh; mat_thermal := mat_thermal hzrh; zsymam_thermal := zsymam_thermal hzrh;
    lib := lib hzrh; coherence := coherence hzrh; list_values := list_values hzrh; atoms := atoms hzrh; first_temp := first_temp hzrh; further := 3; list_temps := list_temps hzrh |} in
  lookup (mat_thermal x) thermal_data <> None /\ 6 <= List.length (list_values x) /\ List.length (list_temps x) < further x.
Proof. split; [discriminate|]. vm_compute. lia. Qed.
