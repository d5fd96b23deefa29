(** C73: the covariance generator's command line, its paths and energy groups. *)
From Verif Require Import Num Text Dec PyNum Cli_Model Cli_Spec Cli_Proofs Path_Model Path_Spec Path_Proofs.
From Coq Require Import ZArith QArith.Qcanon.
Local Open Scope nat_scope.
Local Open Scope list_scope.

(** Options in any order, abbreviated or not, mean what was said, the last value counting;
    the rest is the default. *)
Theorem C73_line : forall cwd said f,
  Forall cproper said -> capart said -> files said = [f] ->
  parse_args cwd (flat_map csays said) = Some (fold_left (cchange (abspath cwd)) said (cdefaults (abspath cwd f))).
Proof. intros cwd said f. apply citems_args. Qed.
(** The absolute path of a file is the same place, without detours, and stays the same
    place whatever the working directory is later. *)
Theorem C73_path : forall cwd p, absolute cwd ->
  absolute (abspath cwd p) /\ normal (abspath cwd p) /\
  (forall later, place later (abspath cwd p) = place cwd p) /\
  (forall later, abspath later (abspath cwd p) = abspath cwd p).
Proof.
  intros cwd p A. apply isabs_abs in A. destruct (abspath_shape cwd p A) as (n & Hn & E & F).
  split; [|split; [|split]].
  - apply isabs_abs. rewrite E. apply (normal_parts n _ Hn F).
  - exists n, (place cwd p). split; [exact Hn|]. split; assumption.
  - intros later. apply abspath_place. exact A.
  - intros later. apply abspath_again. exact A.
Qed.
(** What an accepted line contains. *)
Theorem C73_accepted : forall cwd ts a, absolute cwd -> parse_args cwd ts = Some a ->
  (exists t1 f t2, ts = t1 ++ f :: t2 /\ absolute (v_endf a) /\ forall later, place later (v_endf a) = place cwd f) /\
  (v_path a = str "./" \/ absolute (v_path a) /\ exists p, p <> [] /\ forall later, place later (v_path a) = place cwd p) /\
  (2 <= v_weight a <= 12)%Z.
Proof.
  intros cwd ts a A H. destruct (caccepted cwd ts a H) as ((t1 & f & t2 & E & V) & P & _ & W). split; [|split; [|exact W]].
  - exists t1, f, t2. split; [exact E|]. rewrite V. destruct (C73_path cwd f A) as (X & _ & Y & _). split; assumption.
  - destruct P as [P|(p & N & P)]; [left; exact P|right]. rewrite P. destruct (C73_path cwd p A) as (X & _ & Y & _).
    split; [exact X|]. exists p. split; assumption.
Qed.
(** The structure chosen, SCALE_n, has n groups: n+1 ascending boundaries from 1e-5 eV to
    20 MeV. *)
Theorem C73_groups : forall cwd ts a, parse_args cwd ts = Some a ->
  exists n gs, v_bins a = str "SCALE_" ++ decN (N.of_nat n) /\ cov_groups a = Some gs /\
    length gs = n + 1 /\ ascending gs /\ hd 0%Qc gs = qc 1 100000 /\ last gs 0%Qc = qz 20000000.
Proof. intros cwd ts a H. apply groups_of. apply (caccepted cwd ts a H). Qed.
(** Without -output_path the results go to wherever the program is later, not to a fixed
    place. *)
Theorem C73_fixed_refuted : forall cwd f, bare f ->
  exists a, parse_args cwd [f] = Some a /\ forall later, place later (v_path a) = leads [] later.
Proof.
  intros cwd f B. exists (cdefaults (abspath cwd f)). split; [|reflexivity].
  apply (citems_args cwd [File f] f); [|exact I|reflexivity]. constructor; [exact B|constructor].
Qed.
(** Of the weightings in the help text, 1 is refused. *)
Theorem C73_weight_refuted : forall cwd t1 u t2, cspells u (str "-njoy_spectrum_weighting") ->
  parse_args cwd (t1 ++ u :: str "1" :: t2) = None.
Proof.
  intros cwd t1 u t2 S0. unfold parse_args, parse.
  rewrite (run_bad generator u weight_arg (str "1")); try reflexivity. apply (cspells_opt u _ _ S0). reflexivity.
Qed.

(** ** Cases *)
Definition ex_cwd : text := str "/home/ana/work".
Definition ex_said : list citem :=
  [CMts (str "-m") [2; 102]%Z; OutPath (str "-output_p") (str "../out//./run1/"); File (str "n-092_U_235.endf");
   Bins (str "-e") (str "SCALE_44"); Weight (str "-njoy_s") 4%Z; Bins (str "-energy_bin_structure") (str "SCALE_56"); Temp (str "-t") 900%Z].
Lemma cspelled u n : existsb (eqt n) cov_options && (2 <=? length u) && starts u n && (eqt u n || unique cov_options u n) = true -> cspells u n.
Proof. apply spelled_of. Qed.
Example C73_line_hypotheses_met :
  Forall cproper ex_said /\ capart ex_said /\ files ex_said = [str "n-092_U_235.endf"] /\
  parse_args ex_cwd (flat_map csays ex_said) =
    Some (mkCov (str "/home/ana/work/n-092_U_235.endf") (str "SCALE_56") (str "/home/ana/out/run1") None 4%Z [2; 102]%Z 900%Z (str "njoy") (str "boxer2mat")).
Proof.
  split.
  { unfold ex_said. repeat apply Forall_cons; try apply Forall_nil; cbn [cproper];
      repeat first [apply cspelled; reflexivity | left; intros r X; discriminate | apply mem_in; reflexivity | discriminate | lia | split]. }
  repeat split; vm_compute; reflexivity.
Qed.
Example C73_path_hypotheses_met :
  absolute ex_cwd /\ place ex_cwd (str "../../x/./y") = [str "home"; str "x"; str "y"] /\
  abspath ex_cwd (str "../../x/./y") = str "/home/x/y" /\ abspath ex_cwd (str "//a/../..") = str "//" /\
  place ex_cwd (str "x") <> place (str "/tmp") (str "x").
Proof. split; [exists (str "home/ana/work"); reflexivity|]. repeat split; vm_compute; try reflexivity. discriminate. Qed.
Example C73_accepted_hypotheses_met : absolute ex_cwd /\ parse_args ex_cwd [str "a.endf"; str "-output_path"; str "out"] <> None /\
  parse_args ex_cwd [str "a.endf"; str "-energy_bin_structure"; str "SCALE_33"] = None.
Proof. split; [exists (str "home/ana/work"); reflexivity|]. split; vm_compute; [discriminate|reflexivity]. Qed.
Example C73_weight_refuted_hypotheses_met : cspells (str "-njoy_sp") (str "-njoy_spectrum_weighting") /\
  parse_args ex_cwd [str "a.endf"; str "-njoy_sp"; str "2"] <> None.
Proof. split; [apply cspelled; reflexivity|vm_compute; discriminate]. Qed.
Example C73_fixed_refuted_hypotheses_met : bare (str "a.endf") /\ leads [] ex_cwd <> leads [] (str "/tmp").
Proof. split; [left; intros r X; discriminate|vm_compute; discriminate]. Qed.

Print Assumptions C73_line.
Print Assumptions C73_path.
Print Assumptions C73_accepted.
Print Assumptions C73_groups.
Print Assumptions C73_fixed_refuted.
Print Assumptions C73_weight_refuted.
