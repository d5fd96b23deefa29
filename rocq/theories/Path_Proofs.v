(** Proofs about paths and the generator's command line. *)
From Verif Require Import Num Text Dec PyNum Cli_Model Cli_Spec Cli_Proofs Path_Model Path_Spec.
From Coq Require Import ZArith QArith.Qcanon.
Local Open Scope nat_scope.
Local Open Scope list_scope.

(** ** Paths *)
Lemma split_nonnil p : split p <> [].
Proof. destruct p as [|c r]; [discriminate|]. cbn [split]. destruct (eqc c slash); [discriminate|]. unfold cons_head. destruct (split r); discriminate. Qed.
Lemma split_app a b : split (a ++ slash :: b) = split a ++ split b.
Proof.
  induction a as [|c a IH]; [reflexivity|]. cbn [app split]. destruct (eqc c slash); [cbn [app]; f_equal; exact IH|].
  rewrite IH. pose proof (split_nonnil a) as N. destruct (split a); [contradiction|reflexivity].
Qed.
Lemma split_name c : ~ In slash c -> split c = [c].
Proof.
  induction c as [|x c IH]; intros N; [reflexivity|]. cbn [split].
  destruct (eqc x slash) eqn:E; [apply eqc_eq in E; subst; exfalso; apply N; left; reflexivity|].
  rewrite IH; [reflexivity|]. intros H. apply N. right. exact H.
Qed.
Lemma split_joined cs : Forall plain_name cs -> split (joined cs) = match cs with [] => [[]] | _ => cs end.
Proof.
  induction cs as [|c cs IH]; intros F; [reflexivity|]. inversion F as [|? ? (N1 & N2 & _) Fc]; subst.
  cbn [joined]. destruct cs as [|d cs]; [apply split_name; exact N2|].
  rewrite split_app, (split_name c N2), (IH Fc). reflexivity.
Qed.
Lemma split_parts p : Forall (fun c => ~ In slash c) (split p).
Proof.
  induction p as [|c p IH]; [constructor; [intros []|constructor]|]. cbn [split]. destruct (eqc c slash) eqn:E.
  - constructor; [intros []|exact IH].
  - unfold cons_head. destruct (split p) as [|w r]; inversion IH; subst.
    + constructor; [|constructor]. intros [H|[]]. subst. discriminate E.
    + constructor; [|assumption]. intros [H|H]; [subst; discriminate E|contradiction].
Qed.
Lemma removelast_rev {A} (l : list A) : removelast (rev l) = rev (tl l).
Proof. destruct l as [|x l]; [reflexivity|]. cbn [rev tl]. apply removelast_last. Qed.
Lemma eqt_false a b : a <> b -> eqt a b = false.
Proof. intros N. destruct (eqt a b) eqn:E; [apply eqt_eq in E; contradiction|reflexivity]. Qed.
Lemma keep_walk acc c : Forall plain_name acc -> ~ In slash c ->
  Forall plain_name (keep true acc c) /\ rev (keep true acc c) = walk (rev acc) c.
Proof.
  intros F N. unfold keep, walk. fold dot dotdot.
  destruct (eqt c []) eqn:E1; [split; [exact F|reflexivity]|]. destruct (eqt c dot) eqn:E2; [split; [exact F|reflexivity]|]. cbn [orb negb].
  assert (ND : eqt (hd [] acc) dotdot = false).
  { apply eqt_false. destruct acc as [|x acc]; [discriminate|]. inversion F as [|? ? (_ & _ & _ & X) _]; subst. exact X. }
  rewrite ND. destruct (eqt c dotdot) eqn:E3; cbn [negb orb andb].
  - split; [destruct acc; [constructor|inversion F; assumption]|]. rewrite removelast_rev. reflexivity.
  - split; [|reflexivity]. constructor; [|exact F].
    repeat split; trivial; intros ->; discriminate || (rewrite eqt_refl in *; discriminate).
Qed.
Lemma keep_walks l : forall acc, Forall plain_name acc -> Forall (fun c => ~ In slash c) l ->
  Forall plain_name (fold_left (keep true) l acc) /\ rev (fold_left (keep true) l acc) = fold_left walk l (rev acc).
Proof.
  induction l as [|c l IH]; intros acc F N; [split; [exact F|reflexivity]|]. inversion N; subst.
  destruct (keep_walk acc c F H1) as [F' E]. cbn [fold_left]. rewrite <- E. apply IH; assumption.
Qed.
Lemma walk_plain c at_ : plain_name c -> walk at_ c = at_ ++ [c].
Proof. intros (N1 & _ & N3 & N4). unfold walk. rewrite (eqt_false _ _ N1), (eqt_false _ _ N3), (eqt_false _ _ N4). reflexivity. Qed.
Lemma walk_all cs : forall at_, Forall plain_name cs -> fold_left walk cs at_ = at_ ++ cs.
Proof.
  induction cs as [|c cs IH]; intros at_ F; [rewrite app_nil_r; reflexivity|]. inversion F; subst. cbn [fold_left].
  rewrite walk_plain by assumption. rewrite IH by assumption. rewrite <- app_assoc. reflexivity.
Qed.
Lemma isabs_abs p : isabs p = true <-> absolute p.
Proof.
  unfold absolute. destruct p as [|c r]; cbn [isabs]; [split; [discriminate|intros [r H]; discriminate]|].
  split; [intros E; apply eqc_eq in E; subst; eauto|intros [q H]; inversion H; reflexivity].
Qed.
Lemma slashes_abs p : isabs p = true -> slashes p = 1 \/ slashes p = 2.
Proof.
  destruct p as [|a [|b [|c r]]]; cbn [isabs slashes]; intros H; try discriminate; rewrite H; auto.
  - destruct (eqc b slash); auto.
  - destruct (eqc b slash && negb (eqc c slash)); auto.
Qed.
(** Absolute paths made normal. *)
Definition parts (p : text) : list text := rev (fold_left (keep true) (split p) []).
Lemma parts_plain p : Forall plain_name (parts p).
Proof. unfold parts. apply Forall_rev. apply keep_walks; [constructor|apply split_parts]. Qed.
Lemma parts_walk p : parts p = fold_left walk (split p) [].
Proof. unfold parts. apply (keep_walks (split p) []); [constructor|apply split_parts]. Qed.
Lemma normpath_abs p : isabs p = true -> normpath p = repeat slash (slashes p) ++ joined (parts p).
Proof.
  intros A. destruct p as [|c r]; [discriminate|]. unfold normpath.
  assert (P : (0 <? slashes (c :: r)) = true) by (destruct (slashes_abs _ A) as [-> | ->]; reflexivity).
  rewrite P. fold (parts (c :: r)). destruct (slashes_abs _ A) as [-> | ->]; reflexivity.
Qed.
Lemma joined_head cs : Forall plain_name cs -> isabs (joined cs) = false.
Proof.
  intros F. destruct cs as [|c cs]; [reflexivity|]. inversion F as [|? ? (N1 & N2 & _) _]; subst.
  destruct c as [|x c]; [contradiction|].
  assert (X : eqc x slash = false) by (apply eqc_neq; intros ->; apply N2; left; reflexivity).
  cbn [joined]. destruct cs; cbn [app isabs]; exact X.
Qed.
Lemma normal_parts n cs : (n = 1 \/ n = 2) -> Forall plain_name cs ->
  isabs (repeat slash n ++ joined cs) = true /\ slashes (repeat slash n ++ joined cs) = n /\
  fold_left walk (split (repeat slash n ++ joined cs)) [] = cs.
Proof.
  intros Hn F. pose proof (joined_head cs F) as J. pose proof (split_joined cs F) as Sj.
  assert (W : fold_left walk (split (joined cs)) [] = cs).
  { rewrite Sj. destruct cs as [|c cs]; [reflexivity|]. apply (walk_all (c :: cs) [] F). }
  destruct Hn as [-> | ->]; cbn [repeat app]; (split; [reflexivity|]); split.
  - destruct (joined cs) as [|a [|b r]]; [reflexivity| |]; cbn [slashes isabs] in *; rewrite J; reflexivity.
  - cbn [split]. change (eqc slash slash) with true. cbn iota. cbn [fold_left]. exact W.
  - destruct (joined cs) as [|a r]; [reflexivity|]. cbn [slashes isabs] in *. rewrite J. reflexivity.
  - cbn [split]. change (eqc slash slash) with true. cbn iota. cbn [fold_left]. exact W.
Qed.
Lemma join_abs cwd p : isabs cwd = true -> isabs (if isabs p then p else join_path cwd p) = true.
Proof.
  intros A. destruct (isabs p) eqn:E; [exact E|]. unfold join_path. rewrite E.
  destruct cwd as [|c r]; [discriminate|]. destruct (ends_slash (c :: r)); exact A.
Qed.
Lemma ends_slash_inv p : p <> [] -> ends_slash p = true -> exists q, p = q ++ [slash].
Proof.
  intros N H. unfold ends_slash in H. destruct (rev p) as [|c r] eqn:E.
  - apply (f_equal (@rev ascii)) in E. rewrite rev_involutive in E. contradiction.
  - apply eqc_eq in H. subst c. exists (rev r). apply (f_equal (@rev ascii)) in E. rewrite rev_involutive in E. exact E.
Qed.
Lemma walk_join cwd p : isabs cwd = true ->
  fold_left walk (split (if isabs p then p else join_path cwd p)) [] = place cwd p.
Proof.
  intros A. unfold place, leads. destruct (isabs p) eqn:E; [reflexivity|]. rewrite A.
  unfold join_path. rewrite E. destruct (ends_slash cwd) eqn:Es.
  - destruct (ends_slash_inv cwd) as [q ->]; [intros ->; discriminate|exact Es|].
    rewrite <- app_assoc. cbn [app]. rewrite split_app, fold_left_app, split_app, fold_left_app. reflexivity.
  - rewrite split_app, fold_left_app. reflexivity.
Qed.
Lemma abspath_shape cwd p : isabs cwd = true -> exists n, (n = 1 \/ n = 2) /\
  abspath cwd p = repeat slash n ++ joined (place cwd p) /\ Forall plain_name (place cwd p).
Proof.
  intros A. pose proof (join_abs cwd p A) as J. unfold abspath.
  set (q := if isabs p then p else join_path cwd p) in *. exists (slashes q).
  split; [apply slashes_abs; exact J|]. rewrite (normpath_abs q J).
  pose proof (parts_plain q) as F. rewrite parts_walk in *. unfold q in *. rewrite (walk_join cwd p A) in *. split; [reflexivity|exact F].
Qed.
Lemma abspath_place cwd p cwd' : isabs cwd = true -> place cwd' (abspath cwd p) = place cwd p.
Proof.
  intros A. destruct (abspath_shape cwd p A) as (n & Hn & E & F). rewrite E. unfold place at 1. unfold leads at 1.
  destruct (normal_parts n _ Hn F) as (B & _ & W). rewrite B. exact W.
Qed.
Lemma abspath_again cwd p cwd' : isabs cwd = true -> abspath cwd' (abspath cwd p) = abspath cwd p.
Proof.
  intros A. destruct (abspath_shape cwd p A) as (n & Hn & E & F). rewrite E.
  destruct (normal_parts n _ Hn F) as (B & Sl & W). unfold abspath. rewrite B, (normpath_abs _ B), Sl, parts_walk, W. reflexivity.
Qed.

(** ** The command line *)
Lemma cspelled_all : spelled_check generator cov_options = true.
Proof. vm_compute. reflexivity. Qed.
Definition copt_of (n : text) : option arg := find_arg n (p_opt generator).
Lemma copt_named g : In g (p_opt generator) -> copt_of (g_name g) = Some g.
Proof. cbn [generator p_opt In]. intros H. repeat (destruct H as [H|H]; [subst g; reflexivity|]). destruct H. Qed.
Lemma cspells_opt u n g : cspells u n -> copt_of n = Some g -> classify generator u = Opt g None.
Proof.
  intros S0 O0. assert (n <> str "-h" /\ n <> str "--help").
  { split; intros ->; discriminate. }
  destruct (spells_class generator cov_options u n cspelled_all S0) as (g' & C & N); try tauto.
  pose proof (copt_named g' (class_found _ _ _ _ C)) as E. rewrite N in E. rewrite C. congruence.
Qed.
Lemma cclass_decZ z : classify generator (decZ z) = Arg. Proof. apply class_dec. reflexivity. Qed.
Lemma cclass_bare t : bare t -> classify generator t = Arg. Proof. apply class_bare_of. reflexivity. Qed.
Definition bins_arg : arg := mkArg (str "-energy_bin_structure") One false (map Str structures).
Definition weight_arg : arg := mkArg (str "-njoy_spectrum_weighting") One true (map Int [2; 3; 4; 5; 6; 7; 8; 9; 10; 11; 12]%Z).
Lemma class_bins t : In t structures -> classify generator t = Arg /\ convert bins_arg t = Some (Str t).
Proof.
  assert (H : forallb (fun t => match classify generator t, convert bins_arg t with
     Arg, Some (Str u) => eqt t u | _, _ => false end) structures = true) by (vm_compute; reflexivity).
  intros I. rewrite forallb_forall in H. specialize (H t I). cbn beta in H.
  destruct (classify generator t); try discriminate. destruct (convert _ t) as [[u|]|]; try discriminate.
  apply eqt_eq in H. subst. split; reflexivity.
Qed.
Lemma convert_weight z : (2 <= z <= 12)%Z -> convert weight_arg (decZ z) = Some (Int z).
Proof.
  intros H. unfold convert. cbn [weight_arg g_int]. rewrite py_int_decZ. cbn [option_map].
  enough (X : allowed weight_arg (Int z) = true) by (rewrite X; reflexivity).
  assert (z = 2 \/ z = 3 \/ z = 4 \/ z = 5 \/ z = 6 \/ z = 7 \/ z = 8 \/ z = 9 \/ z = 10 \/ z = 11 \/ z = 12)%Z as C by lia.
  repeat (destruct C as [-> |C]; [reflexivity|]). subst. reflexivity.
Qed.
Lemma csays_head i rest : cproper i -> (forall t, i <> File t) -> no_arg generator (csays i ++ rest).
Proof.
  assert (S0 : forall u n g, copt_of n = Some g -> cspells u n -> classify generator u <> Arg).
  { intros u n g O0 H. rewrite (cspells_opt u n g H O0). discriminate. }
  intros P N. destruct i; cbn [csays app no_arg cproper] in *; try (destruct (N t eq_refl));
    try (eapply S0; [|exact P]; reflexivity); destruct P as [P _]; (eapply S0; [|exact P]; reflexivity).
Qed.
Lemma crest_head cs : Forall cproper cs -> (forall t r, cs <> File t :: r) -> no_arg generator (flat_map csays cs).
Proof.
  intros F N. destruct cs as [|i r]; [exact I|]. cbn [flat_map]. inversion F; subst.
  apply csays_head; [assumption|]. intros t ->. exact (N t r eq_refl).
Qed.
Lemma capart_tail i r : capart (i :: r) -> capart r.
Proof. destruct i; cbn; trivial. destruct r as [|[]]; cbn; trivial; contradiction. Qed.
Definition cover (a : covargs) (e : text) : covargs :=
  let '(mkCov _ b p s w m t n x) := a in mkCov e b p s w m t n x.
Definition cfin (cwd : text) (k : nat) (l : list text) (a : covargs) : option covargs :=
  match k, l with
  | 0, [e] => Some (cover a (abspath cwd e))
  | 1, [] => Some a
  | _, _ => None
  end.
Lemma cfin_change cwd k l a i : cfin cwd k l (cchange (abspath cwd) a i) = option_map (fun a => cchange (abspath cwd) a i) (cfin cwd k l a).
Proof.
  unfold cfin. destruct k as [|[|k]]; [| |reflexivity].
  - destruct l as [|e [|? ?]]; try reflexivity. cbn [option_map]. f_equal. destruct a, i; try reflexivity. destruct t; reflexivity.
  - destruct l; reflexivity.
Qed.
Lemma citems_run cwd cs : forall k s a, Forall cproper cs -> capart cs ->
  cfin cwd k (files cs) (read_cov cwd s) = Some a ->
  exists s', run generator (flat_map csays cs) (skipn k (p_pos generator)) Idle s = Some s' /\
    read_cov cwd s' = fold_left (cchange (abspath cwd)) cs a.
Proof.
  induction cs as [|i cs IH]; intros k s a F A H.
  - cbn [files flat_map] in *. unfold cfin in H.
    destruct k as [|[|k]]; try discriminate. inversion H; subst. exists s. split; reflexivity.
  - inversion F as [|? ? Pi Fc]; subst. pose proof (capart_tail _ _ A) as Ac. cbn [flat_map].
    assert (OPT : (forall t, i <> File t) -> forall s1, read_cov cwd s1 = cchange (abspath cwd) (read_cov cwd s) i ->
      run generator (csays i ++ flat_map csays cs) (skipn k (p_pos generator)) Idle s =
      run generator (flat_map csays cs) (skipn k (p_pos generator)) Idle s1 ->
      exists s', run generator (csays i ++ flat_map csays cs) (skipn k (p_pos generator)) Idle s = Some s' /\
        read_cov cwd s' = fold_left (cchange (abspath cwd)) (i :: cs) a).
    { intros N s1 R1 E1. rewrite E1. assert (AR : files (i :: cs) = files cs).
      { destruct i; try reflexivity. destruct (N t eq_refl). }
      rewrite AR in H. destruct (IH k s1 (cchange (abspath cwd) a i) Fc Ac) as (s' & X & Y).
      { rewrite R1, cfin_change, H. reflexivity. }
      exists s'. split; [exact X|exact Y]. }
    assert (STR : forall n u t, cspells u (str n) -> copt_of (str n) = Some (any n One false) -> bare t -> csays i = [u; t] ->
      run generator (csays i ++ flat_map csays cs) (skipn k (p_pos generator)) Idle s =
      run generator (flat_map csays cs) (skipn k (p_pos generator)) Idle ((str n, [Str t]) :: s)).
    { intros n u t Pu O0 Bt E. rewrite E. cbn [app].
      rewrite (run_one _ _ (any n One false)); [reflexivity|apply (cspells_opt u (str n)); assumption|reflexivity|apply cclass_bare; exact Bt]. }
    destruct i; cbn [cproper] in Pi.
    + cbn [csays app]. cbn [files flat_map app] in H. fold (files cs) in H. cbn [fold_left].
      assert (CA : cchange (abspath cwd) a (File t) = a) by (destruct a; reflexivity). rewrite CA.
      pose proof (cclass_bare t Pi) as C.
      destruct k as [|[|k]]; cbn [cfin] in H; try (destruct (files cs); discriminate).
      destruct (files cs) as [|? ?] eqn:E; [|discriminate]. inversion H as [H']; clear H.
      change (skipn 0 (p_pos generator)) with (any "endf_file" One false :: skipn 1 (p_pos generator)).
      rewrite run_pos by exact C. rewrite put_str. cbn [goes].
      destruct (IH 1 ((str "endf_file", [Str t]) :: s) a Fc Ac) as (s' & X & Y).
      { cbn [cfin]. rewrite <- H'. reflexivity. }
      exists s'. split; [exact X|rewrite H'; exact Y].
    + destruct Pi as [Pu Pt]. destruct (class_bins t Pt) as [CA CV].
      apply (OPT ltac:(discriminate) ((str "-energy_bin_structure", [Str t]) :: s)); [reflexivity|].
      cbn [csays app]. rewrite (run_one _ _ bins_arg); [|apply (cspells_opt u (str "-energy_bin_structure")); [exact Pu|reflexivity]|reflexivity|exact CA].
      unfold put. cbn [convert_all]. rewrite CV. reflexivity.
    + destruct Pi as [Pu Pt]. apply (OPT ltac:(discriminate) ((str "-output_path", [Str t]) :: s)); [destruct t; reflexivity|].
      apply (STR "-output_path"%string u); trivial.
    + destruct Pi as [Pu Pt]. apply (OPT ltac:(discriminate) ((str "-output_store", [Str t]) :: s)); [reflexivity|].
      apply (STR "-output_store"%string u); trivial.
    + destruct Pi as [Pu Pz]. apply (OPT ltac:(discriminate) ((str "-njoy_spectrum_weighting", [Int z]) :: s)); [reflexivity|].
      cbn [csays app]. rewrite (run_one _ _ weight_arg); [|apply (cspells_opt u (str "-njoy_spectrum_weighting")); [exact Pu|reflexivity]|reflexivity|apply cclass_decZ].
      unfold put. cbn [convert_all]. rewrite (convert_weight z Pz). reflexivity.
    + destruct Pi as [Pu Pl]. apply (OPT ltac:(discriminate) ((str "-mts", map Int l) :: s)).
      * assert (IM : ints (Some (map Int l)) = l).
        { cbn [ints]. clear. induction l as [|z l IH]; [reflexivity|]. cbn. f_equal. exact IH. }
        transitivity (mkCov (v_endf (read_cov cwd s)) (v_bins (read_cov cwd s)) (v_path (read_cov cwd s)) (v_store (read_cov cwd s)) (v_weight (read_cov cwd s))
          (ints (Some (map Int l))) (v_temp (read_cov cwd s)) (v_njoy (read_cov cwd s)) (v_boxer (read_cov cwd s))); [reflexivity|rewrite IM; reflexivity].
      * cbn [csays app]. rewrite (run_many _ _ (any "-mts" Many true)).
        -- unfold put. unfold any at 2. rewrite convert_ints. reflexivity.
        -- apply (cspells_opt u (str "-mts")); [exact Pu|reflexivity].
        -- reflexivity.
        -- apply Forall_forall. intros t I. apply in_map_iff in I. destruct I as (z & <- & _). apply cclass_decZ.
        -- intros E. apply map_eq_nil in E. contradiction.
        -- apply crest_head; [exact Fc|]. intros t r ->. exact A.
    + apply (OPT ltac:(discriminate) ((str "-temperature", [Int z]) :: s)); [reflexivity|].
      cbn [csays app]. rewrite (run_one _ _ (any "-temperature" One true)); [|apply (cspells_opt u (str "-temperature")); [exact Pi|reflexivity]|reflexivity|apply cclass_decZ].
      rewrite put_int. reflexivity.
    + destruct Pi as [Pu Pt]. apply (OPT ltac:(discriminate) ((str "-njoy_exec", [Str t]) :: s)); [reflexivity|].
      apply (STR "-njoy_exec"%string u); trivial.
    + destruct Pi as [Pu Pt]. apply (OPT ltac:(discriminate) ((str "-boxer_exec", [Str t]) :: s)); [reflexivity|].
      apply (STR "-boxer_exec"%string u); trivial.
Qed.
Lemma citems_args cwd cs e : Forall cproper cs -> capart cs -> files cs = [e] ->
  parse_args cwd (flat_map csays cs) = Some (fold_left (cchange (abspath cwd)) cs (cdefaults (abspath cwd e))).
Proof.
  intros F A E. destruct (citems_run cwd cs 0 [] (cdefaults (abspath cwd e)) F A) as (s' & X & Y).
  - rewrite E. cbn [cfin]. reflexivity.
  - unfold parse_args, parse. cbn [skipn] in X. rewrite X. cbn [option_map]. rewrite Y. reflexivity.
Qed.

(** ** What an accepted line contains *)
Lemma entry_get p s n vs : Forall (entry p) s -> get n s = Some vs ->
  exists g, In g (p_pos p ++ p_opt p) /\ n = g_name g /\ Forall (fun v => exists t, convert g t = Some v) vs.
Proof.
  intros En G. assert (Ie : In (n, vs) s).
  { clear -G. induction s as [|[m v] s IH]; [discriminate|]. cbn [get] in G. destruct (eqt n m) eqn:E.
    - apply eqt_eq in E. inversion G; subst. left. reflexivity.
    - right. apply IH. exact G. }
  rewrite Forall_forall in En. exact (En _ Ie).
Qed.
Lemma caccepted cwd ts a : parse_args cwd ts = Some a ->
  (exists t1 f t2, ts = t1 ++ f :: t2 /\ v_endf a = abspath cwd f) /\
  (v_path a = str "./" \/ exists p, p <> [] /\ v_path a = abspath cwd p) /\
  In (v_bins a) structures /\ (2 <= v_weight a <= 12)%Z.
Proof.
  unfold parse_args. destruct (parse generator ts) as [s|] eqn:P; [|discriminate]. intros H; inversion H; subst; clear H.
  unfold parse in P. pose proof (run_entries generator ts _ Idle _ _ I P (incl_refl _) (Forall_nil _)) as En. repeat split.
  - cbn [p_pos generator] in P.
    destruct (run_next generator ts _ _ Idle _ _ I P) as (t1 & f & r1 & v1 & s1 & E1 & K1 & V1 & R1 & _).
    exists t1, f, r1. split; [exact E1|]. unfold read_cov. cbn [v_endf]. f_equal.
    rewrite (run_kept generator r1 [] Idle _ s (str "endf_file") I R1); [| |intros []].
    + cbn [get any g_name]. rewrite eqt_refl. unfold convert in V1. cbn in V1. inversion V1. reflexivity.
    + intros X. apply mem_in in X. vm_compute in X. discriminate.
  - unfold read_cov. cbn [v_path]. destruct (hd [] (texts (get (str "-output_path") s))) as [|c r]; [left; reflexivity|].
    right. exists (c :: r). split; [discriminate|reflexivity].
  - unfold read_cov. cbn [v_bins].
    destruct (get (str "-energy_bin_structure") s) as [vs|] eqn:G; [|apply mem_in; reflexivity].
    destruct (entry_get _ _ _ _ En G) as (g & Ig & Ng & Fv).
    assert (Eg : g = bins_arg).
    { cbn [generator p_pos p_opt app In] in Ig. repeat (destruct Ig as [Ig|Ig]; [subst g; try discriminate Ng; reflexivity|]). destruct Ig. }
    subst g. destruct vs as [|v vs]; [apply mem_in; reflexivity|]. inversion Fv as [|? ? (t & Ht) _]; subst.
    unfold convert in Ht. cbn [bins_arg g_int] in Ht. destruct (allowed _ (Str t)) eqn:Al; [|discriminate]. inversion Ht; subst.
    cbn [texts flat_map app hd]. assert (X : existsb (value_eqb (Str t)) (map Str structures) = true) by exact Al.
    apply existsb_exists in X. destruct X as (w & Iw & Ew). apply in_map_iff in Iw. destruct Iw as (d & <- & Id).
    cbn [value_eqb] in Ew. apply eqt_eq in Ew. subst d. exact Id.
  - unfold read_cov. cbn [v_weight].
    destruct (get (str "-njoy_spectrum_weighting") s) as [vs|] eqn:G; [|cbn; lia].
    destruct (entry_get _ _ _ _ En G) as (g & Ig & Ng & Fv).
    assert (Eg : g = weight_arg).
    { cbn [generator p_pos p_opt app In] in Ig. repeat (destruct Ig as [Ig|Ig]; [subst g; try discriminate Ng; reflexivity|]). destruct Ig. }
    subst g. destruct vs as [|v vs]; [cbn; lia|]. inversion Fv as [|? ? (t & Ht) _]; subst.
    unfold convert in Ht. cbn [weight_arg g_int] in Ht. destruct (py_int t) as [z|]; [|discriminate]. cbn [option_map] in Ht.
    destruct (allowed weight_arg (Int z)) eqn:Al; [|discriminate]. inversion Ht; subst. cbn [ints flat_map app hd].
    unfold allowed in Al. cbn in Al. repeat (apply orb_prop in Al; destruct Al as [Al|Al]; [apply Z.eqb_eq in Al; lia|]). discriminate.
  - unfold read_cov. cbn [v_weight].
    destruct (get (str "-njoy_spectrum_weighting") s) as [vs|] eqn:G; [|cbn; lia].
    destruct (entry_get _ _ _ _ En G) as (g & Ig & Ng & Fv).
    assert (Eg : g = weight_arg).
    { cbn [generator p_pos p_opt app In] in Ig. repeat (destruct Ig as [Ig|Ig]; [subst g; try discriminate Ng; reflexivity|]). destruct Ig. }
    subst g. destruct vs as [|v vs]; [cbn; lia|]. inversion Fv as [|? ? (t & Ht) _]; subst.
    unfold convert in Ht. cbn [weight_arg g_int] in Ht. destruct (py_int t) as [z|]; [|discriminate]. cbn [option_map] in Ht.
    destruct (allowed weight_arg (Int z)) eqn:Al; [|discriminate]. inversion Ht; subst. cbn [ints flat_map app hd].
    unfold allowed in Al. cbn in Al. repeat (apply orb_prop in Al; destruct Al as [Al|Al]; [apply Z.eqb_eq in Al; lia|]). discriminate.
Qed.
(** A refused value ends the program wherever it is. *)
Lemma run_bad p u g t ts : forall t1 pos st s, classify p u = Opt g None -> g_kind g = One -> classify p t = Arg -> convert g t = None ->
  run p (t1 ++ u :: t :: ts) pos st s = None.
Proof.
  induction t1 as [|x t1 IH]; intros pos st s C K A V.
  - cbn [app run]. unfold step at 1. rewrite C.
    assert (X : match close st s with Some s' => idle (Opt g None) u pos s' | None => None end = None \/
                exists s', match close st s with Some s' => idle (Opt g None) u pos s' | None => None end = Some (pos, Wait g, s')).
    { destruct (close st s) as [s'|]; [|left; reflexivity]. right. exists s'. unfold idle. rewrite K. reflexivity. }
    assert (E : match st with Wait _ => match close st s with Some s' => idle (Opt g None) u pos s' | None => None end
      | _ => match close st s with Some s' => idle (Opt g None) u pos s' | None => None end end =
      match close st s with Some s' => idle (Opt g None) u pos s' | None => None end) by (destruct st; reflexivity).
    destruct st; cbn iota; (destruct X as [X|[s' X]]; rewrite X; [reflexivity|]); unfold step; rewrite A; unfold put; cbn [convert_all]; rewrite V; reflexivity.
  - cbn [app run]. destruct (step p x pos st s) as [[[pos' st'] s']|]; [|reflexivity]. apply IH; assumption.
Qed.

(** ** Groups *)
Fixpoint ascendb (l : list Qc) : bool :=
  match l with x :: ((y :: _) as r) => qltb x y && ascendb r | _ => true end.
Lemma ascendb_ok l : ascendb l = true -> ascending l.
Proof.
  induction l as [|x l IH]; [intros _; exact I|]. destruct l as [|y l]; [intros _; exact I|]. cbn [ascendb ascending]. intros H.
  apply andb_prop in H. destruct H as [H1 H2]. split; [apply qltb_lt; exact H1|apply IH; exact H2].
Qed.
Definition groups_ok (n : nat) (l : list Qc) : bool :=
  (length l =? n + 1) && ascendb l && qeqb (hd 0%Qc l) (qc 1 100000) && qeqb (last l 0%Qc) (qz 20000000).
Lemma groups_checked : forallb (fun x => groups_ok (fst x) (snd x))
  [(3, energy_groups_3); (44, energy_groups_44); (56, energy_groups_56); (238, energy_groups_238); (252, energy_groups_252)] = true.
Proof. vm_compute. reflexivity. Qed.
Lemma groups_ok_inv n l : groups_ok n l = true ->
  length l = n + 1 /\ ascending l /\ hd 0%Qc l = qc 1 100000 /\ last l 0%Qc = qz 20000000.
Proof.
  unfold groups_ok. rewrite !andb_true_iff. intros [[[A B] C] D]. apply Nat.eqb_eq in A. apply qeqb_eq in C, D.
  split; [exact A|]. split; [apply ascendb_ok; exact B|]. split; assumption.
Qed.
Lemma groups_of a : In (v_bins a) structures -> exists n gs, v_bins a = str "SCALE_" ++ decN (N.of_nat n) /\ cov_groups a = Some gs /\
  length gs = n + 1 /\ ascending gs /\ hd 0%Qc gs = qc 1 100000 /\ last gs 0%Qc = qz 20000000.
Proof.
  intros H. pose proof groups_checked as G. rewrite forallb_forall in G. unfold cov_groups.
  assert (K : forall n gs, In (n, gs) [(3, energy_groups_3); (44, energy_groups_44); (56, energy_groups_56); (238, energy_groups_238); (252, energy_groups_252)] -> groups_ok n gs = true).
  { intros n gs I. exact (G (n, gs) I). }
  destruct H as [H|[H|[H|[H|[H|[]]]]]]; rewrite <- H.
  - exists 3, energy_groups_3. split; [reflexivity|]. split; [reflexivity|]. apply groups_ok_inv, K. left; reflexivity.
  - exists 44, energy_groups_44. split; [reflexivity|]. split; [reflexivity|]. apply groups_ok_inv, K. right; left; reflexivity.
  - exists 56, energy_groups_56. split; [reflexivity|]. split; [reflexivity|]. apply groups_ok_inv, K. right; right; left; reflexivity.
  - exists 238, energy_groups_238. split; [reflexivity|]. split; [reflexivity|]. apply groups_ok_inv, K. right; right; right; left; reflexivity.
  - exists 252, energy_groups_252. split; [reflexivity|]. split; [reflexivity|]. apply groups_ok_inv, K. right; right; right; right; left; reflexivity.
Qed.
