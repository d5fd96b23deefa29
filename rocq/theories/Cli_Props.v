(** C72: the sampling program's command line and the job it writes. *)
From Verif Require Import Text Dec PyNum Cli_Model Cli_Spec Cli_Proofs.
From Coq Require Import ZArith.
Local Open Scope list_scope.

(** Arguments and options may be mixed in any order and options may be abbreviated; what
    the script gets is what was said, the last value of an option counting, and the default
    for what was not said. *)
Theorem C72_line : forall said b s n z,
  Forall proper said -> apart said -> arguments said = [b; s; n] -> py_int n = Some z ->
  sampler_args (flat_map says said) = Some (fold_left change said (defaults b s z)).
Proof. exact items_args. Qed.
(** Nothing that looks like an option is ignored. *)
Theorem C72_refused : forall ts t, In t ts -> misspelt t -> sampler_args ts = None.
Proof. intros ts t I M. unfold sampler_args, parse. rewrite (run_stop _ _ t _ _ _ I (class_misspelt t M)). reflexivity. Qed.
(** What an accepted line contains. *)
Theorem C72_accepted : forall ts a, sampler_args ts = Some a ->
  (exists t1 t2 t3 t4 n, ts = t1 ++ a_base a :: t2 ++ a_store a :: t3 ++ n :: t4 /\ py_int n = Some (a_num a)) /\
  In (a_dist a) (map str ["normal"; "lognormal"; "uncorrelated"; "uniform"; "loguncorrelated"]%string).
Proof.
  intros ts a H. destruct (accepted ts a H) as [(t1 & t2 & t3 & t4 & n & E & N & _) D].
  split; [|exact D]. exists t1, t2, t3, t4, n. split; assumption.
Qed.
(** The job samples what was asked for: its command starts the script with arguments that
    are read as the same files, number of samples, reactions, oversampling, distribution
    and plots. *)
Theorem C72_job : forall sh file ts a, shell sh -> name file -> name (a_base a) -> name (a_store a) ->
  sampler_args ts = Some a -> a_write a = true ->
  exists command r a', main file a = Write command (a_wait a) (a_mpi a) (a_submit a) /\
    sh command = launcher (a_mpi a) ++ file :: r /\ sampler_args r = Some a' /\ main file a' = Sample a' /\
    a_base a' = a_base a /\ a_store a' = a_store a /\ a_num a' = a_num a /\ a_mts a' = a_mts a /\
    a_over a' = a_over a /\ a_dist a' = a_dist a /\ a_plots a' = a_plots a.
Proof.
  intros sh file ts a Sh Fi B St P W. destruct (accepted ts a P) as [(t1 & t2 & t3 & t4 & n & _ & _ & KB & KS & _) D].
  exists (job file a), (a_base a :: a_store a :: decZ (a_num a) :: rest_words a), (passed a).
  split; [unfold main; rewrite W; reflexivity|]. split.
  - rewrite Sh by (apply job_ok; trivial; apply ok_name; assumption).
    rewrite job_words by (trivial; apply name_word; exact Fi).
    rewrite words_w by (apply name_word; exact B). rewrite words_w by (apply name_word; exact St).
    rewrite words_w by (apply name_word, decZ_name). rewrite (tail_words a D). reflexivity.
  - split; [apply job_parsed; assumption|]. repeat split.
Qed.
(** But not plots alone: a job asked for with --plot-only draws samples. *)
Theorem C72_plot_only_refuted : forall sh file ts a, shell sh -> name file -> name (a_base a) -> name (a_store a) ->
  sampler_args ts = Some a -> a_only a = true ->
  exists r a', sh (job file a) = launcher (a_mpi a) ++ file :: r /\ sampler_args r = Some a' /\ a_only a' = false.
Proof.
  intros sh file ts a Sh Fi B St P W. destruct (accepted ts a P) as [(t1 & t2 & t3 & t4 & n & _ & _ & KB & KS & _) D].
  exists (a_base a :: a_store a :: decZ (a_num a) :: rest_words a), (passed a). split.
  - rewrite Sh by (apply job_ok; trivial; apply ok_name; assumption).
    rewrite job_words by (trivial; apply name_word; exact Fi).
    rewrite words_w by (apply name_word; exact B). rewrite words_w by (apply name_word; exact St).
    rewrite words_w by (apply name_word, decZ_name). rewrite (tail_words a D). reflexivity.
  - split; [apply job_parsed; assumption|reflexivity].
Qed.
(** Nor files with a blank in their names: the job ends with an error. *)
Theorem C72_blank_refuted : forall sh file ts a u v, shell sh -> name file ->
  name u -> name v -> bare u -> bare v -> a_base a = u ++ sp :: v -> name (a_store a) -> py_int (a_store a) = None ->
  sampler_args ts = Some a ->
  exists r, sh (job file a) = launcher (a_mpi a) ++ file :: r /\ sampler_args r = None.
Proof.
  intros sh file ts a u v Sh Fi U V Bu Bv E St NI P. destruct (accepted ts a P) as [(t1 & t2 & t3 & t4 & n & _ & _ & KB & KS & _) D].
  exists (u :: v :: a_store a :: decZ (a_num a) :: rest_words a). split.
  - rewrite Sh.
    + rewrite job_words by (trivial; apply name_word; exact Fi). rewrite E, <- app_assoc. cbn [app].
      rewrite words_w by (apply name_word; exact U). rewrite words_w by (apply name_word; exact V). rewrite words_w by (apply name_word; exact St).
      rewrite words_w by (apply name_word, decZ_name). rewrite (tail_words a D). reflexivity.
    + apply job_ok; trivial; [|apply ok_name; exact St]. rewrite E. apply Forall_app. split; [apply ok_name; exact U|].
      constructor; [right; reflexivity|apply ok_name; exact V].
  - unfold sampler_args, parse. cbn [p_pos sampler]. rewrite run_pos by (apply class_bare; exact Bu). rewrite put_str. cbn [goes].
    rewrite run_pos by (apply class_bare; exact Bv). rewrite put_str. cbn [goes]. rewrite run_pos by exact KS.
    unfold put. cbn [convert_all]. unfold convert. cbn [any g_int]. rewrite NI. reflexivity.
Qed.
(** Reactions listed before the files take the files as reactions too. *)
Theorem C72_swallow_refuted : forall u l, spells u (str "-mts") -> Forall bare l -> sampler_args (u :: l) = None.
Proof.
  intros u l Su F. unfold sampler_args, parse.
  rewrite (run_swallow sampler u (any "-mts" Many true)); [reflexivity|apply (spells_opt u (str "-mts")); [exact Su|reflexivity]|reflexivity|discriminate|].
  eapply Forall_impl; [|exact F]. intros t. apply class_bare.
Qed.

(** ** Cases *)
Lemma bare_str t : match t with c :: _ => negb (eqc c "-") | [] => true end = true -> bare t.
Proof. intros H. left. intros r ->. discriminate. Qed.
Lemma name_str t : negb (eqt t []) && forallb (fun c => okcb c && negb (eqc c sp)) t = true -> name t.
Proof.
  intros H. apply andb_prop in H. destruct H as [H1 H2]. split; [intros ->; discriminate|]. intros c I.
  rewrite forallb_forall in H2. specialize (H2 c I). apply andb_prop in H2. destruct H2 as [A B].
  destruct (okcb_ok c A) as [X| ->]; [exact X|discriminate].
Qed.
Lemma bare_below t : negative t = true -> bare t.
Proof. intros H. right. right. apply negative_iff. exact H. Qed.
Definition ex_said : list item :=
  [Given (str "92235.710nc"); Over (str "-num") (-1); WaitFor (str "--wait") (str "-.5"); Given (str "u235.h5"); Dist (str "-d") (str "lognormal");
   WritePbs (str "--wr"); Mts (str "-mt") [2; 102]%Z; Plots (str "--make_plots"); Mpi (str "-mp") 4; Given (str "500");
   Dist (str "-distribution") (str "uniform")].
Definition ex_args : args :=
  mkArgs (str "92235.710nc") (str "u235.h5") 500%Z [2; 102]%Z 4%Z (-1)%Z true true (Some (str "-.5")) false (str "uniform") false.
Example C72_line_hypotheses_met :
  Forall proper ex_said /\ apart ex_said /\ arguments ex_said = [str "92235.710nc"; str "u235.h5"; str "500"] /\
  py_int (str "500") = Some 500%Z /\ sampler_args (flat_map says ex_said) = Some ex_args.
Proof.
  split.
  { unfold ex_said. repeat apply Forall_cons; try apply Forall_nil; cbn [proper];
      repeat first [apply spelled; reflexivity | apply bare_str; reflexivity | apply bare_below; reflexivity | apply mem_in; reflexivity | discriminate | split]. }
  repeat split; vm_compute; reflexivity.
Qed.
Example C72_refused_hypotheses_met : misspelt (str "-distrbution") /\ misspelt (str "--plots=3") /\ misspelt (str "-1.") /\ misspelt (str "-1e-3").
Proof.
  assert (X : forall t, forallb (fun n => forallb (fun u => negb (starts u t) || negb (match strip u t with Some [] => true | Some (c :: _) => eqc c "=" | None => false end)) (prefixes n)) options = true ->
    forall u q r n, t = u ++ q -> (q = [] \/ exists v, q = "="%char :: v) -> In n options -> n <> u ++ r).
  { intros t H u q r n E Q I N. rewrite forallb_forall in H. specialize (H n I). rewrite forallb_forall in H.
    specialize (H u (prefixes_in u r n N)). assert (S1 : strip u t = Some q) by (apply strip_Some; exact E).
    unfold starts in H. rewrite S1 in H. cbn [negb orb] in H. destruct Q as [->|[v ->]]; discriminate. }
  assert (Y : forall r, r <> [] -> negative ("-"%char :: r) = false -> ~ In sp ("-"%char :: r) -> (forall q, "-"%char :: r <> str "-h" ++ q) ->
    (forall u q z n, "-"%char :: r = u ++ q -> (q = [] \/ exists v, q = "="%char :: v) -> In n options -> n <> u ++ z) -> misspelt ("-"%char :: r)).
  { intros r R N B H U. split; [exists r; split; [reflexivity|exact R]|]. split; [rewrite <- negative_iff; congruence|]. split; [exact B|]. split; [exact H|exact U]. }
  split; [|split; [|split]]; (apply Y; [discriminate|reflexivity|cbn; intuition discriminate|intros q H; discriminate|apply X; vm_compute; reflexivity]).
Qed.
(** A shell that splits at blanks. *)
Example C72_job_hypotheses_met :
  shell words /\ name (str "/opt/ASAPy/XsecSampler.py") /\ name (a_base ex_args) /\ name (a_store ex_args) /\
  sampler_args (flat_map says ex_said) = Some ex_args /\ a_write ex_args = true /\
  job (str "/opt/ASAPy/XsecSampler.py") ex_args =
    str "mpiexec -n 4 python /opt/ASAPy/XsecSampler.py 92235.710nc u235.h5 500 -mt 2 102 -distribution uniform -num_oversamples -1 --make_plots".
Proof.
  split; [intros t _; reflexivity|]. repeat (split; [apply name_str; reflexivity|]). repeat split; vm_compute; reflexivity.
Qed.
Example C72_plot_only_refuted_hypotheses_met : exists ts a,
  sampler_args ts = Some a /\ a_only a = true /\ a_write a = true /\ name (a_base a) /\ name (a_store a).
Proof.
  exists (words (str "a.ace c.h5 20 --plot-only --writepbs")). eexists. split; [vm_compute; reflexivity|].
  split; [reflexivity|]. split; [reflexivity|]. split; apply name_str; reflexivity.
Qed.
Example C72_blank_refuted_hypotheses_met : exists ts a u v,
  sampler_args ts = Some a /\ a_base a = u ++ sp :: v /\ name u /\ name v /\ bare u /\ bare v /\ name (a_store a) /\ py_int (a_store a) = None.
Proof.
  exists [str "my table.ace"; str "c.h5"; str "20"]. eexists. exists (str "my"), (str "table.ace").
  split; [vm_compute; reflexivity|]. split; [reflexivity|].
  split; [apply name_str; reflexivity|]. split; [apply name_str; reflexivity|]. split; [apply bare_str; reflexivity|]. split; [apply bare_str; reflexivity|].
  split; [apply name_str; reflexivity|reflexivity].
Qed.
Example C72_swallow_refuted_hypotheses_met :
  spells (str "-mts") (str "-mts") /\ Forall bare [str "2"; str "102"; str "a.ace"; str "c.h5"; str "20"] /\
  sampler_args (words (str "a.ace c.h5 20 -mts 2 102")) <> None.
Proof.
  split; [apply spelled; reflexivity|]. split; [repeat apply Forall_cons; try apply Forall_nil; apply bare_str; reflexivity|].
  vm_compute. discriminate.
Qed.

Print Assumptions C72_line.
Print Assumptions C72_refused.
Print Assumptions C72_accepted.
Print Assumptions C72_job.
Print Assumptions C72_plot_only_refuted.
Print Assumptions C72_blank_refuted.
Print Assumptions C72_swallow_refuted.
