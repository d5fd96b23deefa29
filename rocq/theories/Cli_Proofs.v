(** Proofs about command lines. *)
From Verif Require Import Text Dec PyNum Cli_Model Cli_Spec.
From Coq Require Import ZArith.
Local Open Scope list_scope.

(** ** Classes of arguments *)
Lemma firstn_app_l {A} (u r : list A) : firstn (length u) (u ++ r) = u.
Proof. rewrite firstn_app, Nat.sub_diag, firstn_O, app_nil_r, firstn_all. reflexivity. Qed.

Lemma forallb_filter_id_nil {A} (f : A -> bool) l : (forall x, In x l -> f x = false) <-> filter f l = [].
Proof. split; [induction l as [|x l IH]; intros H; [reflexivity|]; cbn; rewrite (H x (or_introl eq_refl)); apply IH; intros y I; apply H; right; exact I|]. intros E x I. destruct (f x) eqn:F; [|reflexivity]. assert (H : In x (filter f l)) by (apply filter_In; split; assumption). rewrite E in H. destruct H. Qed.
Definition prefixes (n : text) : list text := map (fun k => firstn k n) (seq 0 (S (length n))).
Lemma prefixes_in u r n : n = u ++ r -> In u (prefixes n).
Proof.
  intros ->. apply in_map_iff. exists (length u). split; [apply firstn_app_l|].
  apply in_seq. rewrite app_length. lia.
Qed.
Lemma starts_iff p t : starts p t = true <-> exists r, t = p ++ r.
Proof.
  unfold starts. destruct (strip p t) as [r|] eqn:E.
  - split; [intros _; exists r; apply strip_Some; exact E|reflexivity].
  - split; [discriminate|]. intros [r Hr]. exfalso. apply (proj1 (strip_None p t) E r Hr).
Qed.
Definition unique (names : list text) (u n : text) : bool :=
  forallb (fun m => negb (starts u m) || eqt m n) names.
Definition is_opt (p : parser) (u n : text) : bool :=
  match classify p u with
  | Opt g None => eqt (g_name g) n
  | Stop => eqt n (str "-h") || eqt n (str "--help")
  | _ => false
  end.
Definition spelled_check (p : parser) (options : list text) : bool := forallb (fun n => forallb (fun u =>
  negb (2 <=? length u) || negb (eqt u n || unique options u n) || is_opt p u n) (prefixes n)) options.
Lemma spelled_all : spelled_check sampler options = true.
Proof. vm_compute. reflexivity. Qed.
Lemma is_opt_find p u n : is_opt p u n = true -> n <> str "-h" -> n <> str "--help" ->
  exists g, classify p u = Opt g None /\ g_name g = n.
Proof.
  unfold is_opt. destruct (classify p u) as [|g [e|]|] eqn:E; try discriminate; intros H N1 N2.
  - exists g. split; [reflexivity|apply eqt_eq; exact H].
  - apply orb_prop in H. destruct H as [H|H]; apply eqt_eq in H; contradiction.
Qed.
Lemma spells_class p names u n : spelled_check p names = true -> spells_of names u n -> n <> str "-h" -> n <> str "--help" ->
  exists g, classify p u = Opt g None /\ g_name g = n.
Proof.
  intros H (I & L & (r & Hr) & U) N1 N2. apply is_opt_find; trivial. unfold spelled_check in H.
  rewrite forallb_forall in H. specialize (H n I). cbn beta in H.
  rewrite forallb_forall in H. specialize (H u (prefixes_in u r n Hr)). cbn beta in H.
  apply orb_prop in H. destruct H as [H|H]; [|exact H].
  exfalso. apply orb_prop in H. destruct H as [H|H].
  - apply negb_true_iff in H. apply Nat.leb_gt in H. lia.
  - apply negb_true_iff in H. apply orb_false_iff in H. destruct H as [H1 H2].
    destruct U as [U|U].
    + subst u. rewrite eqt_refl in H1. discriminate.
    + enough (unique names u n = true) by congruence. unfold unique. apply forallb_forall. intros m Im.
      destruct (starts u m) eqn:S0; [|reflexivity]. cbn. apply starts_iff in S0. destruct S0 as [q Hq].
      apply eqt_eq. exact (U m q Im Hq).
Qed.
Lemma class_found p t g ex : classify p t = Opt g ex -> In g (p_opt p).
Proof.
  assert (F : forall n e, option_class p n e = Opt g ex -> In g (p_opt p)).
  { intros n e. unfold option_class. destruct (find_arg n (p_opt p)) as [g'|] eqn:E; [|discriminate].
    intros H; inversion H; subst. apply find_some in E. exact (proj1 E). }
  unfold classify. destruct t as [|c r]; [discriminate|].
  destruct (negb (eqc c "-")); [discriminate|]. destruct (mem (c :: r) (names p)); [apply F|].
  destruct r as [|c2 r2]; [discriminate|].
  assert (A : match completions p (c :: c2 :: r2) with
          | [(n, ex)] => option_class p n ex
          | _ :: _ :: _ => Stop
          | [] => if negative (c :: c2 :: r2) then Arg else if existsb (eqc sp) (c :: c2 :: r2) then Arg else Stop
          end = Opt g ex -> In g (p_opt p)).
  { destruct (completions p (c :: c2 :: r2)) as [|[n e] [|x y]]; [|apply F|discriminate].
    destruct (negative _); [discriminate|]. destruct (existsb _ _); discriminate. }
  destruct (split_eq (c :: c2 :: r2)) as [[n v]|]; [|exact A].
  destruct (mem n (names p)); [apply F|exact A].
Qed.
(** The option of a name. *)
Definition opt_of (n : text) : option arg := find_arg n (p_opt sampler).
Lemma opt_named g : In g (p_opt sampler) -> opt_of (g_name g) = Some g.
Proof. cbn [sampler p_opt In]. intros H. repeat (destruct H as [H|H]; [subst g; reflexivity|]). destruct H. Qed.
Lemma spells_opt u n g : spells u n -> opt_of n = Some g -> classify sampler u = Opt g None.
Proof.
  intros S0 O0. assert (n <> str "-h" /\ n <> str "--help").
  { split; intros ->; discriminate. }
  destruct (spells_class sampler options u n spelled_all S0) as (g' & C & N); try tauto.
  pose proof (opt_named g' (class_found _ _ _ _ C)) as E. rewrite N in E. rewrite C. congruence.
Qed.

Lemma negative_dec p : negative (decZ (Zneg p)) = true.
Proof.
  cbn [decZ]. unfold negative. change (eqc "-" "-") with true.
  rewrite (digits_all _ (decN_digits (Npos p))). cbn [andb]. apply negb_true_iff.
  destruct (eqt (decN (Npos p)) []) eqn:E; [|reflexivity]. apply eqt_eq in E. destruct (decN_nonnil _ E).
Qed.
Lemma negative_iff t : negative t = true <-> below_zero t.
Proof.
  unfold negative, below_zero. split.
  - destruct t as [|c r]; [discriminate|]. intros H. apply andb_prop in H as [C H]. apply eqc_eq in C. subst c.
    pose proof (digits_split r) as [S D]. destruct (digits r) as [ds r']. cbn [fst snd] in *. rewrite forallb_forall in D. destruct r' as [|d f].
    + rewrite app_nil_r in S. subst r. exists ds, []. rewrite app_nil_r. split; [exact D|]. left. split; [reflexivity|]. intros ->. discriminate.
    + apply andb_prop in H as [H F]. apply andb_prop in H as [P N]. apply eqc_eq in P. subst d r. rewrite forallb_forall in F. exists ds, f. split; [intros c I; apply in_app_or in I as [I|I]; auto|].
      right. split; [reflexivity|]. intros ->. discriminate.
  - intros (ds & fs & D & [[-> N]|[-> N]]); change (eqc "-" "-") with true; cbn [andb].
    + rewrite digits_all by (apply forallb_forall; intros c I; apply D, in_or_app; auto). destruct ds; [contradiction|reflexivity].
    + rewrite digits_app by (reflexivity || (apply forallb_forall; intros c I; apply D, in_or_app; auto)).
      change (eqc "." ".") with true. cbn [andb]. destruct fs; [contradiction|]. apply forallb_forall. intros c I. apply D, in_or_app. auto.
Qed.
Definition seconds (names : list text) : bool :=
  forallb (fun n => match n with c1 :: c :: _ => eqc c1 "-" && negb (is_digit c || eqc c ".") | _ => false end) names.
Lemma option_second names n : seconds names = true -> In n names -> exists c r, n = "-"%char :: c :: r /\ is_digit c || eqc c "." = false.
Proof.
  intros H I. unfold seconds in H. rewrite forallb_forall in H. specialize (H n I). destruct n as [|c1 [|c r]]; try discriminate.
  apply andb_prop in H. destruct H as [H1 H2]. apply eqc_eq in H1. apply negb_true_iff in H2. subst. eauto.
Qed.
Lemma names_sampler : names sampler = options. Proof. reflexivity. Qed.
Lemma mem_in t l : mem t l = true <-> In t l.
Proof.
  unfold mem. rewrite existsb_exists. split.
  - intros (x & I & E). apply eqt_eq in E. subst. exact I.
  - intros I. exists t. split; [exact I|apply eqt_refl].
Qed.
Lemma flat_map_nil {A B} (f : A -> list B) l : (forall x, In x l -> f x = []) -> flat_map f l = [].
Proof. induction l as [|x l IH]; intros H; [reflexivity|]. cbn. rewrite (H x (or_introl eq_refl)). apply IH. intros y I; apply H; right; exact I. Qed.
Lemma split_eq_app t a b : split_eq t = Some (a, b) -> t = a ++ "="%char :: b.
Proof.
  revert a b. induction t as [|c r IH]; [discriminate|]. intros a b. cbn [split_eq].
  destruct (eqc c "=") eqn:E.
  - apply eqc_eq in E. intros H; inversion H; subst. reflexivity.
  - destruct (split_eq r) as [[x y]|]; [|discriminate]. intros H; inversion H; subst.
    cbn. f_equal. apply IH. reflexivity.
Qed.
Lemma split_eq_none t : ~ In "="%char t -> split_eq t = None.
Proof.
  induction t as [|c r IH]; intros N; [reflexivity|]. cbn [split_eq].
  destruct (eqc c "=") eqn:E; [apply eqc_eq in E; subst; exfalso; apply N; left; reflexivity|].
  rewrite IH; [reflexivity|]. intros I; apply N; right; exact I.
Qed.
Lemma class_below p t : seconds (names p) = true -> below_zero t -> classify p t = Arg.
Proof.
  intros Sec B. pose proof (proj2 (negative_iff t) B) as N.
  assert (E : exists c r, t = "-"%char :: c :: r /\ is_digit c || eqc c "." = true).
  { destruct B as (ds & fs & D & [[-> X]|[-> X]]).
    - destruct ds as [|c ds]; [contradiction|]. exists c, ds. split; [reflexivity|]. rewrite (D c) by (left; reflexivity). reflexivity.
    - destruct ds as [|c ds]; [eexists; eexists; split; reflexivity|]. exists c. eexists. split; [reflexivity|]. rewrite (D c) by (left; reflexivity). reflexivity. }
  assert (NE : ~ In "="%char t).
  { destruct B as (ds & fs & D & [[-> X]|[-> X]]).
    - intros [I|I]; [discriminate|]. assert (Y := D "="%char). rewrite in_app_iff in Y. specialize (Y (or_introl I)). discriminate.
    - intros [I|I]; [discriminate|]. apply in_app_or in I. assert (Y := D "="%char). rewrite in_app_iff in Y. destruct I as [I|[I|I]]; [specialize (Y (or_introl I)); discriminate|discriminate|specialize (Y (or_intror I)); discriminate]. }
  destruct E as (c & r & -> & D). unfold classify. change (negb (eqc "-" "-")) with false. cbn iota.
  assert (M : mem ("-"%char :: c :: r) (names p) = false).
  { destruct (mem _ _) eqn:X; [|reflexivity]. apply mem_in in X.
    destruct (option_second _ _ Sec X) as (c' & r' & E' & D'). inversion E'; subst. congruence. }
  rewrite M.
  assert (P : completions p ("-"%char :: c :: r) = []).
  { unfold completions. destruct (eqc c "-") eqn:X; [apply eqc_eq in X; subst; discriminate|].
    apply flat_map_nil. intros n I.
    destruct (option_second _ n Sec I) as (c' & r' & E' & D').
    destruct (eqt n ["-"%char; c]) eqn:Q; [apply eqt_eq in Q; rewrite E' in Q; inversion Q; subst; congruence|].
    destruct (starts ("-"%char :: c :: r) n) eqn:Q2; [|reflexivity].
    apply starts_iff in Q2. destruct Q2 as [w Hw]. rewrite E' in Hw. inversion Hw; subst. congruence. }
  rewrite P, N. rewrite split_eq_none by exact NE. reflexivity.
Qed.
Lemma class_dec p z : seconds (names p) = true -> classify p (decZ z) = Arg.
Proof.
  intros Sec. destruct z as [|q|q].
  - reflexivity.
  - cbn [decZ]. destruct (decN_head (Npos q)) as (c & r & E & D). rewrite E. unfold classify.
    destruct (eqc c "-") eqn:X; [apply eqc_eq in X; subst; discriminate|reflexivity].
  - apply class_below; [exact Sec|]. apply negative_iff, negative_dec.
Qed.
Lemma class_bare_of p t : seconds (names p) = true -> bare t -> classify p t = Arg.
Proof.
  intros Sec [H|[[z ->]|B]]; [|apply class_dec; exact Sec|apply class_below; assumption]. destruct t as [|c r]; [reflexivity|]. unfold classify.
  destruct (eqc c "-") eqn:E; [apply eqc_eq in E; subst; destruct (H r eq_refl)|reflexivity].
Qed.
Lemma class_decZ z : classify sampler (decZ z) = Arg. Proof. apply class_dec. reflexivity. Qed.
Lemma class_bare t : bare t -> classify sampler t = Arg. Proof. apply class_bare_of. reflexivity. Qed.
Lemma class_misspelt t : misspelt t -> classify sampler t = Stop.
Proof.
  intros ((r & -> & Nr) & D & NB & NH & NU).
  assert (NF : forall n q, In n options -> n <> ("-"%char :: r) ++ q).
  { intros n q I. apply (NU _ [] q n); [rewrite app_nil_r; reflexivity|left; reflexivity|exact I]. }
  unfold classify. change (negb (eqc "-" "-")) with false. cbn iota.
  assert (M : mem ("-"%char :: r) (names sampler) = false).
  { destruct (mem _ _) eqn:X; [|reflexivity]. apply mem_in in X. rewrite names_sampler in X.
    destruct (NF _ [] X). rewrite app_nil_r. reflexivity. }
  rewrite M. destruct r as [|d q]; [contradiction|].
  assert (P : completions sampler ("-"%char :: d :: q) = []).
  { unfold completions. destruct (eqc d "-") eqn:X.
    - destruct (split_eq _) as [[a b]|] eqn:Q.
      + pose proof (split_eq_app _ _ _ Q) as Q'.
        replace (filter (starts a) (names sampler)) with (@nil text); [reflexivity|].
        symmetry. rewrite names_sampler. apply (proj1 (forallb_filter_id_nil _ _)).
        intros n I. destruct (starts a n) eqn:Y; [|reflexivity]. apply starts_iff in Y. destruct Y as [z Hz].
        destruct (NU a ("="%char :: b) z n Q'); eauto.
      + replace (filter (starts ("-"%char :: d :: q)) (names sampler)) with (@nil text); [reflexivity|].
        symmetry. rewrite names_sampler. apply (proj1 (forallb_filter_id_nil _ _)).
        intros n I. destruct (starts _ n) eqn:Y; [|reflexivity]. apply starts_iff in Y. destruct Y as [z Hz].
        destruct (NF n z I Hz).
    - apply flat_map_nil. intros n I. rewrite names_sampler in I.
      destruct (eqt n ["-"%char; d]) eqn:Q.
      + apply eqt_eq in Q. destruct (NU n q [] n).
        * rewrite Q. reflexivity.
        * exfalso. assert (L : forallb (fun n => negb (length n =? 2) || eqt n (str "-h")) options = true) by reflexivity.
          rewrite forallb_forall in L. specialize (L n I). rewrite Q in L. cbn [length] in L. cbn [Nat.eqb negb orb] in L.
          apply eqt_eq in L. inversion L; subst. apply (NH q). reflexivity.
        * exact I.
        * rewrite app_nil_r. reflexivity.
      + destruct (starts _ n) eqn:Y; [|reflexivity]. apply starts_iff in Y. destruct Y as [z Hz]. destruct (NF n z I Hz). }
  assert (NG : negative ("-"%char :: d :: q) = false).
  { destruct (negative _) eqn:Y; [|reflexivity]. apply negative_iff in Y. contradiction. }
  assert (SPC : existsb (eqc sp) ("-"%char :: d :: q) = false).
  { destruct (existsb _ _) eqn:Y; [|reflexivity]. apply existsb_exists in Y. destruct Y as (x & I & E).
    apply eqc_eq in E. subst x. contradiction. }
  rewrite P, NG, SPC. destruct (split_eq _) as [[a b]|] eqn:Q; [|reflexivity].
  destruct (mem a (names sampler)) eqn:Y; [|reflexivity]. apply mem_in in Y. rewrite names_sampler in Y.
  destruct (NU a ("="%char :: b) [] a (split_eq_app _ _ _ Q)); eauto. rewrite app_nil_r. reflexivity.
Qed.

(** ** Running the parser *)
Lemma py_int_decZ z : py_int (decZ z) = Some z.
Proof. pose proof (py_int_dec 0 z 0) as H. cbn [repeat app] in H. rewrite app_nil_r in H. exact H. Qed.
Lemma convert_ints n k l : convert_all (mkArg n k true []) (map decZ l) = Some (map Int l).
Proof.
  induction l as [|z l IH]; [reflexivity|]. cbn [map convert_all]. rewrite IH.
  unfold convert. cbn [g_int]. rewrite py_int_decZ. reflexivity.
Qed.
Definition goes (p : parser) (rest : list text) (pos : list arg) (o : option namespace) : option namespace :=
  match o with Some s => run p rest pos Idle s | None => None end.
Lemma run_collect p g ts : forall l rest pos s, Forall (fun t => classify p t = Arg) ts ->
  run p (ts ++ rest) pos (Collect g l) s = run p rest pos (Collect g (l ++ ts)) s.
Proof.
  induction ts as [|t ts IH]; intros l rest pos s F; [rewrite app_nil_r; reflexivity|].
  inversion F; subst. cbn [app run]. unfold step. rewrite H1. rewrite IH by assumption.
  rewrite <- app_assoc. reflexivity.
Qed.
Definition no_arg (p : parser) (rest : list text) : Prop :=
  match rest with [] => True | t :: _ => classify p t <> Arg end.
Lemma run_closed p g l rest pos s : l <> [] -> no_arg p rest ->
  run p rest pos (Collect g l) s = goes p rest pos (put g l s).
Proof.
  intros Nl N. destruct l as [|x l]; [contradiction|]. destruct rest as [|t r]; cbn [run goes].
  - destruct pos; [|destruct (put g (x :: l) s); reflexivity]. cbn [close]. destruct (put g (x :: l) s); reflexivity.
  - unfold goes. cbn [run]. unfold step. cbn [no_arg] in N. cbn [close].
    destruct (put g (x :: l) s) as [s'|]; destruct (classify p t); try contradiction; try reflexivity.
Qed.
Lemma run_many p u g l rest pos s : classify p u = Opt g None -> g_kind g = Many ->
  Forall (fun t => classify p t = Arg) l -> l <> [] -> no_arg p rest ->
  run p (u :: l ++ rest) pos Idle s = goes p rest pos (put g l s).
Proof.
  intros C K F Nl N. cbn [run]. unfold step. rewrite C. cbn [close]. unfold idle. rewrite K.
  rewrite run_collect by assumption. apply run_closed; assumption.
Qed.
Lemma run_one p u g t rest pos s : classify p u = Opt g None -> g_kind g = One -> classify p t = Arg ->
  run p (u :: t :: rest) pos Idle s = goes p rest pos (put g [t] s).
Proof.
  intros C K A. cbn [run]. unfold step at 1. rewrite C. cbn [close]. unfold idle at 1. rewrite K.
  unfold step. rewrite A. unfold goes. destruct (put g [t] s); reflexivity.
Qed.
Lemma run_flag p u g rest pos s : classify p u = Opt g None -> g_kind g = Flag ->
  run p (u :: rest) pos Idle s = run p rest pos Idle ((g_name g, []) :: s).
Proof. intros C K. cbn [run]. unfold step. rewrite C. cbn [close]. unfold idle. rewrite K. reflexivity. Qed.
Lemma run_pos p t rest g pos s : classify p t = Arg ->
  run p (t :: rest) (g :: pos) Idle s = goes p rest pos (put g [t] s).
Proof. intros A. cbn [run]. unfold step. rewrite A. cbn [close]. unfold idle, goes. destruct (put g [t] s); reflexivity. Qed.
Lemma run_extra p t rest s : classify p t = Arg -> run p (t :: rest) [] Idle s = None.
Proof. intros A. cbn [run]. unfold step. rewrite A. reflexivity. Qed.

(** ** Items *)
Definition over (a : args) (b s : text) (n : Z) : args :=
  let '(mkArgs _ _ _ mts mpi ov plots write wait submit dist only) := a in
  mkArgs b s n mts mpi ov plots write wait submit dist only.
(** The arguments still to come after [k]. *)
Definition fin (k : nat) (l : list text) (a : args) : option args :=
  match k, l with
  | 0, [b; s; n] => option_map (over a b s) (py_int n)
  | 1, [s; n] => option_map (over a (a_base a) s) (py_int n)
  | 2, [n] => option_map (over a (a_base a) (a_store a)) (py_int n)
  | 3, [] => Some a
  | _, _ => None
  end.
Lemma fin_change k l a i : fin k l (change a i) = option_map (fun a => change a i) (fin k l a).
Proof.
  unfold fin. destruct a, i; repeat (match goal with |- context [match ?x with _ => _ end] =>
    is_var x; destruct x end; try reflexivity); try (destruct (py_int _); reflexivity).
Qed.
Lemma says_head i rest : proper i -> (forall t, i <> Given t) -> no_arg sampler (says i ++ rest).
Proof.
  assert (S0 : forall u n g, opt_of n = Some g -> spells u n -> classify sampler u <> Arg).
  { intros u n g O0 H. rewrite (spells_opt u n g H O0). discriminate. }
  intros P N. destruct i; cbn [says app no_arg proper] in *; try (destruct (N t eq_refl));
    try (eapply S0; [|exact P]; reflexivity); destruct P as [P _]; (eapply S0; [|exact P]; reflexivity).
Qed.
Lemma rest_head cs : Forall proper cs -> (forall t r, cs <> Given t :: r) -> no_arg sampler (flat_map says cs).
Proof.
  intros F N. destruct cs as [|i r]; [exact I|]. cbn [flat_map]. inversion F; subst.
  apply says_head; [assumption|]. intros t ->. exact (N t r eq_refl).
Qed.
Lemma apart_tail i r : apart (i :: r) -> apart r.
Proof. destruct i; cbn; trivial. destruct r as [|[]]; cbn; trivial; contradiction. Qed.
Lemma class_dist t : In t distributions -> classify sampler t = Arg /\ convert (mkArg (str "-distribution") One false (map Str distributions)) t = Some (Str t).
Proof.
  assert (H : forallb (fun t => match classify sampler t, convert (mkArg (str "-distribution") One false (map Str distributions)) t with
     Arg, Some (Str u) => eqt t u | _, _ => false end) distributions = true) by (vm_compute; reflexivity).
  intros I. rewrite forallb_forall in H. specialize (H t I). cbn beta in H.
  destruct (classify sampler t); try discriminate. destruct (convert _ t) as [[u|]|]; try discriminate.
  apply eqt_eq in H. subst. split; reflexivity.
Qed.
Lemma items_run cs : forall k s a, Forall proper cs -> apart cs ->
  fin k (arguments cs) (read_args s) = Some a ->
  exists s', run sampler (flat_map says cs) (skipn k (p_pos sampler)) Idle s = Some s' /\
    read_args s' = fold_left change cs a.
Proof.
  induction cs as [|i cs IH]; intros k s a F A H.
  - cbn [arguments flat_map] in *. unfold fin in H.
    destruct k as [|[|[|[|k]]]]; try discriminate. inversion H; subst.
    exists s. split; reflexivity.
  - inversion F as [|? ? Pi Fc]; subst. pose proof (apart_tail _ _ A) as Ac. cbn [flat_map].
    assert (OPT : (forall t, i <> Given t) -> forall s1, read_args s1 = change (read_args s) i ->
      run sampler (says i ++ flat_map says cs) (skipn k (p_pos sampler)) Idle s =
      run sampler (flat_map says cs) (skipn k (p_pos sampler)) Idle s1 ->
      exists s', run sampler (says i ++ flat_map says cs) (skipn k (p_pos sampler)) Idle s = Some s' /\
        read_args s' = fold_left change (i :: cs) a).
    { intros N s1 R1 E1. rewrite E1. assert (AR : arguments (i :: cs) = arguments cs).
      { destruct i; try reflexivity. destruct (N t eq_refl). }
      rewrite AR in H. destruct (IH k s1 (change a i) Fc Ac) as (s' & X & Y).
      { rewrite R1, fin_change, H. reflexivity. }
      exists s'. split; [exact X|exact Y]. }
    destruct i; cbn [proper] in Pi.
    + (* Given *)
      cbn [says app]. cbn [arguments flat_map app] in H. fold (arguments cs) in H. cbn [fold_left]. change (change a (Given t)) with (change a (Given t)).
      assert (CA : change a (Given t) = a) by (destruct a; reflexivity). rewrite CA.
      pose proof (class_bare t Pi) as C.
      destruct k as [|[|[|[|k]]]]; cbn [fin] in H; try (destruct (arguments cs); discriminate).
      * destruct (arguments cs) as [|b [|n [|? ?]]] eqn:E; try discriminate.
        destruct (py_int n) as [z|] eqn:Z0; [|discriminate].
        change (skipn 0 (p_pos sampler)) with (any "base_ace" One false :: skipn 1 (p_pos sampler)).
        rewrite run_pos by exact C. cbn [put convert_all convert any g_int allowed g_choices option_map goes g_name].
        destruct (IH 1 ((str "base_ace", [Str t]) :: s) a Fc Ac) as (s' & X & Y).
        { cbn [fin]. rewrite Z0. rewrite <- H. destruct (read_args s) eqn:Q. unfold read_args in *. inversion Q. reflexivity. }
        exists s'. split; [exact X|exact Y].
      * destruct (arguments cs) as [|n [|? ?]] eqn:E; try discriminate.
        destruct (py_int n) as [z|] eqn:Z0; [|discriminate].
        change (skipn 1 (p_pos sampler)) with (any "cov_store" One false :: skipn 2 (p_pos sampler)).
        rewrite run_pos by exact C. cbn [put convert_all convert any g_int allowed g_choices option_map goes g_name].
        destruct (IH 2 ((str "cov_store", [Str t]) :: s) a Fc Ac) as (s' & X & Y).
        { cbn [fin]. rewrite Z0. rewrite <- H. destruct (read_args s) eqn:Q. unfold read_args in *. inversion Q. reflexivity. }
        exists s'. split; [exact X|exact Y].
      * destruct (arguments cs) as [|? ?] eqn:E; try discriminate.
        destruct (py_int t) as [z|] eqn:Z0; [|discriminate].
        change (skipn 2 (p_pos sampler)) with (any "num_samples" One true :: skipn 3 (p_pos sampler)).
        rewrite run_pos by exact C. unfold put. cbn [convert_all]. unfold convert. cbn [any g_int]. rewrite Z0.
        cbn [allowed g_choices option_map goes g_name any].
        destruct (IH 3 ((str "num_samples", [Int z]) :: s) a Fc Ac) as (s' & X & Y).
        { cbn [fin]. rewrite <- H. destruct (read_args s) eqn:Q. unfold read_args in *. inversion Q. reflexivity. }
        exists s'. split; [exact X|exact Y].
    + (* Mts *)
      destruct Pi as [Pu Pl]. apply (OPT ltac:(discriminate) ((str "-mts", map Int l) :: s)).
      * assert (IM : ints (Some (map Int l)) = l).
        { cbn [ints]. clear. induction l as [|z l IH]; [reflexivity|]. cbn. f_equal. exact IH. }
        transitivity (mkArgs (a_base (read_args s)) (a_store (read_args s)) (a_num (read_args s)) (ints (Some (map Int l)))
          (a_mpi (read_args s)) (a_over (read_args s)) (a_plots (read_args s)) (a_write (read_args s)) (a_wait (read_args s))
          (a_submit (read_args s)) (a_dist (read_args s)) (a_only (read_args s))); [reflexivity|rewrite IM; reflexivity].
      * cbn [says]. cbn [app]. rewrite (run_many _ _ (any "-mts" Many true)).
        -- unfold put. unfold any at 2. rewrite convert_ints. reflexivity.
        -- apply (spells_opt u (str "-mts")); [exact Pu|reflexivity].
        -- reflexivity.
        -- apply Forall_forall. intros t I. apply in_map_iff in I. destruct I as (z & <- & _). apply class_decZ.
        -- intros E. apply map_eq_nil in E. contradiction.
        -- apply rest_head; [exact Fc|]. intros t r ->. exact A.
    + apply (OPT ltac:(discriminate) ((str "-mpiproc", [Int z]) :: s)); [reflexivity|].
      cbn [says app]. rewrite (run_one _ _ (any "-mpiproc" One true)); [|apply (spells_opt u (str "-mpiproc")); [exact Pi|reflexivity]|reflexivity|apply class_decZ].
      unfold put. unfold any at 2. rewrite (convert_ints _ _ [z]). reflexivity.
    + apply (OPT ltac:(discriminate) ((str "-num_oversamples", [Int z]) :: s)); [reflexivity|].
      cbn [says app]. rewrite (run_one _ _ (any "-num_oversamples" One true)); [|apply (spells_opt u (str "-num_oversamples")); [exact Pi|reflexivity]|reflexivity|apply class_decZ].
      unfold put. unfold any at 2. rewrite (convert_ints _ _ [z]). reflexivity.
    + apply (OPT ltac:(discriminate) ((str "--make_plots", []) :: s)); [reflexivity|].
      cbn [says app]. rewrite (run_flag _ _ (any "--make_plots" Flag false)); [reflexivity| |reflexivity].
      apply (spells_opt u (str "--make_plots")); [exact Pi|reflexivity].
    + apply (OPT ltac:(discriminate) ((str "--writepbs", []) :: s)); [reflexivity|].
      cbn [says app]. rewrite (run_flag _ _ (any "--writepbs" Flag false)); [reflexivity| |reflexivity].
      apply (spells_opt u (str "--writepbs")); [exact Pi|reflexivity].
    + destruct Pi as [Pu Pt]. apply (OPT ltac:(discriminate) ((str "--waitforjob", [Str t]) :: s)); [reflexivity|].
      cbn [says app]. rewrite (run_one _ _ (any "--waitforjob" One false)); [reflexivity|apply (spells_opt u (str "--waitforjob")); [exact Pu|reflexivity]|reflexivity|apply class_bare; exact Pt].
    + apply (OPT ltac:(discriminate) ((str "--subpbs", []) :: s)); [reflexivity|].
      cbn [says app]. rewrite (run_flag _ _ (any "--subpbs" Flag false)); [reflexivity| |reflexivity].
      apply (spells_opt u (str "--subpbs")); [exact Pi|reflexivity].
    + destruct Pi as [Pu Pt]. destruct (class_dist t Pt) as [CA CV].
      apply (OPT ltac:(discriminate) ((str "-distribution", [Str t]) :: s)); [reflexivity|].
      cbn [says app]. rewrite (run_one _ _ (mkArg (str "-distribution") One false (map Str distributions))); [|apply (spells_opt u (str "-distribution")); [exact Pu|reflexivity]|reflexivity|exact CA].
      unfold put. cbn [convert_all]. rewrite CV. reflexivity.
    + apply (OPT ltac:(discriminate) ((str "--plot-only", []) :: s)); [reflexivity|].
      cbn [says app]. rewrite (run_flag _ _ (any "--plot-only" Flag false)); [reflexivity| |reflexivity].
      apply (spells_opt u (str "--plot-only")); [exact Pi|reflexivity].
Qed.
Lemma items_args cs b s n z : Forall proper cs -> apart cs -> arguments cs = [b; s; n] -> py_int n = Some z ->
  sampler_args (flat_map says cs) = Some (fold_left change cs (defaults b s z)).
Proof.
  intros F A E N. destruct (items_run cs 0 [] (defaults b s z) F A) as (s' & X & Y).
  - rewrite E. cbn [fin]. rewrite N. reflexivity.
  - unfold sampler_args, parse. cbn [skipn] in X. rewrite X. cbn [option_map]. rewrite Y. reflexivity.
Qed.

(** ** What ends the program *)
Lemma run_stop p ts : forall t pos st s, In t ts -> classify p t = Stop -> run p ts pos st s = None.
Proof.
  induction ts as [|x ts IH]; intros t pos st s I C; [destruct I|]. cbn [run].
  destruct I as [->|I].
  - unfold step. rewrite C. destruct st; cbn [close]; try reflexivity.
    destruct l; [reflexivity|]. destruct (put g (t0 :: l) s); reflexivity.
  - destruct (step p x pos st s) as [[[pos' st'] s']|]; [|reflexivity]. exact (IH t pos' st' s' I C).
Qed.
Lemma run_swallow p u g l pos s : classify p u = Opt g None -> g_kind g = Many -> pos <> [] ->
  Forall (fun t => classify p t = Arg) l -> run p (u :: l) pos Idle s = None.
Proof.
  intros C K N F. cbn [run]. unfold step. rewrite C. cbn [close]. unfold idle. rewrite K.
  rewrite <- (app_nil_r l). rewrite run_collect by exact F. cbn [run]. destruct pos; [contradiction|reflexivity].
Qed.

(** ** What an accepted line contains *)
Definition from (p : parser) (st : state) : Prop :=
  match st with Idle => True | Wait g | Collect g _ => In g (p_opt p) end.
(** An entry comes from an argument of the parser. *)
Definition entry (p : parser) (e : text * list value) : Prop :=
  exists g, In g (p_pos p ++ p_opt p) /\ fst e = g_name g /\ Forall (fun v => exists t, convert g t = Some v) (snd e).
Lemma convert_all_ok g l vs : convert_all g l = Some vs -> Forall (fun v => exists t, convert g t = Some v) vs.
Proof.
  revert vs. induction l as [|t l IH]; intros vs; cbn [convert_all].
  - intros H; inversion H. constructor.
  - destruct (convert g t) as [v|] eqn:E; [|discriminate]. destruct (convert_all g l) as [vs'|]; [|discriminate].
    intros H; inversion H; subst. constructor; [eauto|apply IH; reflexivity].
Qed.
Lemma put_entry p g l s s' : In g (p_pos p ++ p_opt p) -> put g l s = Some s' -> Forall (entry p) s -> Forall (entry p) s'.
Proof.
  unfold put. destruct (convert_all g l) as [vs|] eqn:E; [|discriminate]. intros I H F; inversion H; subst.
  constructor; [|exact F]. exists g. split; [exact I|]. split; [reflexivity|]. exact (convert_all_ok _ _ _ E).
Qed.
Lemma put_get g l s s' n : put g l s = Some s' -> n <> g_name g -> get n s' = get n s.
Proof.
  unfold put. destruct (convert_all g l) as [vs|]; [|discriminate]. intros H N; inversion H; subst.
  cbn [get]. destruct (eqt n (g_name g)) eqn:E; [apply eqt_eq in E; contradiction|reflexivity].
Qed.
Lemma close_ok p st s s' : from p st -> close st s = Some s' ->
  (Forall (entry p) s -> Forall (entry p) s') /\ (forall n, ~ In n (map g_name (p_opt p)) -> get n s' = get n s).
Proof.
  intros Fr C. destruct st as [|g|g l]; cbn [close] in C.
  - inversion C; subst. split; [trivial|reflexivity].
  - discriminate.
  - destruct l as [|t l]; [discriminate|]. split.
    + apply (put_entry p g (t :: l)); [apply in_or_app; right; exact Fr|exact C].
    + intros n N. apply (put_get g (t :: l)); [exact C|]. intros ->. apply N. apply in_map. exact Fr.
Qed.
(** One step either places an argument or only touches options. *)
Lemma step_inv p t pos st s pos' st' s' : from p st -> step p t pos st s = Some (pos', st', s') ->
  from p st' /\ (incl pos (p_pos p) -> Forall (entry p) s -> Forall (entry p) s') /\
  ((pos' = pos /\ forall n, ~ In n (map g_name (p_opt p)) -> get n s' = get n s) \/
   (exists g v s1, pos = g :: pos' /\ st' = Idle /\ classify p t = Arg /\ convert g t = Some v /\ s' = (g_name g, [v]) :: s1 /\
      forall n, ~ In n (map g_name (p_opt p)) -> get n s1 = get n s)).
Proof.
  intros Fr H.
  assert (ID : forall s1, close st s = Some s1 -> idle (classify p t) t pos s1 = Some (pos', st', s') ->
    from p st' /\ (incl pos (p_pos p) -> Forall (entry p) s -> Forall (entry p) s') /\
    ((pos' = pos /\ forall n, ~ In n (map g_name (p_opt p)) -> get n s' = get n s) \/
     (exists g v s1, pos = g :: pos' /\ st' = Idle /\ classify p t = Arg /\ convert g t = Some v /\ s' = (g_name g, [v]) :: s1 /\
      forall n, ~ In n (map g_name (p_opt p)) -> get n s1 = get n s))).
  { intros s1 C X. destruct (close_ok p st s s1 Fr C) as [C1 C2]. unfold idle in X.
    destruct (classify p t) as [|g ex|] eqn:K.
    - destruct pos as [|g pos0]; [discriminate|]. destruct (put g [t] s1) as [s2|] eqn:P; [|discriminate].
      inversion X; subst. split; [exact I|]. split.
      + intros Inc Fs. apply (put_entry p g [t] s1); [apply in_or_app; left; apply Inc; left; reflexivity|exact P|apply C1; exact Fs].
      + right. unfold put in P. cbn [convert_all] in P. destruct (convert g t) as [v|] eqn:V; [|discriminate].
        inversion P; subst. exists g, v, s1. repeat split; trivial.
    - pose proof (class_found _ _ _ _ K) as Ig.
      assert (IP : forall v s2, put g [v] s1 = Some s2 -> from p Idle /\ (incl pos (p_pos p) -> Forall (entry p) s -> Forall (entry p) s2) /\
         (forall n, ~ In n (map g_name (p_opt p)) -> get n s2 = get n s)).
      { intros v s2 P. split; [exact I|]. split.
        - intros _ Fs. apply (put_entry p g [v] s1); [apply in_or_app; right; exact Ig|exact P|apply C1; exact Fs].
        - intros n N. rewrite (put_get g [v] s1 s2 n P); [apply C2; exact N|]. intros ->. apply N. apply in_map. exact Ig. }
      destruct (g_kind g); destruct ex as [e|]; try discriminate.
      + inversion X; subst. split; [exact I|]. split.
        * intros _ Fs. constructor; [|apply C1; exact Fs]. exists g. split; [apply in_or_app; right; exact Ig|]. split; [reflexivity|constructor].
        * left. split; [reflexivity|]. intros n N. cbn [get]. destruct (eqt n (g_name g)) eqn:E; [|apply C2; exact N].
          apply eqt_eq in E. subst. exfalso. apply N. apply in_map. exact Ig.
      + destruct (put g [e] s1) as [s2|] eqn:P; [|discriminate]. inversion X; subst.
        destruct (IP e s' P) as (A & B & D). split; [exact A|]. split; [exact B|]. left. split; [reflexivity|exact D].
      + inversion X; subst. split; [exact Ig|]. split; [intros _; exact C1|]. left. split; [reflexivity|exact C2].
      + destruct (put g [e] s1) as [s2|] eqn:P; [|discriminate]. inversion X; subst.
        destruct (IP e s' P) as (A & B & D). split; [exact A|]. split; [exact B|]. left. split; [reflexivity|exact D].
      + inversion X; subst. split; [exact Ig|]. split; [intros _; exact C1|]. left. split; [reflexivity|exact C2].
    - discriminate. }
  unfold step in H. destruct st as [|g|g l].
  - destruct (classify p t) eqn:K; cbn [close] in H; (apply (ID s eq_refl); exact H).
  - destruct (classify p t) eqn:K; cbn [close] in H; try discriminate.
    destruct (put g [t] s) as [s2|] eqn:P; [|discriminate]. inversion H; subst. cbn [from] in Fr.
    split; [exact I|]. split.
    + intros _ Fs. apply (put_entry p g [t] s); [apply in_or_app; right; exact Fr|exact P|exact Fs].
    + left. split; [reflexivity|]. intros n N. apply (put_get g [t]); [exact P|]. intros ->. apply N. apply in_map. exact Fr.
  - destruct (classify p t) eqn:K.
    + inversion H; subst. split; [exact Fr|]. split; [trivial|]. left. split; reflexivity.
    + destruct (close (Collect g l) s) as [s1|] eqn:C; [|discriminate]. apply (ID s1 eq_refl). exact H.
    + destruct (close (Collect g l) s) as [s1|] eqn:C; [|discriminate]. apply (ID s1 eq_refl). exact H.
Qed.
Lemma run_kept p ts : forall pos st s s' n, from p st -> run p ts pos st s = Some s' ->
  ~ In n (map g_name (p_opt p)) -> ~ In n (map g_name pos) -> get n s' = get n s.
Proof.
  induction ts as [|t ts IH]; intros pos st s s' n Fr H N1 N2; cbn [run] in H.
  - destruct pos; [|discriminate]. apply (close_ok p st s s' Fr H). exact N1.
  - destruct (step p t pos st s) as [[[pos' st'] s1]|] eqn:E; [|discriminate].
    destruct (step_inv _ _ _ _ _ _ _ _ Fr E) as (Fr' & _ & [[-> G]|(g & v & s2 & -> & -> & _ & _ & -> & G)]).
    + rewrite (IH _ _ _ _ _ Fr' H N1 N2). apply G. exact N1.
    + rewrite (IH _ _ _ _ n Fr' H N1); [|intros X; apply N2; right; exact X]. cbn [get].
      destruct (eqt n (g_name g)) eqn:Q; [apply eqt_eq in Q; subst; exfalso; apply N2; left; reflexivity|].
      apply G. exact N1.
Qed.
Lemma run_entries p ts : forall pos st s s', from p st -> run p ts pos st s = Some s' -> incl pos (p_pos p) ->
  Forall (entry p) s -> Forall (entry p) s'.
Proof.
  induction ts as [|t ts IH]; intros pos st s s' Fr H Inc Fs; cbn [run] in H.
  - destruct pos; [|discriminate]. apply (proj1 (close_ok p st s s' Fr H)). exact Fs.
  - destruct (step p t pos st s) as [[[pos' st'] s1]|] eqn:E; [|discriminate].
    destruct (step_inv _ _ _ _ _ _ _ _ Fr E) as (Fr' & En & D).
    apply (IH _ _ _ _ Fr' H); [|apply En; assumption].
    destruct D as [[-> _]|(g & v & s2 & -> & _)]; [exact Inc|]. intros x Ix. apply Inc. right. exact Ix.
Qed.
Lemma run_next p ts : forall g pos st s s', from p st -> run p ts (g :: pos) st s = Some s' ->
  exists t1 t t2 v s1, ts = t1 ++ t :: t2 /\ classify p t = Arg /\ convert g t = Some v /\
    run p t2 pos Idle ((g_name g, [v]) :: s1) = Some s' /\
    forall n, ~ In n (map g_name (p_opt p)) -> get n s1 = get n s.
Proof.
  induction ts as [|t ts IH]; intros g pos st s s' Fr H; cbn [run] in H; [discriminate|].
  destruct (step p t (g :: pos) st s) as [[[pos' st'] s1]|] eqn:E; [|discriminate].
  destruct (step_inv _ _ _ _ _ _ _ _ Fr E) as (Fr' & _ & [[-> G]|(g' & v & s2 & Q & -> & K & V & -> & G)]).
  - destruct (IH _ _ _ _ _ Fr' H) as (t1 & t' & t2 & v & s2 & -> & K & V & R & G').
    exists (t :: t1), t', t2, v, s2. repeat (split; [trivial|]). intros n N. rewrite G' by exact N. apply G. exact N.
  - inversion Q; subst. exists [], t, ts, v, s2. repeat (split; [trivial|]). exact G.
Qed.
Lemma accepted ts a : sampler_args ts = Some a ->
  (exists t1 t2 t3 t4 n, ts = t1 ++ a_base a :: t2 ++ a_store a :: t3 ++ n :: t4 /\ py_int n = Some (a_num a) /\
     classify sampler (a_base a) = Arg /\ classify sampler (a_store a) = Arg /\ classify sampler n = Arg) /\
  In (a_dist a) distributions.
Proof.
  unfold sampler_args. destruct (parse sampler ts) as [s|] eqn:P; [|discriminate]. intros H; inversion H; subst; clear H.
  unfold parse in P. split.
  - cbn [p_pos sampler] in P.
    destruct (run_next sampler ts _ _ Idle _ _ I P) as (t1 & b & r1 & v1 & s1 & E1 & K1 & V1 & R1 & _).
    destruct (run_next sampler r1 _ _ Idle _ _ I R1) as (t2 & st & r2 & v2 & s2 & E2 & K2 & V2 & R2 & G2).
    destruct (run_next sampler r2 _ _ Idle _ _ I R2) as (t3 & n & r3 & v3 & s3 & E3 & K3 & V3 & R3 & G3).
    pose proof (fun n N1 N2 => run_kept sampler r3 [] Idle _ s n I R3 N1 N2) as KP.
    assert (NO : forall x, In x [str "base_ace"; str "cov_store"; str "num_samples"] -> ~ In x (map g_name (p_opt sampler))).
    { intros x Ix Io. assert (X : forallb (fun x => negb (mem x (map g_name (p_opt sampler)))) [str "base_ace"; str "cov_store"; str "num_samples"] = true) by reflexivity.
      rewrite forallb_forall in X. specialize (X x Ix). apply negb_true_iff in X. apply mem_in in Io. congruence. }
    assert (B : get (str "base_ace") s = Some [Str b]).
    { rewrite KP; [|apply NO; cbn; tauto|intros []]. cbn [get any g_name]. change (eqt (str "base_ace") (str "num_samples")) with false. cbn iota.
      rewrite G3 by (apply NO; cbn; tauto). cbn [get any g_name]. change (eqt (str "base_ace") (str "cov_store")) with false. cbn iota.
      rewrite G2 by (apply NO; cbn; tauto). cbn [get any g_name]. rewrite eqt_refl.
      unfold convert in V1. cbn in V1. inversion V1. reflexivity. }
    assert (C : get (str "cov_store") s = Some [Str st]).
    { rewrite KP; [|apply NO; cbn; tauto|intros []]. cbn [get any g_name]. change (eqt (str "cov_store") (str "num_samples")) with false. cbn iota.
      rewrite G3 by (apply NO; cbn; tauto). cbn [get any g_name]. rewrite eqt_refl.
      unfold convert in V2. cbn in V2. inversion V2. reflexivity. }
    assert (N : exists z, py_int n = Some z /\ get (str "num_samples") s = Some [Int z]).
    { unfold convert in V3. cbn [any g_int] in V3. destruct (py_int n) as [z|]; [|discriminate]. cbn in V3. inversion V3; subst.
      exists z. split; [reflexivity|]. rewrite KP; [|apply NO; cbn; tauto|intros []]. cbn [get any g_name]. rewrite eqt_refl. reflexivity. }
    destruct N as (z & Nz & Ng). exists t1, t2, t3, r3, n.
    assert (F1 : a_base (read_args s) = b) by (unfold read_args; cbn [a_base]; rewrite B; reflexivity).
    assert (F2 : a_store (read_args s) = st) by (unfold read_args; cbn [a_store]; rewrite C; reflexivity).
    assert (F3 : a_num (read_args s) = z) by (unfold read_args; cbn [a_num]; rewrite Ng; reflexivity).
    rewrite F1, F2, F3. subst. repeat (split; [assumption || reflexivity|]). assumption.
  - pose proof (run_entries sampler ts _ Idle _ _ I P (incl_refl _) (Forall_nil _)) as En.
    unfold read_args. cbn [a_dist].
    destruct (get (str "-distribution") s) as [vs|] eqn:G; [|left; reflexivity].
    assert (Ie : In (str "-distribution", vs) s).
    { clear -G. induction s as [|[m v] s IH]; [discriminate|]. cbn [get] in G. destruct (eqt (str "-distribution") m) eqn:E.
      - apply eqt_eq in E. inversion G; subst. left. reflexivity.
      - right. apply IH. exact G. }
    rewrite Forall_forall in En. destruct (En _ Ie) as (g & Ig & Ng & Fv). cbn [fst snd] in *.
    assert (Eg : g = mkArg (str "-distribution") One false (map Str distributions)).
    { cbn [sampler p_pos p_opt app In] in Ig.
      repeat (destruct Ig as [Ig|Ig]; [subst g; try discriminate Ng; reflexivity|]). destruct Ig. }
    subst g. destruct vs as [|v vs]; [left; reflexivity|]. inversion Fv as [|? ? (t & Ht) _]; subst.
    unfold convert in Ht. cbn [g_int] in Ht. destruct (allowed _ (Str t)) eqn:Al; [|discriminate]. inversion Ht; subst.
    cbn [texts flat_map app hd]. unfold allowed in Al. cbn [g_choices] in Al.
    assert (X : existsb (value_eqb (Str t)) (map Str distributions) = true) by exact Al.
    apply existsb_exists in X. destruct X as (w & Iw & Ew). apply in_map_iff in Iw. destruct Iw as (d & <- & Id).
    cbn [value_eqb] in Ew. apply eqt_eq in Ew. subst d. exact Id.
Qed.

(** ** The job *)
Lemma plain_not_space c : plain c -> is_space c = false.
Proof.
  intros [H|[H|[H|H]]].
  - apply is_digit_not_space. exact H.
  - unfold is_space. destruct (nat_of_ascii c) as [|n] eqn:E; [lia|].
    repeat match goal with |- context [?a <=? ?b] => let X := fresh in destruct (Nat.leb_spec a b) as [X|X]; try lia end; cbn;
    repeat match goal with |- context [?a =? ?b] => let X := fresh in destruct (Nat.eqb_spec a b) as [X|X]; try lia end; reflexivity.
  - unfold is_space. destruct (nat_of_ascii c) as [|n] eqn:E; [lia|].
    repeat match goal with |- context [?a <=? ?b] => let X := fresh in destruct (Nat.leb_spec a b) as [X|X]; try lia end; cbn;
    repeat match goal with |- context [?a =? ?b] => let X := fresh in destruct (Nat.eqb_spec a b) as [X|X]; try lia end; reflexivity.
  - assert (X : forallb (fun c => negb (is_space c)) (str "_./-+,:@%=") = true) by reflexivity.
    rewrite forallb_forall in X. apply negb_true_iff. exact (X c H).
Qed.
Lemma name_word t : name t -> word t.
Proof. intros [N H]. split; [exact N|]. intros c I. apply plain_not_space. exact (H c I). Qed.
Lemma decZ_plain z c : In c (decZ z) -> plain c.
Proof.
  intros I. destruct (is_digit c) eqn:D; [left; exact D|]. destruct (Ascii.eqb_spec c "-"%char) as [->|N].
  - right; right; right. cbn. tauto.
  - destruct (decZ_notin z c D N I).
Qed.
Lemma decZ_name z : name (decZ z).
Proof. split; [apply decZ_nonnil|apply decZ_plain]. Qed.
Lemma words_w w t : word w -> words (w ++ sp :: t) = w :: words t.
Proof. intros W. rewrite (words_app_r w (sp :: t)) by reflexivity. rewrite (words_one w W). reflexivity. Qed.
(** The words after the script. *)
Definition rest_words (a : args) : list text :=
  (match a_mts a with [] => [] | l => str "-mt" :: map decZ l end) ++
  [str "-distribution"; a_dist a; str "-num_oversamples"; decZ (a_over a)] ++
  (if a_plots a then [str "--make_plots"] else []).
Definition tail_text (a : args) : text :=
  (match a_mts a with [] => [] | l => str "-mt " ++ join (map decZ l) end) ++
  str " -distribution " ++ a_dist a ++ str " -num_oversamples " ++ decZ (a_over a) ++ [sp] ++
  (if a_plots a then str "--make_plots" else []).
Lemma dist_name t : In t distributions -> name t.
Proof.
  assert (X : forallb (fun t => forallb (fun c => (97 <=? nat_of_ascii c) && (nat_of_ascii c <=? 122)) t && negb (eqt t [])) distributions = true) by reflexivity.
  intros I. rewrite forallb_forall in X. specialize (X t I). apply andb_prop in X. destruct X as [X1 X2]. split.
  - intros ->. discriminate.
  - intros c Ic. rewrite forallb_forall in X1. specialize (X1 c Ic). apply andb_prop in X1. destruct X1 as [A B].
    apply Nat.leb_le in A. apply Nat.leb_le in B. right; right; left. lia.
Qed.
Lemma tail_words a : In (a_dist a) distributions -> words (tail_text a) = rest_words a.
Proof.
  intros D. unfold tail_text, rest_words. rewrite words_app_r by reflexivity. f_equal.
  - destruct (a_mts a) as [|z l]; [reflexivity|].
    change (str "-mt " ++ join (map decZ (z :: l))) with (str "-mt" ++ sp :: join (map decZ (z :: l))).
    rewrite words_w by (apply wordb_word; reflexivity). rewrite words_join; [reflexivity|].
    apply Forall_forall. intros t I. apply in_map_iff in I. destruct I as (y & <- & _). apply name_word, decZ_name.
  - transitivity (words (str "-distribution" ++ sp :: a_dist a ++ sp :: str "-num_oversamples" ++ sp :: decZ (a_over a) ++ sp :: (if a_plots a then str "--make_plots" else []))); [reflexivity|].
    rewrite words_w by (apply wordb_word; reflexivity). rewrite words_w by (apply name_word, dist_name, D).
    rewrite words_w by (apply wordb_word; reflexivity). rewrite words_w by (apply name_word, decZ_name).
    cbn [app]. do 4 f_equal. destruct (a_plots a); reflexivity.
Qed.
Lemma job_words file a : word file -> In (a_dist a) distributions ->
  words (job file a) = launcher (a_mpi a) ++ file :: words (a_base a ++ sp :: a_store a ++ sp :: decZ (a_num a) ++ sp :: tail_text a).
Proof.
  intros F D. unfold job, launcher. destruct (Z.ltb 1 (a_mpi a)).
  - transitivity (words (str "mpiexec" ++ sp :: str "-n" ++ sp :: decZ (a_mpi a) ++ sp :: str "python" ++ sp :: file ++ sp ::
      a_base a ++ sp :: a_store a ++ sp :: decZ (a_num a) ++ sp :: tail_text a)).
    + unfold tail_text. rewrite <- !app_assoc. reflexivity.
    + rewrite words_w by (apply wordb_word; reflexivity). rewrite words_w by (apply wordb_word; reflexivity).
      rewrite words_w by (apply name_word, decZ_name). rewrite words_w by (apply wordb_word; reflexivity).
      rewrite words_w by exact F. reflexivity.
  - transitivity (words (str "python" ++ sp :: file ++ sp :: a_base a ++ sp :: a_store a ++ sp :: decZ (a_num a) ++ sp :: tail_text a)).
    + reflexivity.
    + rewrite words_w by (apply wordb_word; reflexivity). rewrite words_w by exact F. reflexivity.
Qed.
Definition okc (c : ascii) : Prop := plain c \/ c = sp.
Definition okcb (c : ascii) : bool :=
  is_digit c || ((65 <=? nat_of_ascii c) && (nat_of_ascii c <=? 90)) || ((97 <=? nat_of_ascii c) && (nat_of_ascii c <=? 122)) ||
  existsb (eqc c) (str "_./-+,:@%=") || eqc c sp.
Lemma okcb_ok c : okcb c = true -> okc c.
Proof.
  unfold okcb, okc, plain. intros H. do 4 (rewrite orb_true_iff in H); destruct H as [[[[H|H]|H]|H]|H]; auto.
  - apply andb_prop in H. destruct H as [A B]. apply Nat.leb_le in A, B. left; right; left. lia.
  - apply andb_prop in H. destruct H as [A B]. apply Nat.leb_le in A, B. left; right; right; left. lia.
  - apply existsb_exists in H. destruct H as (x & I & E). apply eqc_eq in E. subst. left; right; right; right. exact I.
  - apply eqc_eq in H. right. exact H.
Qed.
Lemma ok_str t : forallb okcb t = true -> Forall okc t.
Proof. intros H. apply Forall_forall. intros c I. apply okcb_ok. rewrite forallb_forall in H. exact (H c I). Qed.
Lemma ok_name t : name t -> Forall okc t.
Proof. intros [_ H]. apply Forall_forall. intros c I. left. exact (H c I). Qed.
Lemma ok_join l : Forall okc (join (map decZ l)).
Proof.
  induction l as [|z l IH]; [constructor|]. cbn [map join]. destruct (map decZ l) eqn:E.
  - apply ok_name, decZ_name.
  - apply Forall_app. split; [apply ok_name, decZ_name|]. constructor; [right; reflexivity|]. exact IH.
Qed.
Lemma job_ok file a : name file -> Forall okc (a_base a) -> Forall okc (a_store a) -> In (a_dist a) distributions ->
  forall c, In c (job file a) -> plain c \/ c = sp.
Proof.
  intros Fi B St D. apply Forall_forall. change (Forall okc (job file a)). unfold job.
  repeat (apply Forall_app; split); try (apply ok_str; reflexivity); try (apply ok_name; assumption); try assumption;
    try (apply ok_name, decZ_name); try (apply ok_name, dist_name, D).
  - destruct (Z.ltb 1 (a_mpi a)); [|constructor]. repeat (apply Forall_app; split); try (apply ok_str; reflexivity). apply ok_name, decZ_name.
  - destruct (a_mts a) as [|z l]; [constructor|]. apply Forall_app. split; [apply ok_str; reflexivity|apply ok_join].
  - destruct (a_plots a); apply ok_str; reflexivity.
Qed.
(** What the job's program gets. *)
Definition passed (a : args) : args :=
  mkArgs (a_base a) (a_store a) (a_num a) (a_mts a) 1 (a_over a) (a_plots a) false None false (a_dist a) false.
Definition job_items (a : args) : list item :=
  (match a_mts a with [] => [] | l => [Mts (str "-mt") l] end) ++ [Dist (str "-distribution") (a_dist a); Over (str "-num_oversamples") (a_over a)] ++
  (if a_plots a then [Plots (str "--make_plots")] else []).
Lemma spelled_of options u n : existsb (eqt n) options && (2 <=? length u) && starts u n && (eqt u n || unique options u n) = true -> spells_of options u n.
Proof.
  intros H. apply andb_prop in H. destruct H as [H H4]. apply andb_prop in H. destruct H as [H H3]. apply andb_prop in H. destruct H as [H1 H2].
  split; [apply mem_in; exact H1|]. split; [apply Nat.leb_le; exact H2|]. split; [apply starts_iff; exact H3|].
  apply orb_prop in H4. destruct H4 as [H4|H4]; [left; apply eqt_eq; exact H4|]. right. intros m r Im E.
  unfold unique in H4. rewrite forallb_forall in H4. specialize (H4 m Im). apply orb_prop in H4. destruct H4 as [X|X]; [|apply eqt_eq; exact X].
  apply negb_true_iff in X. exfalso. enough (starts u m = true) by congruence. apply starts_iff. eauto.
Qed.
Definition spelled := spelled_of options.
Lemma rest_parsed a s : In (a_dist a) distributions -> 
  exists s', run sampler (rest_words a) [] Idle s = Some s' /\ read_args s' = fold_left change (job_items a) (read_args s).
Proof.
  intros D. assert (W : rest_words a = flat_map says (job_items a)).
  { unfold rest_words, job_items. rewrite flat_map_app. f_equal; [destruct (a_mts a); [reflexivity|cbn [flat_map says]; rewrite app_nil_r; reflexivity]|].
    destruct (a_plots a); reflexivity. }
  rewrite W. apply (items_run (job_items a) 3 s (read_args s)).
  - unfold job_items. apply Forall_app. split; [|apply Forall_cons; [|apply Forall_cons; [|]]].
    + destruct (a_mts a); [constructor|]. constructor; [|constructor]. split; [apply spelled; reflexivity|discriminate].
    + split; [apply spelled; reflexivity|exact D].
    + apply spelled; reflexivity.
    + destruct (a_plots a); [|constructor]. constructor; [|constructor]. apply spelled; reflexivity.
  - unfold job_items. destruct (a_mts a); destruct (a_plots a); exact I.
  - assert (E : arguments (job_items a) = []) by (unfold job_items; destruct (a_mts a); destruct (a_plots a); reflexivity).
    rewrite E. reflexivity.
Qed.
Lemma put_str n k t s : put (any n k false) [t] s = Some ((str n, [Str t]) :: s).
Proof. reflexivity. Qed.
Lemma put_int n k z s : put (any n k true) [decZ z] s = Some ((str n, [Int z]) :: s).
Proof. pose proof (convert_ints (str n) k [z]) as H. cbn [map] in H. unfold put, any. rewrite H. reflexivity. Qed.
Lemma job_parsed a : In (a_dist a) distributions -> classify sampler (a_base a) = Arg -> classify sampler (a_store a) = Arg ->
  sampler_args (a_base a :: a_store a :: decZ (a_num a) :: rest_words a) = Some (passed a).
Proof.
  intros D B St. unfold sampler_args, parse. cbn [p_pos sampler].
  rewrite run_pos by exact B. rewrite put_str. cbn [goes].
  rewrite run_pos by exact St. rewrite put_str. cbn [goes].
  rewrite run_pos by apply class_decZ. rewrite put_int. cbn [goes].
  destruct (rest_parsed a ((str "num_samples", [Int (a_num a)]) :: (str "cov_store", [Str (a_store a)]) :: [(str "base_ace", [Str (a_base a)])]) D) as (s' & R & E).
  rewrite R. cbn [option_map]. rewrite E. f_equal. unfold passed, job_items.
  destruct (a_mts a) eqn:M; destruct (a_plots a) eqn:P; reflexivity.
Qed.
