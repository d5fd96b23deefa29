(** C24, C25: rank reordering and the groups that are sampled. *)
From Verif Require Import Num Text Sampler_Model SampleCorr_Model SampleCorr_Spec SampleCorr_Proofs.
From Coq Require Import Sorting.Permutation.
Local Open Scope nat_scope.
Local Open Scope list_scope.

(** ** C24 *)
Theorem C24_rank_is_permutation : forall l, Permutation (rank_col l) (seq 0 (length l)).
Proof. exact rank_perm. Qed.
Print Assumptions C24_rank_is_permutation.

Theorem C24_rank_counts : forall l, is_rank l (rank_col l).
Proof. exact rank_is_rank. Qed.
Print Assumptions C24_rank_counts.

Theorem C24_columns_rearranged : forall N S, length N = length S ->
  (forall j, j < length S -> length (nth j N []) = length (nth j S [])) ->
  length (order (rank N) S) = length S /\
  forall j, j < length S -> arranged (nth j N []) (nth j S []) (nth j (order (rank N) S) []).
Proof.
  intros N S Hl Hc. split; [apply order_length|]. intros j Hj. rewrite order_nth by assumption.
  unfold rank. rewrite (nth_map_in _ _ _ _ _ _ []) by lia. apply order_arranged. auto.
Qed.
Print Assumptions C24_columns_rearranged.

(** Distinct draws: the result is ranked exactly like the scores. *)
Theorem C24_ranks_transferred : forall x s, length x = length s -> NoDup s ->
  rank_col (order_col (rank_col x) s) = rank_col x.
Proof. exact order_keeps_rank. Qed.
Print Assumptions C24_ranks_transferred.

(** Scores with a tie. *)
Definition ex_scores : list Qc := [qc 5 2; qz (-1); qc 5 2; qz 0].
Definition ex_draws : list Qc := [qz 10; qz 40; qz 20; qz 30].
Example C24_hypotheses_met :
  rank_col ex_scores = [2; 0; 3; 1] /\
  map this (order_col (rank_col ex_scores) ex_draws) = map this [qz 30; qz 10; qz 40; qz 20] /\ NoDup ex_draws.
Proof.
  split; [reflexivity|]. split; [reflexivity|].
  repeat constructor; cbn; intros H; repeat destruct H as [H|H]; try contradiction;
  apply (f_equal this) in H; discriminate.
Qed.

(** ** C25 *)
Theorem C25_columns : forall scores draw mean std dg ns distro dd nv,
  let ln := eqt distro (str "lognormal") in
  length std = length mean -> length dg = length mean -> mean <> [] ->
  dist_of distro = Some dd ->
  nth_sampled (skipped mean std dg ln) (length mean) nv ->
  length (scores nv) = nv -> (forall c, In c (scores nv) -> length c = ns) ->
  (forall i m s, length (draw dd i m s) = ns) ->
  exists out, sample_with_corr scores draw mean std dg ns distro = COk out /\
    length out = length mean /\
    forall g, g < length mean ->
      (skipped mean std dg ln g -> nth g out [] = repeat (q mean g) ns) /\
      (~ skipped mean std dg ln g -> exists k, k < nv /\ nth_sampled (skipped mean std dg ln) g k /\
         arranged (nth k (scores nv) []) (draw dd k (q mean g) (q std g)) (nth g out [])).
Proof. exact sample_with_corr_spec. Qed.
Print Assumptions C25_columns.

(** The claim "a group without a correlation diagonal is never sampled" fails
    when nothing else makes the routine skip groups. *)
Theorem C25_zero_diagonal_skipped_refuted : exists mean std dg,
  length std = length mean /\ length dg = length mean /\ mean <> [] /\
  exists g, g < length mean /\ q dg g = 0%Qc /\
  forall scores draw ns, exists out,
    sample_with_corr scores draw mean std dg ns (str "normal") = COk out /\
    nth g out [] = order_col (nth g (rank (scores 2)) []) (draw Normal g (q mean g) (q std g)).
Proof.
  exists [qz 1; qz 2], [qz 1; qz 1], [qz 0; qz 1]. repeat (split; [reflexivity || discriminate|]).
  exists 0. split; [cbn; lia|]. split; [reflexivity|]. intros scores draw ns.
  eexists. split; reflexivity.
Qed.
Print Assumptions C25_zero_diagonal_skipped_refuted.

(** Means that are all zero, or with a negative value, keep zero-mean groups
    sampled in a lognormal run. *)
Theorem C25_zero_mean_skipped_refuted : exists mean std dg,
  length std = length mean /\ length dg = length mean /\
  exists g, g < length mean /\ q mean g = 0%Qc /\ ~ skipped mean std dg true g.
Proof.
  exists [qz (-1); qz 0], [qz 1; qz 1], [qz 1; qz 1]. repeat (split; [reflexivity|]).
  exists 1. split; [cbn; lia|]. split; [reflexivity|].
  assert (Hlow : ~ lowest_is_zero [qz (-1); qz 0]).
  { intros [_ H]. pose proof (H (qz (-1)) (or_introl eq_refl)) as Hx. apply qleb_le in Hx. discriminate. }
  assert (Ht : ~ tiny_dev (qz 1)) by (intros H; apply tinyb_iff in H; discriminate).
  intros [H|[(_ & H & _)|([(s & Hs & H)|(_ & H)] & _)]].
  - now apply Ht.
  - now apply Hlow.
  - destruct Hs as [<-|[<-|[]]]; now apply Ht.
  - now apply Hlow.
Qed.
Print Assumptions C25_zero_mean_skipped_refuted.

(** Only an empty input or an unknown distribution name make it fail. *)
Theorem C25_raises : forall scores draw mean std dg ns distro e,
  length std = length mean -> length dg = length mean ->
  sample_with_corr scores draw mean std dg ns distro = CRaise e ->
  (e = EmptyInput /\ mean = []) \/ (e = BadDistro /\ dist_of distro = None).
Proof.
  intros scores draw mean std dg ns distro e Hs Hd H. unfold sample_with_corr in H.
  destruct mean as [|x mean'].
  - destruct std; [|cbn in Hs; lia]. cbn in H. injection H as <-. now left.
  - set (mean := x :: mean') in *.
    destruct (mask_spec mean std dg (eqt distro (str "lognormal")) Hs Hd ltac:(discriminate)) as (om & E & _).
    rewrite E in H. destruct (Nat.eqb _ 0); [discriminate|].
    right.
    unfold dist_of. cbn zeta in *.
    destruct (eqt (lower distro) (str "normal")); [discriminate|].
    destruct (eqt (lower distro) (str "lognormal")); [discriminate|].
    destruct (eqt (lower distro) (str "uniform")); [discriminate|]. injection H as <-. auto.
Qed.
Print Assumptions C25_raises.

(** Four groups: the second has no deviation, the third zero mean; lognormal. *)
Definition ex_mean : list Qc := [qz 3; qz 5; qz 0; qz 7].
Definition ex_std : list Qc := [qz 1; qz 0; qz 1; qz 2].
Definition ex_dg : list Qc := [qz 1; qz 1; qz 1; qz 1].
Definition ex_sc (k : nat) : list (list Qc) := [[qz 2; qz 1]; [qz 1; qz 2]].
Definition ex_draw (d : dist) (i : nat) (m s : Qc) : list Qc := [m; (m + s)%Qc].
Example C25_hypotheses_met :
  nth_sampled (skipped ex_mean ex_std ex_dg true) 4 2 /\ dist_of (str "LogNormal") = Some LogNormal /\
  match sample_with_corr ex_sc ex_draw ex_mean ex_std ex_dg 2 (str "lognormal") with
  | COk out => map (map this) out =
      map (map this) [[qz 4; qz 3]; [qz 5; qz 5]; [qz 0; qz 0]; [qz 7; qz 9]]
  | CRaise _ => False
  end.
Proof.
  split; [|split; reflexivity].
  pose proof (mask_spec ex_mean ex_std ex_dg true eq_refl eq_refl ltac:(discriminate)) as (om & E & H).
  vm_compute in E. injection E as <-. destruct H as (_ & _ & H).
  assert (S0 : ~ skipped ex_mean ex_std ex_dg true 0) by (rewrite <- H by (cbn; lia); cbn; discriminate).
  assert (S1 : skipped ex_mean ex_std ex_dg true 1) by (apply H; [cbn; lia|reflexivity]).
  assert (S2 : skipped ex_mean ex_std ex_dg true 2) by (apply H; [cbn; lia|reflexivity]).
  assert (S3 : ~ skipped ex_mean ex_std ex_dg true 3) by (rewrite <- H by (cbn; lia); cbn; discriminate).
  apply ns_take; [assumption|]. apply ns_skip; [assumption|]. apply ns_skip; [assumption|].
  apply ns_take; [assumption|]. apply ns_first.
Qed.
