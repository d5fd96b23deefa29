(** C32 - C34: NJOY decks.  Conditions are from Njoy_Spec. *)
From Coq Require Import List Bool Arith Lia.
From Verif Require Import Njoy_Model Njoy_Spec Njoy_Proofs.
Import ListNotations.
Local Open Scope nat_scope.

(** C32: every unit read was written earlier or is the input; no unit is written
    twice. *)
Theorem C32_flow : forall o d t, make_njoy_run o = Ok (d, t) -> ordered d /\ written_once d.
Proof. exact deck_sound. Qed.
Print Assumptions C32_flow.
(** The tapes promised are exactly the results written (and the PENDF tape where asked
    for), each once. *)
Theorem C32_tapes : forall o d t, make_njoy_run o = Ok (d, t) -> NoDup (map fst t) /\
  forall u k, In (u, k) t <-> In (k, u) (written d) /\ (final k = true \/ pendf o = true /\ k = Pendf /\ u = 21).
Proof. exact deck_tapes. Qed.
Print Assumptions C32_tapes.
(** Every module finds the kind of data it needs, except that purr and acer get a
    covariance or plot tape when covariances are made and heatr is off. *)
Theorem C32_kinds : forall o d t, make_njoy_run o = Ok (d, t) ->
  (typed d <-> ~ (errorr o = true /\ temps o <> 0 /\ heatr o = false /\ (purr o = true \/ acer o = true))).
Proof. exact deck_typed. Qed.
Print Assumptions C32_kinds.
(** A module told to use a weight table gets one, except in the groupr run for nu and
    chi. *)
Theorem C32_weight_tables : forall o d t, make_njoy_run o = Ok (d, t) ->
  (Forall table_consistent d <-> ~ (errorr o = true /\ iwt1 o = true /\ (nu o = true \/ chi o = true))).
Proof. exact tables. Qed.
Print Assumptions C32_weight_tables.
(** Which calls build a deck at all. *)
Theorem C32_builds : forall o, (exists d t, make_njoy_run o = Ok (d, t)) <->
  run o = false /\ (heatr o = true -> broadr o = true) /\
  (errorr o = true -> groups o = true /\ (iwt1 o = true -> weights o = true) /\
                      (temps o = 0 -> nu o = false /\ chi o = false) /\ (temps o <> 0 -> broadr o = true)).
Proof. exact builds. Qed.
Print Assumptions C32_builds.

(** C33: the tapes picked are the covariance tapes exactly if an MT or chi is
    requested, or there is no more than one temperature and no nu; there is one per
    temperature, one for nu and one for chi. *)
Theorem C33_picked : forall k mts nu chi iwt1 weights groups d t,
  make_njoy_run (cover_options k mts nu chi iwt1 weights groups) = Ok (d, t) ->
  exists l, cover_tapes k mts nu chi iwt1 weights groups = Ok l /\
    (l = filter (fun x => match snd x with Boxer => true | _ => false end) t <-> mts = true \/ chi = true \/ k = 0 \/ k = 1 /\ nu = false) /\
    length (filter (fun x => match snd x with Boxer => true | _ => false end) t) = k + (if nu then 1 else 0) + (if chi then 1 else 0).
Proof. exact picks. Qed.
Print Assumptions C33_picked.

(** C34: a PENDF deck is never built. *)
Theorem C34_pendf_refuted : forall d t, make_pendf <> Ok (d, t).
Proof. discriminate. Qed.
Print Assumptions C34_pendf_refuted.
(** The covariances are the cause: without them the deck is the one module wanted. *)
Theorem C34_without_covariances : forall o, pendf o = true -> broadr o = false -> heatr o = false -> purr o = false ->
  acer o = false -> run o = false -> errorr o = false ->
  make_njoy_run o = Ok ([{| reads := [(Endf, 20)]; writes := [(Pendf, 21)]; wants_table := false; has_table := false |}], [(21, Pendf)]).
Proof. intros o H1 H2 H3 H4 H5 H6 H7. unfold make_njoy_run. now rewrite H1, H2, H7, H3, H4, H5, H6. Qed.
Print Assumptions C34_without_covariances.
(** A call that asks for NJOY to be run never returns a deck. *)
Theorem C34_run_refuted : forall o d t, run o = true -> make_njoy_run o <> Ok (d, t).
Proof. intros o d t H E. assert (exists d t, make_njoy_run o = Ok (d, t)) as X by eauto. apply builds in X. destruct X. congruence. Qed.
Print Assumptions C34_run_refuted.

(** *** Hypotheses met *)
Definition full : options := {| temps := 2; pendf := true; broadr := true; heatr := true; purr := true; acer := true; errorr := true;
  groups := true; run := false; plot := true; chi := true; nu := true; iwt1 := true; weights := true |}.
Example C32_hypotheses_met : exists d t, make_njoy_run full = Ok (d, t) /\ length d = 25 /\
  map fst t = [21; 25; 27; 30; 32; 37; 36; 41; 40; 44; 45; 46; 47] /\ typed d /\ ~ Forall table_consistent d.
Proof.
  destruct (make_njoy_run full) as [[d t]|f] eqn:E; [|discriminate].
  exists d, t. split; [easy|]. assert (E0 := E). vm_compute in E. injection E as E1 E2.
  split; [now rewrite <- E1|]. split; [now rewrite <- E2|]. split.
  - apply (C32_kinds full d t E0). cbn. intuition discriminate.
  - rewrite (C32_weight_tables full d t E0). cbn. intuition.
Qed.
(** Without heatr, acer reads a plot. *)
Definition no_heat : options := {| temps := 1; pendf := false; broadr := true; heatr := false; purr := false; acer := true; errorr := true;
  groups := true; run := false; plot := true; chi := false; nu := false; iwt1 := false; weights := false |}.
Example C32_kinds_case : exists d t, make_njoy_run no_heat = Ok (d, t) /\ ~ typed d /\
  nth 7 d reconr = {| reads := [(Endf, 20); (Pendf, 27)]; writes := [(Ace, 28); (Xsdir, 29)]; wants_table := false; has_table := false |} /\
  In (27, Eps) t.
Proof.
  destruct (make_njoy_run no_heat) as [[d t]|f] eqn:E; [|discriminate].
  exists d, t. split; [easy|]. assert (E0 := E). vm_compute in E. injection E as E1 E2. split.
  - rewrite (C32_kinds no_heat d t E0). cbn. intros H. apply H. repeat split; [discriminate | now right].
  - split; [now rewrite <- E1 | rewrite <- E2; cbn; tauto].
Qed.
Example C33_hypotheses_met : cover_tapes 3 true true true false false true = Ok [(25, Boxer); (30, Boxer); (35, Boxer); (42, Boxer); (46, Boxer)].
Proof. reflexivity. Qed.
(** Two temperatures and no MT: the second is lost. *)
Example C33_lost : exists d, make_njoy_run (cover_options 2 false false false false false true) = Ok (d, [(25, Boxer); (28, Boxer)]) /\
  cover_tapes 2 false false false false false true = Ok [(25, Boxer)].
Proof. eexists. split; reflexivity. Qed.
Example C34_hypotheses_met : make_njoy_run {| temps := 1; pendf := true; broadr := false; heatr := false; purr := false; acer := false; errorr := false;
  groups := false; run := false; plot := false; chi := false; nu := false; iwt1 := false; weights := false |} = Ok ([reconr], [(21, Pendf)]).
Proof. reflexivity. Qed.
