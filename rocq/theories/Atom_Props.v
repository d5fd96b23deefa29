(** What a table of photon data says, theorems. *)
From Coq Require Import ZArith QArith Qcanon List Bool Lia String.
From Verif Require Import Num Neut_Model Neut_Spec Neut_Proofs Hdf_Model Atom_Model Atom_Spec Atom_Proofs.
From Verif Require Sab_Model Sab_Proofs.
Import ListNotations.
Local Open Scope string_scope.
Local Open Scope list_scope.
Local Open Scope Z_scope.

(** All cross sections: coherent, incoherent, pair production, photoelectric and of each
    subshell, with scattering functions and binding energies; Compton profiles. *)
Theorem C93_read : forall exp a c, says a c -> sane c ->
  exists p r1 r2 r3 r4 subs, from_ace exp a = Some p /\ ph_reactions p = [(502, r1); (504, r2); (515, r3); (522, r4)] ++ subs /\
    table exp (c_energy c) (c_coherent c) (p_xs r1) /\ p_factor r1 = Some (mkFn (c_cx c) (c_cy c) [size (c_cx c)] [2]) /\
    table exp (c_energy c) (c_incoherent c) (p_xs r2) /\ p_factor r2 = Some (mkFn (c_ix c) (c_iy c) [size (c_ix c)] [2]) /\
    table exp (c_energy c) (c_pair c) (p_xs r3) /\ p_factor r3 = None /\
    table exp (c_energy c) (c_photoelectric c) (p_xs r4) /\ p_factor r4 = None /\
    Forall2 (of_sub exp c) (c_subs c) subs /\
    ph_compton p = match c_profs c with [] => None | ps => Some (mkCompton (map f_electrons ps) (map (fun f => ev (f_binding f)) ps) (map (fun f => mkFn (f_momenta f) (f_values f) [size (f_momenta f)] [f_interpolation f]) ps)) end.
Proof.
  intros exp a c S Sa. destruct (blocks_ok a c S) as (B1 & B2 & B3 & B4). destruct (s_lengths a c S) as (L1 & L2 & L3 & L4). pose proof (compton_ok a c S) as Ec. destruct (s_subs a c S) as (N & S11 & _ & _ & _ & S16 & _).
  assert (R1 : reaction_from_ace exp a 502 = Some (mkPrx 502 (values exp a (jxs a 1 + 2 * nxs a 3)) (Some (linear (c_cx c) (c_cy c))) None)) by (unfold reaction_from_ace; cbn [block Z.eqb Pos.eqb]; now rewrite (factor_coherent a c S)).
  assert (R2 : reaction_from_ace exp a 504 = Some (mkPrx 504 (values exp a (jxs a 1 + 1 * nxs a 3)) (Some (linear (c_ix c) (c_iy c))) None)) by (unfold reaction_from_ace; cbn [block Z.eqb Pos.eqb]; now rewrite (factor_incoherent a c S)).
  assert (R3 : reaction_from_ace exp a 515 = Some (mkPrx 515 (values exp a (jxs a 1 + 4 * nxs a 3)) None None)) by reflexivity.
  assert (R4 : reaction_from_ace exp a 522 = Some (mkPrx 522 (values exp a (jxs a 1 + 3 * nxs a 3)) None None)) by reflexivity.
  unfold from_ace. cbn [map all_some option_map]. rewrite R1, R2, R3, R4. cbn [option_map all_some]. rewrite Ec. destruct (Z.ltb_spec 0 (nxs a 7)) as [P|P].
  - destruct (relaxation_ok a c S Sa) as (r & ns & Er & F & Nn & (X1 & X2 & X3) & _). rewrite Er. rewrite (slice_stands _ _ _ _ S11) by (rewrite map_length; exact N).
    assert (map int (map (fun s => qz (s_number s)) (c_subs c)) = map s_number (c_subs c)) as -> by (rewrite map_map; apply map_ext; intros s; apply int_qz).
    set (four := [(502, _); (504, _); (515, _); (522, _)]). destruct (subshells_ok exp a c r S (c_subs c) ns (jxs a 16) four F) as (out & Eo & Fo).
    + intros s n I0. rewrite X1. apply look_combine; [exact Nn|]. clear - I0 F. revert I0. induction F as [|u m l l' Hu F IH]; cbn [combine map In]; [tauto|]. intros [E|I0]; [injection E as -> ->; now left|right; now apply IH].
    + auto.
    + exact S16.
    + destruct Sa as [ND H]. cbn [four map fst app].
      assert (Hr : forall s, In s (c_subs c) -> 534 <= 533 + s_number s) by (intros s Is; destruct (H s Is) as ((n & Hn & _) & _); lia).
      assert (Hi : forall k, k < 534 -> ~ In k (map (fun s => 533 + s_number s) (c_subs c))) by (intros k Hk I0; apply in_map_iff in I0 as (s & Es & Is); specialize (Hr s Is); lia).
      assert (Hn : NoDup (map (fun s => 533 + s_number s) (c_subs c))).
      { rewrite <- (map_map s_number (fun z => 533 + z)). apply FinFun.Injective_map_NoDup; [intros x y; lia|exact ND]. }
      repeat (constructor; [cbn [In]; intros I0; repeat (destruct I0 as [I0|I0]; [lia|]); revert I0; apply Hi; lia|]). exact Hn.
    + rewrite Eo. do 6 eexists. split; [reflexivity|]. cbn [ph_reactions ph_compton]. split; [reflexivity|]. cbn [p_xs p_factor]. repeat (split; [first [reflexivity|now apply (values_ok exp a c)]|]). split; [exact Fo|reflexivity].
  - destruct (c_subs c) as [|s l] eqn:Es; [|exfalso; rewrite N in P; unfold size in P; cbn [List.length] in P; lia]. do 6 eexists. split; [reflexivity|]. cbn [ph_reactions ph_compton]. split; [rewrite app_nil_r; reflexivity|]. cbn [p_xs p_factor].
    repeat (split; [first [reflexivity|now apply (values_ok exp a c)]|]). split; [constructor|reflexivity].
Qed.
Print Assumptions C93_read.
(** Binding energies, electrons and transitions of each subshell, under its name; nothing else. *)
Theorem C93_relaxation : forall exp a c, says a c -> sane c -> c_subs c <> [] ->
  exists p r ns, from_ace exp a = Some p /\ ph_relaxation p = Some r /\ Forall2 (fun s n => named (s_number s) n) (c_subs c) ns /\ relaxed c r ns /\ forall n, ~ In n ns -> look n (r_transitions r) = None.
Proof.
  intros exp a c S Sa Ne. destruct (C93_read exp a c S Sa) as (p & _ & _ & _ & _ & _ & E & _). destruct (relaxation_ok a c S Sa) as (r & ns & Er & F & Nn & X & K). exists p, r, ns. split; [exact E|]. split; [|now repeat split; try apply X].
  unfold from_ace in E. destruct (all_some _) as [rs|]; [|discriminate]. destruct (compton_from_ace a) as [cp|]; [|discriminate]. destruct (s_subs a c S) as (N & _). assert (0 <? nxs a 7 = true) as G by (apply Z.ltb_lt; rewrite N; unfold size; destruct (c_subs c); [congruence|cbn [List.length]; lia]).
  rewrite G, Er in E. destruct (subshells _ _ _ _ _ _) as [rs'|]; [|discriminate]. now injection E as <-.
Qed.
Print Assumptions C93_relaxation.
(** The probabilities of a subshell add up to those of the table. *)
Theorem C93_cumulative : forall ts rows, own 0%Qc ts rows -> forall k t, nth_error ts k = Some t -> sum (map probability (firstn (S k) rows)) = t_cumulative t.
Proof.
  assert (G : forall before ts rows, own before ts rows -> forall k t, nth_error ts k = Some t -> sum (map probability (firstn (S k) rows)) = (t_cumulative t - before)%Qc).
  { intros before ts rows O. induction O as [before|before t ts j k out Pj Pk O IH]; intros i u E; [destruct i; discriminate|]. destruct i as [|i]; cbn [nth_error] in E.
    - injection E as ->. cbn [firstn map sum fold_right probability snd]. qclra.
    - specialize (IH i u E). change (firstn (S (S i)) ((j, k, ev (t_energy t), (t_cumulative t - before)%Qc) :: out)) with ((j, k, ev (t_energy t), (t_cumulative t - before)%Qc) :: firstn (S i) out). cbn [map sum fold_right probability snd]. unfold sum in IH. rewrite IH. qclra. }
  intros ts rows O k t E. rewrite (G _ _ _ O k t E). qclra.
Qed.
Print Assumptions C93_cumulative.
(** So none is negative and all together are what the last says, if the table's do not fall. *)
Theorem C93_probabilities : forall ts rows, own 0%Qc ts rows -> (forall k t u, nth_error (0%Qc :: map t_cumulative ts) k = Some t -> nth_error (map t_cumulative ts) k = Some u -> (t <= u)%Qc) -> forall r, In r rows -> (0 <= probability r)%Qc.
Proof.
  assert (G : forall before ts rows, own before ts rows -> (forall k t u, nth_error (before :: map t_cumulative ts) k = Some t -> nth_error (map t_cumulative ts) k = Some u -> (t <= u)%Qc) -> forall r, In r rows -> (0 <= probability r)%Qc).
  { intros before ts rows O. induction O as [before|before t ts j k out Pj Pk O IH]; intros H r Ir; [destruct Ir|]. destruct Ir as [<-|Ir].
    - cbn [probability snd]. specialize (H 0%nat before (t_cumulative t) eq_refl eq_refl). qclra.
    - apply IH; [|exact Ir]. intros i x y Ex Ey. apply (H (S i)); assumption. }
  intros ts rows O H. now apply (G 0%Qc ts).
Qed.
Print Assumptions C93_probabilities.
(** The reaction of a subshell is named after it. *)
Theorem C93_named : forall d s, named d s -> exists rest, reaction_name (533 + d) = Some (s ++ " (" ++ rest ++ ") subshell photoelectric")%string.
Proof.
  intros d s [H N]. assert (L : (Z.to_nat (d - 1) < 39)%nat) by (change 39%nat with (List.length names); apply nth_error_Some; congruence). assert (I0 : In (Z.to_nat (d - 1)) (seq 0 39)) by (apply in_seq; lia). remember (Z.to_nat (d - 1)) as i eqn:Ei. replace (533 + d) with (534 + Z.of_nat i) by lia. rewrite names_subshells in N. clear Ei H L d.
  assert (B : forallb (fun i => match nth_error SUBSHELLS i, reaction_name (534 + Z.of_nat i) with Some s, Some t => String.eqb t (s ++ " (" ++ substring (String.length s + 2) (String.length t - String.length s - 26) t ++ ") subshell photoelectric")%string | _, _ => false end) (seq 0 39) = true) by (vm_compute; reflexivity).
  rewrite forallb_forall in B. specialize (B i I0). rewrite N in B. destruct (reaction_name (534 + Z.of_nat i)) as [t|]; [|discriminate]. apply String.eqb_eq in B. eexists. f_equal. exact B.
Qed.
Print Assumptions C93_named.
(** A subshell there is not makes the table unreadable. *)
Theorem C93_none : forall exp a ds, nxs a 7 = size ds -> stands (xss a) (jxs a 11) (map qz ds) -> (exists d, In d ds /\ (d = 0 \/ 39 < d)) -> from_ace exp a = None.
Proof.
  intros exp a ds N St (d & Id & Hd). unfold from_ace. destruct (all_some _) as [rs|]; [|reflexivity]. destruct (compton_from_ace a); [|reflexivity].
  assert (0 <? nxs a 7 = true) as -> by (apply Z.ltb_lt; rewrite N; unfold size; destruct ds; [destruct Id|cbn [List.length]; lia]). unfold relaxation_from_ace. cbn zeta. rewrite (slice_stands _ _ _ _ St) by (rewrite map_length; exact N).
  assert (all_some (map (fun v => shell_of (int v)) (map qz ds)) = None) as ->; [|reflexivity]. rewrite map_map. clear - Id Hd. induction ds as [|e ds IH]; [destruct Id|]. cbn [map all_some]. rewrite int_qz. destruct Id as [->|Id]; [|rewrite (IH Id); destruct (shell_of e); reflexivity].
  assert (shell_of d = None) as ->; [|reflexivity]. unfold shell_of, subshell. destruct Hd as [->|Hd]; [reflexivity|]. destruct (Z.eqb_spec d 0); [reflexivity|]. unfold at_. destruct (Z.leb_spec 0 (d - 1)); [|lia]. assert (nth_error SUBSHELLS (Z.to_nat (d - 1)) = None) as ->; [|reflexivity]. apply nth_error_None. cbn [SUBSHELLS List.length]. lia.
Qed.
Print Assumptions C93_none.
(** Not true: every cross section is the one whose logarithm was stored.  One of 1 b, with
    logarithm 0, becomes 0. *)
Theorem C93_one_refuted : forall (exp : Qc -> Qc) a c i, exp 0%Qc = 1%Qc -> says a c -> nth_error (c_coherent c) i = Some 0%Qc ->
  exists r, reaction_from_ace exp a 502 = Some r /\ nth_error (fy (p_xs r)) i = Some 0%Qc /\ exp 0%Qc <> 0%Qc.
Proof.
  intros exp a c i E S Ni. destruct (blocks_ok a c S) as (_ & B2 & _). destruct (s_lengths a c S) as (_ & L2 & _). eexists. split; [reflexivity|]. cbn [p_xs]. split; [|rewrite E; discriminate].
  destruct (values_ok exp a c _ _ S L2 B2) as (_ & F & _). assert (G : forall l l', Forall2 (fun v y => (v = 0%Qc /\ y = 0%Qc) \/ (v <> 0%Qc /\ y = exp v)) l l' -> forall i, nth_error l i = Some 0%Qc -> nth_error l' i = Some 0%Qc).
  { clear. intros l l' F. induction F as [|v y l l' H F IH]; intros [|i] Ni; try discriminate; cbn [nth_error] in *; [injection Ni as ->; destruct H as [[_ ->]|[H _]]; [reflexivity|congruence]|now apply IH]. }
  exact (G _ _ F i Ni).
Qed.
Print Assumptions C93_one_refuted.

(** ** A case *)
(** Two energies; K with two transitions, L1 with none, L3 with one; in the new format. *)
Definition at_x : list Qc := map qz
  [0; (* 1: energies, incoherent, coherent, photoelectric, pair *) 1; 2; 3; 4; 0; 5; 6; 7; 0; 8; (* 11: incoherent scattering function *) 0; 1; 10; 11;
   (* 15: coherent *) 0; 1; 2; 0; 0; 0; 20; 21; 22; (* 24: electrons, binding, place of profile *) 2; 30; 1; (* 27: profile *) 2; 2; 0; 1; 40; 41;
   (* 33: subshells, electrons, binding energies, numbers of transitions *) 1; 2; 4; 2; 2; 3; 50; 51; 52; 2; 0; 1;
   (* 45: cross sections *) 0; 60; 61; 62; 63; 0; (* 51: transitions *) 4; 0; 70; 3; 2; 4; 71; 7; 4; 4; 72; 9].
Definition at_a : ace := mkAce (fun i => match i with 3%nat => 2 | 5%nat => 1 | 6%nat => 4 | 7%nat => 3 | _ => 0 end)
  (fun i => match i with 1%nat => 1 | 2%nat => 11 | 3%nat => 15 | 4%nat => 24 | 6%nat => 24 | 7%nat => 25 | 9%nat => 26 | 10%nat => 27 | 11%nat => 33 | 12%nat => 36 | 13%nat => 39 | 15%nat => 42 | 16%nat => 45 | 18%nat => 51 | _ => 0 end) at_x.
Definition at_c : content := mkContent (map qz [1; 2]) (map qz [3; 4]) (map qz [0; 5]) (map qz [6; 7]) (map qz [0; 8]) (map qz [0; 1]) (map qz [10; 11]) (map qz [0; 1; 2]) (map qz [0; 0; 0]) (map qz [20; 21; 22])
  [mkProf (qz 2) (qz 30) 2 (map qz [0; 1]) (map qz [40; 41])]
  [mkSub 1 (qz 2) (qz 50) [mkTransition 4 0 (qz 70) (qz 3); mkTransition 2 4 (qz 71) (qz 7)] (map qz [0; 60]); mkSub 2 (qz 2) (qz 51) [] (map qz [61; 62]); mkSub 4 (qz 3) (qz 52) [mkTransition 4 4 (qz 72) (qz 9)] (map qz [63; 0])].
Ltac place k n := exists (firstn k at_x), (skipn (k + n) at_x); split; reflexivity.
Lemma at_says : says at_a at_c.
Proof.
  constructor.
  - repeat split.
  - split; [reflexivity|]. place 1%nat 10%nat.
  - repeat split.
  - left. split; [reflexivity|]. split; [reflexivity|]. split; [place 11%nat 4%nat|]. split; [reflexivity|]. place 15%nat 9%nat.
  - split; [reflexivity|]. split; [place 24%nat 1%nat|]. split; [place 25%nat 1%nat|]. intros [|[|k]] p E; [|discriminate|discriminate]. injection E as <-. split; [reflexivity|]. exists 1. split; [place 26%nat 1%nat|place 27%nat 6%nat].
  - split; [reflexivity|]. split; [place 33%nat 3%nat|]. split; [place 36%nat 3%nat|]. split; [place 39%nat 3%nat|]. split; [place 42%nat 3%nat|]. split; [place 45%nat 6%nat|place 51%nat 12%nat].
  - intros s [<-|[<-|[<-|[]]]]; reflexivity.
Qed.
Lemma at_part d n : named d n -> exists m, part d m.
Proof. intros H. exists (Some n). right. now exists n. Qed.
Lemma at_sane : sane at_c.
Proof.
  assert (K : named 1 "K") by (split; [lia|reflexivity]). assert (L1 : named 2 "L1") by (split; [lia|reflexivity]). assert (L3 : named 4 "L3") by (split; [lia|reflexivity]). assert (Z0 : exists m, part 0 m) by (exists None; now left).
  split; [repeat constructor; cbn; intuition discriminate|]. intros s [<-|[<-|[<-|[]]]]; (split; [eexists; eassumption|]; split; [discriminate|]; split; [discriminate|]); cbn [s_transitions]; intros t It; cbn [In] in It.
  - destruct It as [<-|[<-|[]]]; (split; [eapply at_part; eassumption|]); [exact Z0|eapply at_part; eassumption].
  - destruct It.
  - destruct It as [<-|[]]; split; eapply at_part; eassumption.
Qed.
Example C93_hypotheses_met : says at_a at_c /\ sane at_c /\ c_subs at_c <> [] /\ nth_error (c_coherent at_c) 0 = Some 0%Qc /\
  option_map (fun p => (map fst (ph_reactions p), map (fun e => map this (fy (p_xs (snd e)))) (ph_reactions p), option_map (fun r => (map fst (r_binding r), map (fun e => (fst e, map (fun t => let '(j, k, en, q) := t in (j, k, this en, this q)) (snd e))) (r_transitions r))) (ph_relaxation p))) (from_ace (fun v => v + 1)%Qc at_a) =
  Some ([502; 504; 515; 522; 534; 535; 537], [[0#1; 6#1]; [4#1; 5#1]; [0#1; 9#1]; [7#1; 8#1]; [0#1; 61#1]; [62#1; 63#1]; [64#1; 0#1]]%Q,
        Some (["K"; "L1"; "L3"], [("K", [(Some "L3", None, 70000000#1, 3#1)%Q; (Some "L1", Some "L3", 71000000#1, 4#1)%Q]); ("L3", [(Some "L3", Some "L3", 72000000#1, 9#1)%Q])])).
Proof. split; [exact at_says|]. split; [exact at_sane|]. split; [discriminate|]. split; [reflexivity|]. vm_compute. reflexivity. Qed.
Example C93_none_hypotheses_met : let a := mkAce (fun i => match i with 7%nat => 2 | _ => 0 end) (fun i => match i with 11%nat => 1 | _ => 0 end) (map qz [0; 1; 40]) in
  nxs a 7 = size [1; 40] /\ stands (xss a) (jxs a 11) (map qz [1; 40]) /\ exists d, In d [1; 40] /\ (d = 0 \/ 39 < d).
Proof. split; [reflexivity|]. split; [exists [qz 0], []; split; reflexivity|]. exists 40. split; [cbn; auto|right; lia]. Qed.
(** A table of the old format, without profiles and subshells. *)
Definition old_c : content := mkContent (map qz [1; 2]) (map qz [3; 4]) (map qz [0; 5]) (map qz [6; 7]) (map qz [0; 8]) agreed_incoherent (repeat (qz 1) 21) agreed_coherent (repeat (qz 0) 55) (repeat (qz 2) 55) [] [].
Definition old_a : ace := mkAce (fun i => match i with 3%nat => 2 | _ => 0 end) (fun i => match i with 1%nat => 1 | 2%nat => 11 | 3%nat => 32 | _ => 0 end)
  (map qz [0; 1; 2; 3; 4; 0; 5; 6; 7; 0; 8] ++ repeat (qz 1) 21 ++ repeat (qz 0) 55 ++ repeat (qz 2) 55).
Example C93_old_hypotheses_met : says old_a old_c /\ sane old_c /\
  option_map (fun p => map (fun e => option_map (fun f => (List.length (fx f), option_map this (nth_error (fx f) 11), option_map this (nth_error (fy f) 11))) (p_factor (snd e))) (ph_reactions p)) (from_ace (fun v => v) old_a) =
  Some [Some (55%nat, Some (9 # 50)%Q, Some (2 # 1)%Q); Some (21%nat, Some (7 # 10)%Q, Some (1 # 1)%Q); None; None].
Proof.
  split; [|split; [split; [constructor|intros s []]|vm_compute; reflexivity]]. assert (E0 : forall p, 0 <= p <= 142 -> stands (xss old_a) p []).
  { intros p Hp. exists (firstn (Z.to_nat p) (xss old_a)), (skipn (Z.to_nat p) (xss old_a)). split; [symmetry; apply firstn_skipn|]. rewrite firstn_length. change (List.length (xss old_a)) with 142%nat. lia. }
  constructor; cbn [old_c c_energy c_incoherent c_coherent c_photoelectric c_pair c_ix c_iy c_cx c_cint c_cy c_profs c_subs].
  - repeat split.
  - split; [reflexivity|]. exists (firstn 1 (xss old_a)), (skipn 11 (xss old_a)). split; reflexivity.
  - repeat split.
  - right. split; [cbn; lia|]. split; [reflexivity|]. split; [exists (firstn 11 (xss old_a)), (skipn 32 (xss old_a)); split; reflexivity|]. split; [reflexivity|]. exists (firstn 32 (xss old_a)), []. split; reflexivity.
  - split; [reflexivity|]. split; [apply E0; cbn; lia|]. split; [apply E0; cbn; lia|]. intros [|k] p E; discriminate.
  - split; [reflexivity|]. repeat split; apply E0; cbn; lia.
  - intros s [].
Qed.
