(** What NJOY made, theorems. *)
From Coq Require Import ZArith QArith Qcanon List Bool Lia String Permutation.
From Verif Require Import Num Neut_Model Hdf_Model Nuc_Model Nuc_Spec Nuc_Proofs Nuc_Props Temp_Model Temp_Spec Temp_Proofs Temp_Props Pendf_Model Pendf_Spec Pendf_Proofs.
From Verif Require Sab_Model Sab_Proofs Cold_Proofs.
Import ListNotations.
Local Open Scope string_scope.
Local Open Scope list_scope.
Local Open Scope Z_scope.

(** The tables together: at each temperature what its table has. *)
Lemma together q0 qs first rest : Forall2 at_one (q0 :: qs) (first :: rest) -> NoDup (map kelvin (q0 :: qs)) -> (forall x, In x rest -> d_name x = d_name first) ->
  exists d, from_tables (first :: rest) = Some d /\ d_name d = d_name first /\ d_kts d = q0 :: qs /\ map fst (d_rx d) = map fst (d_rx first) /\
    (forall q x, In (q, x) (combine (q0 :: qs) (first :: rest)) -> same_at (kelvin q) x d) /\
    forall t, ~ In t (map kelvin (q0 :: qs)) -> look t (d_energy d) = look t (d_energy first) /\ Forall2 (fun e e' => fst e' = fst e /\ look t (x_xs (snd e')) = look t (x_xs (snd e))) (d_rx first) (d_rx d).
Proof.
  intros F N Nm. inversion F as [|? ? ? ? A F' ]; subst. pose proof A as (K & _ & Nd & _). assert (T : temperatures first = [kelvin q0]) by (unfold temperatures; now rewrite K).
  destruct (C87_library rest qs first F' Nm) as (d & E & D1 & D2 & D3 & D4 & D5); [rewrite T; exact N|exact Nd|].
  exists d. split; [exact E|]. split; [exact D1|]. split; [now rewrite D2, K|]. split; [exact D3|]. split.
  - cbn [combine]. intros q x [I0|I0]; [|now apply D4]. injection I0 as <- <-. cbn [map] in N. inversion N as [|? ? N1 _]; subst. destruct (D5 _ N1) as [G1 G2]. split; [exact G1|]. intros mt r s Ir Is.
    destruct (forall2_in _ _ _ _ G2 Ir) as ([mt0 r0] & I1 & Ek & L). cbn [fst snd] in Ek, L. subst mt0. rewrite L. pose proof (In_reaction _ _ _ Nd I1) as Y1. pose proof (In_reaction _ _ _ Nd Is) as Y2. congruence.
  - intros t Ht. apply D5. intros I0. apply Ht. now right.
Qed.

(** At each temperature the grid and the cross sections are those of its table; the reactions
    are those of the first; at 0 K elastic scattering is what the PENDF file says and nothing
    else is new. *)
Theorem C92_njoy : forall qs first rest xs, library qs (first :: rest) -> warm first -> In 2 (map fst (d_rx first)) ->
  exists d, from_njoy (first :: rest) (Some xs) = Some d /\ d_name d = d_name first /\ d_kts d = qs /\ map fst (d_rx d) = map fst (d_rx first) /\
    (forall q x, In (q, x) (combine qs (first :: rest)) -> same_at (kelvin q) x d) /\ cold_from xs first d.
Proof.
  intros qs first rest xs (F & N & Nz & Nm) Wm I2. destruct qs as [|q0 qs]; [inversion F|].
  destruct (together q0 qs first rest F N) as (d0 & E & D1 & D2 & D3 & D4 & D5); [intros x Ix; apply Nm; [now right|now left]|].
  destruct (D5 _ Nz) as [G1 G2]. assert (I2' : In 2 (map fst (d_rx d0))) by now rewrite D3. destruct (put_cold_some xs d0 I2') as (r & d & R & Ep & X1 & X2 & X3 & X4 & X5 & X6 & X7 & X8 & X9 & X10).
  exists d. split; [unfold from_njoy; rewrite E, G1, Wm; exact Ep|]. split; [congruence|]. split; [congruence|]. split; [rewrite X10, assign_keys by exact I2'; exact D3|].
  assert (Nf : NoDup (map fst (d_rx first))) by (inversion F as [|? ? ? ? A F']; subst; apply A). assert (N0 : NoDup (map fst (d_rx d0))) by now rewrite D3.
  split.
  - intros q x I0. destruct (D4 q x I0) as [H1 H2]. assert (Ne : kelvin q <> "0K") by (intros Eq; apply Nz; rewrite <- Eq; apply in_map; exact (in_combine_l _ _ _ _ I0)). apply String.eqb_neq in Ne.
    split; [now rewrite X9, look_cold, Ne|]. intros mt u s Iu Is. rewrite X10 in Iu. apply assign_in in Iu as [Iu|Iu]; [|now apply (H2 mt)]. injection Iu as -> ->. cbn [put_xs x_xs]. rewrite Sab_Proofs.look_set, Ne. apply (H2 2); [|exact Is]. now apply reaction_In.
  - split; [now rewrite X9, look_cold|]. split.
    + exists (put_xs "0K" (Table xs None) r). split; [now rewrite X10, Cold_Proofs.assign_at by exact I2'|]. cbn [put_xs x_xs]. now rewrite Sab_Proofs.look_set.
    + intros mt u Hm Ru. rewrite X10, Cold_Proofs.assign_at in Ru by exact I2'. apply Z.eqb_neq in Hm. rewrite Hm in Ru. apply reaction_In in Ru. destruct (forall2_in _ _ _ _ G2 Ru) as ([mt0 s] & Is & Ek & L). cbn [fst snd] in Ek, L. subst mt0.
      exists s. split; [now apply In_reaction|exact L].
Qed.
Print Assumptions C92_njoy.
(** Number, mass and the rest are those of the first table; probability tables are there at
    each temperature as in its table. *)
Lemma loop_rest : forall datas qs self d, Forall2 at_one qs datas -> (forall x, In x datas -> d_name x = d_name self) -> NoDup (temperatures self ++ map kelvin qs) -> NoDup (map fst (d_rx self)) -> loop add_temperature datas self = Some d ->
  (d_endf d = d_endf self /\ d_z d = d_z self /\ d_a d = d_a self /\ d_m d = d_m self /\ d_awr d = d_awr self) /\
  (forall q x, In (q, x) (combine qs datas) -> look (kelvin q) (d_urr self) = None -> look (kelvin q) (d_urr d) = look (kelvin q) (d_urr x)) /\
  forall t, ~ In t (map kelvin qs) -> look t (d_urr d) = look t (d_urr self).
Proof.
  intros datas qs self d F. revert self. induction F as [|q data qs datas A F IH]; intros self Nm N Ns E; cbn [loop] in E.
  - injection E as <-. split; [now repeat split|]. split; [intros ? ? []|reflexivity].
  - cbn [map] in N. assert (Nt : ~ In (kelvin q) (temperatures self)) by (intros I0; apply NoDup_remove_2 in N; apply N; apply in_or_app; now left).
    destruct (added self data q A Nt (Nm data (or_introl eq_refl)) Ns) as (d1 & E1 & W). rewrite E1 in E. pose proof A as (Kq & _). pose proof (temperatures_with q self data d1 Kq W) as T. pose proof (kept_keys _ _ _ _ W) as Kk.
    destruct W as (W1 & W2 & W3 & W4 & W5 & W6 & W7 & W8 & W9 & W10 & W11 & W12 & W13). assert (Nq : ~ In (kelvin q) (map kelvin qs)) by (intros I0; apply NoDup_remove_2 in N; apply N; apply in_or_app; now right).
    destruct (IH d1) as ((H1 & H2 & H3 & H4 & H5) & H6 & H7); [intros x Ix; rewrite W2; apply Nm; now right|rewrite T, <- app_assoc; exact N|now rewrite Kk|exact E|].
    split; [repeat split; congruence|]. split.
    + cbn [combine]. intros q' x [I0|I0] L.
      * injection I0 as <- <-. rewrite (H7 _ Nq). destruct (look (kelvin q) (d_urr data)) eqn:U; [now rewrite W11 by congruence|rewrite (W12 eq_refl); exact L].
      * apply H6; [exact I0|]. rewrite W13; [exact L|]. intros Eq. apply Nq. rewrite <- Eq. apply in_map. exact (in_combine_l _ _ _ _ I0).
    + cbn [map In]. intros t Ht. rewrite H7 by tauto. apply W13. intros ->. tauto.
Qed.
Theorem C92_identity : forall qs first rest xs d, library qs (first :: rest) -> warm first -> from_njoy (first :: rest) (Some xs) = Some d ->
  d_endf d = d_endf first /\ d_z d = d_z first /\ d_a d = d_a first /\ d_m d = d_m first /\ d_awr d = d_awr first /\
  forall q x, In (q, x) (combine qs (first :: rest)) -> x = first \/ look (kelvin q) (d_urr first) = None -> look (kelvin q) (d_urr d) = look (kelvin q) (d_urr x).
Proof.
  intros qs first rest xs d (F & N & Nz & Nm) Wm E. destruct qs as [|q0 qs]; [inversion F|]. inversion F as [|? ? ? ? A F']; subst. pose proof A as (K & _ & Nd & _). unfold from_njoy in E. destruct (from_tables (first :: rest)) as [d0|] eqn:E0; [|discriminate].
  unfold from_tables in E0. cbn [hd_error tl] in E0. destruct (loop_rest rest qs first d0 F') as ((H1 & H2 & H3 & H4 & H5) & H6 & H7); [intros x Ix; apply Nm; [now right|now left]|unfold temperatures; rewrite K; exact N|exact Nd|exact E0|].
  assert (S : d_endf d = d_endf d0 /\ d_z d = d_z d0 /\ d_a d = d_a d0 /\ d_m d = d_m d0 /\ d_awr d = d_awr d0 /\ d_urr d = d_urr d0).
  { destruct (look "0K" (d_energy d0)); [injection E as <-; now repeat split|]. unfold put_cold in E. destruct (reaction_at (d_rx d0) 2) as [r|]; [|discriminate]. injection E as <-. now repeat split. }
  destruct S as (-> & -> & -> & -> & -> & ->). repeat (split; [assumption|]). cbn [map] in N. inversion N as [|? ? N1 _]; subst. cbn [combine]. intros q x [I0|I0] L.
  - injection I0 as <- <-. now apply H7.
  - destruct L as [->|L]; [|now apply H6]. destruct (look (kelvin q) (d_urr first)) eqn:U; [|now rewrite (H6 _ _ I0 U)]. exfalso.
    clear - F' I0 K N1. assert (at_one q first) as (Kq & _) by (revert I0; clear - F'; induction F' as [|a b l l' B F IH]; [intros []|intros [E|I0]; [injection E as <- <-; exact B|now apply IH]]). assert (q = q0) as -> by congruence. apply N1, in_map. exact (in_combine_l _ _ _ _ I0).
Qed.
Print Assumptions C92_identity.
(** With a table at 0 K the PENDF file does not matter: at 0 K, too, everything is as in the
    table. *)
Theorem C92_own : forall qs first rest pendf, Forall2 at_one qs (first :: rest) -> NoDup (map kelvin qs) -> (forall x, In x rest -> d_name x = d_name first) -> In "0K" (map kelvin qs) ->
  exists d, from_njoy (first :: rest) pendf = Some d /\ d_kts d = qs /\ map fst (d_rx d) = map fst (d_rx first) /\ forall q x, In (q, x) (combine qs (first :: rest)) -> same_at (kelvin q) x d.
Proof.
  intros qs first rest pendf F N Nm Iz. destruct qs as [|q0 qs]; [inversion F|]. destruct (together q0 qs first rest F N Nm) as (d & E & D1 & D2 & D3 & D4 & _). exists d. split; [|now repeat split; try apply D4].
  unfold from_njoy. rewrite E. apply in_map_iff in Iz as (q & Eq & Iq). assert (exists x, In (q, x) (combine (q0 :: qs) (first :: rest)) /\ at_one q x) as (x & Ix & A).
  { clear - F Iq. induction F as [|a b l l' A F IH]; [destruct Iq|]. destruct Iq as [<-|Iq]; [exists b; split; [now left|exact A]|]. destruct (IH Iq) as (x & Ix & Ax). exists x. split; [now right|exact Ax]. }
  destruct (D4 q x Ix) as [L _]. destruct A as (_ & A & _). rewrite Eq in L, A. rewrite L. destruct (look "0K" (d_energy x)); [reflexivity|congruence].
Qed.
Print Assumptions C92_own.
(** Without elastic scattering in the tables, or in the PENDF file, there are no data. *)
Theorem C92_none : forall qs first rest pendf, library qs (first :: rest) -> warm first -> pendf = None \/ ~ In 2 (map fst (d_rx first)) -> from_njoy (first :: rest) pendf = None.
Proof.
  intros qs first rest pendf (F & N & Nz & Nm) Wm H. destruct qs as [|q0 qs]; [inversion F|].
  destruct (together q0 qs first rest F N) as (d0 & E & D1 & D2 & D3 & D4 & D5); [intros x Ix; apply Nm; [now right|now left]|]. destruct (D5 _ Nz) as [G1 _]. unfold from_njoy. rewrite E, G1, Wm.
  destruct H as [->|H]; [reflexivity|]. destruct pendf as [xs|]; [|reflexivity]. unfold put_cold. rewrite <- D3 in H. now rewrite (proj2 (reaction_none _ _) H).
Qed.
Print Assumptions C92_none.
(** All of it can be stored and comes back as in C71, if the tables can and have the same
    reactions. *)
Theorem C92_stored : forall qs first rest xs, library qs (first :: rest) -> warm first -> In 2 (map fst (d_rx first)) -> (forall x, In x (first :: rest) -> nuclide_fine x) -> complete (first :: rest) ->
  exists d f d', from_njoy (first :: rest) (Some xs) = Some d /\ nuclide_fine d /\ export_to_hdf5 d [] = Some f /\ from_hdf5 f = Some d' /\ stored d d' /\ look "0K" (d_energy d') = Some (fx xs).
Proof.
  intros qs first rest xs L Wm I2 Fi C. destruct (C92_njoy qs first rest xs L Wm I2) as (d & E & _ & _ & _ & _ & Cf). destruct L as (F & N & Nz & Nm). destruct qs as [|q0 qs]; [inversion F|]. inversion F as [|? ? ? ? A F']; subst.
  assert (Fd : nuclide_fine d).
  { pose proof E as E'. unfold from_njoy in E'. destruct (from_tables (first :: rest)) as [d0|] eqn:E0; [|discriminate]. assert (F0 : nuclide_fine d0).
    { unfold from_tables in E0. cbn [hd_error tl] in E0. apply (fine_loop rest qs first d0 F'); [intros x Ix; apply Nm; [now right|now left]| |apply Fi; now left| |exact E0].
      - pose proof A as (K & _). unfold temperatures. rewrite K. exact N.
      - intros x Ix. split; [apply Fi; now right|]. now apply (C first rest x). }
    destruct (look "0K" (d_energy d0)); [now replace d with d0 by congruence|]. now apply (fine_cold xs d0). }
  destruct (C71_round_trip d Fd) as (g & d' & X & R & S). exists d, [(d_name d, g)], d'. repeat (split; [assumption|]). destruct S as (_ & _ & G & _). rewrite (proj1 (G "0K") (or_intror eq_refl)). apply Cf.
Qed.
Print Assumptions C92_stored.
(** Not true: there are data at each temperature asked for.  Of temperatures the same to 1 K
    only the first is kept. *)
Theorem C92_rounded_refuted : forall q0 q first x pendf, at_one q0 first -> d_kts x = [q] -> kelvin q = kelvin q0 -> from_njoy [first; x] pendf = from_njoy [first] pendf.
Proof.
  intros q0 q first x pendf (K & _) Kx Eq. unfold from_njoy, from_tables. cbn [hd_error tl loop]. rewrite (C87_again first x q Kx); [reflexivity|]. unfold temperatures. rewrite K, Eq. now left.
Qed.
Print Assumptions C92_rounded_refuted.

(** ** Cases *)
Definition pe_at (t : string) (kt : Qc) (a : Z) : nuclide := mkNuclide false "U235" 92 235 0 (qz 233) [kt] [(t, te_grid)]
  [(2, mkNrx 2 0%Qc true false [(t, Table (linear te_grid [qz a; qz 2; qz 3]) (Some 0))] [] []); (102, mkNrx 102 0%Qc true false [(t, Table (linear te_grid [qz 8; qz 8; qz a]) (Some 0))] [] [])] [(t, ex_urr)].
Definition pe_kt (q : Qc) : Qc := (q * K_BOLTZMANN)%Qc.
Definition pe_300 := pe_at "300K" (pe_kt (qz 300)) 5.
Definition pe_600 := pe_at "600K" (pe_kt (qz 600)) 6.
Definition pe_0 := pe_at "0K" (pe_kt (qz 0)) 7.
(** At 300.4 K. *)
Definition pe_near := pe_at "300K" (pe_kt (qc 3004 10)) 9.
Definition pe_xs : fn := linear [qz 1; qz 2; qz 4; qz 9] [qz 10; qz 20; qz 30; qz 40].
Lemma pe_one t q a : kelvin (pe_kt q) = t -> at_one (pe_kt q) (pe_at t (pe_kt q) a).
Proof.
  intros E. unfold at_one. rewrite E. cbn [pe_at d_kts d_energy d_rx look]. rewrite String.eqb_refl. split; [reflexivity|]. split; [discriminate|]. split; [cbn; repeat constructor; cbn; intuition lia|].
  intros mt r [I0|[I0|[]]]; injection I0 as <- <-; cbn [x_xs look]; rewrite String.eqb_refl; discriminate.
Qed.
Lemma pe_fine t q a : kelvin (pe_kt q) = t -> nuclide_fine (pe_at t (pe_kt q) a).
Proof.
  intros E. assert (T : temperatures (pe_at t (pe_kt q) a) = [t]) by (unfold temperatures; cbn [pe_at d_kts map]; now rewrite E).
  assert (L : look t (d_energy (pe_at t (pe_kt q) a)) <> None) by (cbn [pe_at d_energy look]; now rewrite String.eqb_refl).
  unfold nuclide_fine. rewrite T. cbn [pe_at d_endf d_z d_a d_m d_awr d_rx d_urr]. split; [reflexivity|]. do 3 (split; [lia|]). split; [reflexivity|]. split; [constructor; [intros []|constructor]|].
  split; [intros t' [<-|[]]; exact L|]. split; [cbn; repeat constructor; cbn; intuition lia|]. split; [|split; [constructor; [intros []|constructor]|intros t' u [I0|[]]; injection I0 as _ <-; now right]].
  intros mt r [I0|[I0|[]]]; injection I0 as <- <-; (split; [reflexivity|]; split; [lia|]; intros _; unfold rx_fine, gridded; rewrite T; cbn [x_xs x_products x_derived map fst];
    split; [constructor; [intros []|constructor]|]; split; [intros t' [<-|[]]; cbn [look]; rewrite String.eqb_refl; discriminate|]; split; [|split; constructor]; intros t' x [I1|[]]; injection I1 as <- <-; (split; [left; now left|]; split; [exact L|cbn; lia])).
Qed.
Lemma pe_library : library [pe_kt (qz 300); pe_kt (qz 600)] [pe_300; pe_600].
Proof.
  split; [constructor; [apply pe_one; vm_compute; reflexivity|constructor; [apply pe_one; vm_compute; reflexivity|constructor]]|].
  assert (map kelvin [pe_kt (qz 300); pe_kt (qz 600)] = ["300K"; "600K"]) as -> by (vm_compute; reflexivity). split; [repeat constructor; cbn; intuition discriminate|]. split; [cbn; intuition discriminate|].
  intros x y [<-|[<-|[]]] [<-|[<-|[]]]; reflexivity.
Qed.
Lemma pe_complete : complete [pe_300; pe_600].
Proof.
  intros first rest x E. injection E as <- <-. intros [<-|[]] mt r Ir _. destruct Ir as [I0|[I0|[]]]; injection I0 as <- <-; eexists; (split; [cbn; auto|now left]).
Qed.
Example C92_hypotheses_met : library [pe_kt (qz 300); pe_kt (qz 600)] [pe_300; pe_600] /\ warm pe_300 /\ In 2 (map fst (d_rx pe_300)) /\ (forall x, In x [pe_300; pe_600] -> nuclide_fine x) /\ complete [pe_300; pe_600] /\
  option_map (fun d => (temperatures d, values d "300K" 2, values d "600K" 2, values d "0K" 2, values d "0K" 102, values d "600K" 102, map fst (d_urr d))) (match from_njoy [pe_300; pe_600] (Some pe_xs) with Some d => read_back d | None => None end) =
  Some (["300K"; "600K"], Some [[5#1; 2#1; 3#1]], Some [[6#1; 2#1; 3#1]], Some [[10#1; 20#1; 30#1; 40#1]], None, Some [[8#1; 8#1; 6#1]], ["300K"; "600K"])%Q.
Proof.
  split; [exact pe_library|]. split; [reflexivity|]. split; [cbn; auto|]. split; [intros x [<-|[<-|[]]]; apply pe_fine; vm_compute; reflexivity|]. split; [exact pe_complete|]. vm_compute. reflexivity.
Qed.
Example C92_own_hypotheses_met : Forall2 at_one [pe_kt (qz 300); pe_kt (qz 0)] [pe_300; pe_0] /\ NoDup (map kelvin [pe_kt (qz 300); pe_kt (qz 0)]) /\ In "0K" (map kelvin [pe_kt (qz 300); pe_kt (qz 0)]) /\
  option_map (fun d => (temperatures d, values d "0K" 2)) (from_njoy [pe_300; pe_0] (Some pe_xs)) = Some (["300K"; "0K"], Some [[7#1; 2#1; 3#1]])%Q /\ from_njoy [pe_300; pe_600] None = None.
Proof.
  split; [constructor; [apply pe_one; vm_compute; reflexivity|constructor; [apply pe_one; vm_compute; reflexivity|constructor]]|].
  assert (map kelvin [pe_kt (qz 300); pe_kt (qz 0)] = ["300K"; "0K"]) as -> by (vm_compute; reflexivity). split; [repeat constructor; cbn; intuition discriminate|]. split; [cbn; auto|]. split; vm_compute; reflexivity.
Qed.
Example C92_rounded_hypotheses_met : at_one (pe_kt (qz 300)) pe_300 /\ d_kts pe_near = [pe_kt (qc 3004 10)] /\ kelvin (pe_kt (qc 3004 10)) = kelvin (pe_kt (qz 300)) /\ pe_kt (qc 3004 10) <> pe_kt (qz 300) /\
  option_map (fun d => (temperatures d, values d "300K" 2)) (from_njoy [pe_300; pe_near] (Some pe_xs)) = Some (["300K"], Some [[5#1; 2#1; 3#1]])%Q.
Proof. split; [apply pe_one; vm_compute; reflexivity|]. split; [reflexivity|]. split; [vm_compute; reflexivity|]. split; [vm_compute; discriminate|]. vm_compute. reflexivity. Qed.
