(** Adding a temperature, theorems. *)
From Coq Require Import ZArith QArith Qcanon List Bool Lia String Permutation.
From Verif Require Import Num Neut_Model Neut_Spec Neut_Proofs Law_Model Hdf_Model Hdf_Spec Hdf_Proofs Nuc_Model Nuc_Spec Nuc_Proofs NucAce_Proofs Nuc_Props Temp_Model Temp_Spec Temp_Proofs.
From Verif Require Sab_Proofs.
Import ListNotations.
Local Open Scope string_scope.
Local Open Scope list_scope.
Local Open Scope Z_scope.

(** Data of the nuclide at a new temperature are added, and nothing else changes: grid,
    probability tables, cross sections of the reactions there are. *)
Theorem C87_added : forall self data q, at_one q data -> ~ In (kelvin q) (temperatures self) -> d_name data = d_name self -> NoDup (map fst (d_rx self)) ->
  exists d, add_temperature self data = Some d /\ with_temperature (kelvin q) self data d.
Proof. exact added. Qed.
Print Assumptions C87_added.
(** Any table [from_ace] reads can be added. *)
Theorem C87_ace : forall (R : readers law angle) a c n x name z ma m awr kt, says a c -> apart a c -> from_ace R a = Some (n, x) -> (forall h, In h (c_channels c) -> 0 <= c_mt h) -> at_one kt (of_ace name z ma m awr kt n x).
Proof.
  intros R a c n x name z ma m awr kt S P F HM. split; [reflexivity|]. split; [cbn; now rewrite String.eqb_refl|]. split.
  - cbn [of_ace d_rx]. rewrite map_map. cbn [fst]. exact (proj1 (proj1 (from_ace_sane R a c S P n x HM F))).
  - intros mt r I0. cbn [of_ace d_rx] in I0. apply in_map_iff in I0 as ([k y] & E & _). cbn [fst snd] in E. injection E as <- <-. cbn. now rewrite String.eqb_refl.
Qed.
Print Assumptions C87_ace.
(** At a temperature there is (rounded to 1 K) nothing happens; another nuclide is refused. *)
Theorem C87_again : forall self data q, d_kts data = [q] -> In (kelvin q) (temperatures self) -> add_temperature self data = Some self.
Proof. exact again. Qed.
Print Assumptions C87_again.
Theorem C87_other : forall self data q, d_kts data = [q] -> ~ In (kelvin q) (temperatures self) -> d_name data <> d_name self -> add_temperature self data = None.
Proof. exact other. Qed.
Print Assumptions C87_other.
(** Of several tables each is there at its temperature as if it were alone. *)
Theorem C87_library : forall datas qs self, Forall2 at_one qs datas -> (forall x, In x datas -> d_name x = d_name self) -> NoDup (temperatures self ++ map kelvin qs) -> NoDup (map fst (d_rx self)) ->
  exists d, loop add_temperature datas self = Some d /\ d_name d = d_name self /\ d_kts d = d_kts self ++ qs /\ map fst (d_rx d) = map fst (d_rx self) /\
    (forall q x, In (q, x) (combine qs datas) -> same_at (kelvin q) x d) /\
    forall t, ~ In t (map kelvin qs) -> look t (d_energy d) = look t (d_energy self) /\ Forall2 (fun e e' => fst e' = fst e /\ look t (x_xs (snd e')) = look t (x_xs (snd e))) (d_rx self) (d_rx d).
Proof.
  intros datas qs self F. revert self. induction F as [|q data qs datas A F IH]; intros self Nm N Ns.
  - exists self. split; [reflexivity|]. split; [reflexivity|]. split; [now rewrite app_nil_r|]. split; [reflexivity|]. split; [intros ? ? []|]. intros t _. split; [reflexivity|]. clear. induction (d_rx self); constructor; auto.
  - cbn [map] in N. destruct (added self data q A) as (d1 & E1 & W).
    + intros I0. apply NoDup_remove_2 in N. apply N. apply in_or_app. now left.
    + apply Nm. now left.
    + exact Ns.
    + pose proof A as (Kq & _ & Nd & Hd). pose proof (temperatures_with q self data d1 Kq W) as T. pose proof (kept_keys _ _ _ _ W) as Kk. pose proof W as (_ & W2 & _ & _ & _ & _ & W7 & W8 & W9 & W10 & _).
      destruct (IH d1) as (d & E & D1 & D2 & D3 & D4 & D5).
      * intros x Ix. rewrite W2. apply Nm. now right.
      * rewrite T, <- app_assoc. exact N.
      * now rewrite Kk.
      * exists d. cbn [loop]. rewrite E1. split; [exact E|]. split; [congruence|]. split; [rewrite D2, W7, Kq, <- app_assoc; reflexivity|]. split; [congruence|].
        assert (Nq : ~ In (kelvin q) (map kelvin qs)) by (intros I0; apply NoDup_remove_2 in N; apply N; apply in_or_app; now right). split.
        -- cbn [combine]. intros q' x [I0|I0]; [|now apply D4]. injection I0 as <- <-. destruct (D5 _ Nq) as [G1 G2]. split; [now rewrite G1|]. intros mt r s Ir Is.
           destruct (forall2_in _ _ _ _ G2 Ir) as ([mt1 r1] & I1 & Ek & L). cbn [fst snd] in Ek, L. subst mt1. rewrite L. destruct (forall2_in _ _ _ _ W10 I1) as ([mt0 r0] & I2 & Ek & M). cbn [fst snd] in Ek, M. subst mt0.
           destruct M as (_ & _ & _ & _ & _ & _ & _ & M & _). now apply M.
        -- intros t Ht. cbn [map In] in Ht. destruct (D5 t) as [G1 G2]; [tauto|]. assert (Ne : t <> kelvin q) by (intros ->; apply Ht; now left). split; [now rewrite G1, W9|].
           clear - W10 G2 Ne. revert G2. generalize (d_rx d). induction W10 as [|e e1 l l1 [Ek M] F IH]; intros l2 G; inversion G as [|? e2 ? l3 [Ek2 L] G2]; subst; constructor; [|now apply IH]. split; [congruence|]. rewrite L. now apply M.
Qed.
Print Assumptions C87_library.
(** If the table has every reaction that goes into a file, all of it goes into a file and
    comes back as in C71. *)
Theorem C87_stored : forall self data q, nuclide_fine self -> nuclide_fine data -> at_one q data -> ~ In (kelvin q) (temperatures self) -> d_name data = d_name self -> covers self data ->
  exists d f d', add_temperature self data = Some d /\ with_temperature (kelvin q) self data d /\ nuclide_fine d /\ export_to_hdf5 d [] = Some f /\ from_hdf5 f = Some d' /\ stored d d'.
Proof.
  intros self data q Fs Fd A Nt Nm C. assert (Ns : NoDup (map fst (d_rx self))) by apply Fs. destruct (added self data q A Nt Nm Ns) as (d & E & W). pose proof (fine_with self data d q Fs Fd A Nt C E W) as Fi.
  destruct (C71_round_trip d Fi) as (g & d' & X & R & S). exists d, [(d_name d, g)], d'. repeat (split; [assumption|]). exact S.
Qed.
Print Assumptions C87_stored.
(** Not true: every reaction of the table is there. *)
Theorem C87_lost_refuted : forall self data q d mt, at_one q data -> ~ In (kelvin q) (temperatures self) -> d_name data = d_name self -> NoDup (map fst (d_rx self)) -> ~ In mt (map fst (d_rx self)) ->
  add_temperature self data = Some d -> reaction_at (d_rx d) mt = None.
Proof.
  intros self data q d mt A Nt Nm Ns Nmt E. destruct (added self data q A Nt Nm Ns) as (d1 & E1 & W). assert (d1 = d) as -> by congruence. apply reaction_none. now rewrite (kept_keys _ _ _ _ W).
Qed.
Print Assumptions C87_lost_refuted.
(** Not true: every reaction has a cross section at every temperature. *)
Theorem C87_missing_refuted : forall self data q d mt r, at_one q data -> ~ In (kelvin q) (temperatures self) -> d_name data = d_name self -> NoDup (map fst (d_rx self)) -> In (mt, r) (d_rx self) -> ~ In mt (map fst (d_rx data)) -> look (kelvin q) (x_xs r) = None ->
  add_temperature self data = Some d -> In (kelvin q) (temperatures d) /\ reaction_at (d_rx d) mt = Some r /\ look (kelvin q) (x_xs r) = None.
Proof.
  intros self data q d mt r A Nt Nm Ns Ir Nd L E. destruct (added self data q A Nt Nm Ns) as (d1 & E1 & W). assert (d1 = d) as -> by congruence. split; [|split; [|exact L]].
  - destruct A as (K & _). rewrite (temperatures_with q self data d K W). apply in_or_app. right. now left.
  - pose proof (kept_keys _ _ _ _ W) as Kk. destruct W as (_ & _ & _ & _ & _ & _ & _ & _ & _ & W10 & _). destruct (forall2_in_l _ _ _ _ W10 Ir) as ([mt' r'] & I1 & Ek & M). cbn [fst snd] in Ek, M. subst mt'.
    assert (r' = r) as -> by (apply M; intros s Is; apply Nd; now apply (in_map fst) in Is). apply In_reaction; [now rewrite Kk|exact I1].
Qed.
Print Assumptions C87_missing_refuted.

(** ** Cases *)
Definition te_grid : list Qc := [qz 1; qz 5; qz 6].
Definition te_rx (mt : Z) (y : list Qc) : Z * nrx := (mt, mkNrx mt 0%Qc true false [("600K", Table (linear te_grid y) (Some 0))] [] []).
(** Of [ex_d], at 600 K: everything, or without capture but with (n,p). *)
Definition te_all : nuclide := mkNuclide false "U235" 92 235 0 (qz 233) [(qz 600 * K_BOLTZMANN)%Qc] [("600K", te_grid)]
  [te_rx 2 [qz 1; qz 2; qz 3]; te_rx 51 [qz 4; qz 5; qz 6]; te_rx 19 [qz 7; qz 7; qz 7]; te_rx 102 [qz 8; qz 8; qz 9]] [("600K", ex_urr)].
Definition te_some : nuclide := mkNuclide false "U235" 92 235 0 (qz 233) [(qz 600 * K_BOLTZMANN)%Qc] [("600K", te_grid)] [te_rx 2 [qz 1; qz 2; qz 3]; te_rx 51 [qz 4; qz 5; qz 6]; te_rx 19 [qz 7; qz 7; qz 7]; te_rx 103 [qz 8; qz 8; qz 9]] [].
Lemma te_kelvin : kelvin (qz 600 * K_BOLTZMANN)%Qc = "600K".
Proof. vm_compute. reflexivity. Qed.
Lemma te_one : at_one (qz 600 * K_BOLTZMANN)%Qc te_all /\ at_one (qz 600 * K_BOLTZMANN)%Qc te_some.
Proof.
  unfold at_one. rewrite te_kelvin. split; (split; [reflexivity|]; split; [discriminate|]; split; [cbn; repeat constructor; cbn; intuition lia|]; intros mt r I0; cbn [te_all te_some d_rx In] in I0; repeat (destruct I0 as [I0|I0]; [injection I0 as <- <-; discriminate|]); destruct I0).
Qed.
Lemma te_fine : nuclide_fine te_all.
Proof.
  assert (T : temperatures te_all = ["600K"]) by (vm_compute; reflexivity). unfold nuclide_fine. rewrite T. cbn [te_all d_endf d_z d_a d_m d_awr d_rx d_urr d_energy]. split; [reflexivity|]. do 3 (split; [lia|]). split; [reflexivity|]. split; [constructor; [intros []|constructor]|].
  split; [intros t [<-|[]]; discriminate|]. split; [cbn; repeat constructor; cbn; intuition lia|]. split; [|split; [constructor; [intros []|constructor]|intros t u [I0|[]]; injection I0 as _ <-; now right]].
  intros mt r I0. cbn [In] in I0. repeat (destruct I0 as [I0|I0]; [injection I0 as <- <-; split; [reflexivity|]; split; [lia|]; intros _; unfold rx_fine, gridded; rewrite T; cbn [x_xs x_products x_derived map fst];
    split; [constructor; [intros []|constructor]|]; split; [intros t [<-|[]]; discriminate|]; split; [|split; constructor]; intros t x [I1|[]]; injection I1 as <- <-; (split; [left; now left|]; split; [discriminate|cbn; lia])|]). destruct I0.
Qed.
Lemma te_covers : covers ex_d te_all.
Proof.
  intros mt r I0 Wr. cbn [ex_d d_rx In] in I0. destruct I0 as [I0|[I0|I0]]; [injection I0 as <- <-; exfalso; destruct Wr as [Wr|[(p & [] & _)|Wr]]; [discriminate|cbn in Wr; intuition lia]|injection I0 as <- <-; exfalso; destruct Wr as [Wr|[(p & [] & _)|Wr]]; [discriminate|cbn in Wr; intuition lia]|].
  assert (K : forall m y, In (te_rx m y) (d_rx te_all) -> exists s, In (m, s) (d_rx te_all) /\ written s) by (intros m y I1; exists (snd (te_rx m y)); split; [exact I1|left; reflexivity]).
  repeat (destruct I0 as [I0|I0]; [injection I0 as <- <-; first [eapply K; left; reflexivity|eapply K; right; left; reflexivity|eapply K; right; right; left; reflexivity|eapply K; right; right; right; left; reflexivity]|]). destruct I0.
Qed.
Example C87_hypotheses_met : at_one (qz 600 * K_BOLTZMANN)%Qc te_all /\ ~ In (kelvin (qz 600 * K_BOLTZMANN)%Qc) (temperatures ex_d) /\ d_name te_all = d_name ex_d /\ nuclide_fine ex_d /\ nuclide_fine te_all /\ covers ex_d te_all /\
  option_map (fun d => (temperatures d, values d "600K" 2, values d "294K" 2, values d "600K" 102, values d "600K" 1, map fst (d_urr d))) (match add_temperature ex_d te_all with Some d => read_back d | None => None end) =
  Some (["1200K"; "294K"; "600K"], Some [[1#1; 2#1; 3#1]], Some [[5#1; 6#1; 7#1]], Some [[8#1; 8#1; 9#1]], Some [[1#1; 2#1; 3#1]; [4#1; 5#1; 6#1]; [8#1; 8#1; 9#1]], ["294K"; "600K"])%Q.
Proof.
  split; [apply te_one|]. split; [rewrite te_kelvin, ex_temperatures; cbn; intuition discriminate|]. split; [reflexivity|]. split; [exact ex_fine|]. split; [exact te_fine|]. split; [exact te_covers|]. vm_compute. reflexivity.
Qed.
(** Not true: what was added can be read back.  A table without capture makes a file that
    nobody can read. *)
Theorem C87_unreadable_refuted : exists self data q d f, nuclide_fine self /\ at_one q data /\ ~ In (kelvin q) (temperatures self) /\ d_name data = d_name self /\
  read_back self <> None /\ add_temperature self data = Some d /\ export_to_hdf5 d [] = Some f /\ from_hdf5 f = None.
Proof.
  exists ex_d, te_some, (qz 600 * K_BOLTZMANN)%Qc. destruct (add_temperature ex_d te_some) as [d|] eqn:E; [|vm_compute in E; discriminate].
  assert (X : match add_temperature ex_d te_some with Some d => match export_to_hdf5 d [] with Some f => match from_hdf5 f with None => true | _ => false end | None => false end | None => false end = true) by (vm_compute; reflexivity).
  rewrite E in X. destruct (export_to_hdf5 d []) as [f|] eqn:Ef; [|discriminate]. exists d, f. split; [exact ex_fine|]. split; [apply te_one|]. split; [rewrite te_kelvin, ex_temperatures; cbn; intuition discriminate|]. split; [reflexivity|].
  split; [destruct ex_back as (d' & -> & _); discriminate|]. split; [reflexivity|]. split; [exact Ef|]. now destruct (from_hdf5 f).
Qed.
Print Assumptions C87_unreadable_refuted.
Example C87_library_hypotheses_met : exists d, loop add_temperature [te_all] ex_d = Some d /\ temperatures d = ["294K"; "1200K"; "600K"] /\ Forall2 at_one [(qz 600 * K_BOLTZMANN)%Qc] [te_all] /\ NoDup (temperatures ex_d ++ map kelvin [(qz 600 * K_BOLTZMANN)%Qc]) /\
  (exists d', add_temperature ex_d te_some = Some d' /\ reaction_at (d_rx d') 103 = None /\ (exists r, reaction_at (d_rx d') 102 = Some r /\ look "600K" (x_xs r) = None)) /\ add_temperature ex_d ex_d = Some ex_d.
Proof.
  destruct te_one as [T1 T2]. assert (Nt : ~ In (kelvin (qz 600 * K_BOLTZMANN)%Qc) (temperatures ex_d)) by (rewrite te_kelvin, ex_temperatures; cbn; intuition discriminate).
  assert (Ns : NoDup (map fst (d_rx ex_d))) by apply ex_fine.
  destruct (added ex_d te_all _ T1 Nt eq_refl Ns) as (d & E & W). exists d. split; [cbn [loop]; now rewrite E|]. split; [rewrite (temperatures_with (qz 600 * K_BOLTZMANN)%Qc ex_d te_all d eq_refl W), te_kelvin, ex_temperatures; reflexivity|].
  split; [constructor; [exact T1|constructor]|]. split; [cbn [map]; rewrite te_kelvin, ex_temperatures; cbn; repeat constructor; cbn; intuition discriminate|]. split.
  - destruct (added ex_d te_some _ T2 Nt eq_refl Ns) as (d' & E' & W'). exists d'. split; [exact E'|]. split; [apply (C87_lost_refuted ex_d te_some _ d' 103 T2 Nt eq_refl Ns); [cbn; intuition lia|exact E']|].
    destruct (C87_missing_refuted ex_d te_some _ d' 102 ex_102 T2 Nt eq_refl Ns) as (_ & R & L); [cbn; auto 10|cbn; intuition lia|rewrite te_kelvin; reflexivity|exact E'|]. exists ex_102. split; [exact R|]. rewrite te_kelvin in L. exact L.
  - vm_compute. reflexivity.
Qed.
