(** Elastic scattering at 0 K, theorems. *)
From Coq Require Import ZArith QArith Qcanon List Bool String Sorted Lia Lqa.
From Verif Require Import Num Hdf_Model Neut_Model Nuc_Model Thin_Spec Linz_Spec Nuc_Props Cold_Model Cold_Spec Cold_Proofs.
From Verif Require Linz_Props.
Import ListNotations.
Local Open Scope string_scope.
Local Open Scope list_scope.

(** The grid of a range increases from its lower to its upper limit; it is made of the
    equidistant points and of the points next to resonances. *)
Theorem C88_grid : forall fs logs r es, spans logs -> factors fs -> (b_lo r < b_hi r)%Qc -> (forall l p, has (b_kind r) l -> In p l -> (0 <= snd p)%Qc) -> energies fs logs r = Some es ->
  StronglySorted Qclt es /\ hd_error es = Some (b_lo r) /\ last es 0%Qc = b_hi r /\
  exists l l', has (b_kind r) l /\ kept r l l' /\ l' <> [] /\ forall p, In p es <-> In p (logs (b_lo r) (b_hi r)) \/ next_to fs r l' p.
Proof.
  intros fs logs r es Sp Fa Lt W E. destruct (grid_ok fs logs r es E) as (S & l & l' & H & K & N & I0). destruct (Sp _ _ Lt) as (S1 & S2 & S3). split; [exact S|].
  destruct (asc_ends es (b_lo r) (b_hi r) S) as [E1 E2]; [apply I0; now left|apply I0; now left| |].
  - intros e Ie. apply I0 in Ie as [Ie|Ie]; [now apply S3|]. destruct (next_in fs r l l' e Fa (fun q => W l q H) K Ie) as [A B]. split; now apply Qclt_le_weak.
  - split; [exact E1|]. split; [exact E2|]. exists l, l'. auto.
Qed.
Print Assumptions C88_grid.
(** Points next to one resonance do not overlap with those next to another, if the
    resonances are in order. *)
Theorem C88_apart : forall fs r l l1 e g l2 e' g' l3 a b a' b' p q, factors fs -> l = l1 ++ (e, g) :: l2 ++ (e', g') :: l3 -> ascending l -> (0 < g)%Qc -> (0 < g')%Qc ->
  bounds r l1 (l2 ++ (e', g') :: l3) e a b -> bounds r (l1 ++ (e, g) :: l2) l3 e' a' b' -> beside fs e g a b p -> beside fs e' g' a' b' q -> (p < q)%Qc.
Proof. exact apart. Qed.
Print Assumptions C88_apart.
(** What is added: for each range but unresolved ones, one after the other, a table of the
    elastic cross section; nothing else changes. *)
Theorem C88_added : forall fs logs fuel recon ow rs bg self d, spans logs -> (forall l r, rs = Some l -> In r l -> (b_lo r < b_hi r)%Qc) ->
  add_elastic_0K fs logs fuel recon ow rs bg self = Some d ->
  exists l f parts, rs = Some l /\ (forall x m, counted x l m -> f x = (bg x + qsum (map (fun r => recon r x) m))%Qc) /\
    Forall2 (fun r p => exists es, energies fs logs r = Some es /\ tabulates f es (fst p) (snd p)) (covered l) parts /\
    with_cold (concat (map fst parts)) (concat (map snd parts)) self d.
Proof.
  intros fs logs fuel recon ow rs bg self d Sp Lt E. destruct (add_inv _ _ _ _ _ _ _ _ _ E) as (_ & l & f & x & y & El & Ef & O & W). exists l, f. destruct (over_inv _ _ _ _ _ _ _ _ _ O) as (parts & F & -> & ->). exists parts. split; [exact El|]. split; [|split; [|exact W]].
  - destruct (elastic_some _ _ _ _ Ef) as (l0 & E0 & H). assert (l0 = l) as -> by congruence. exact H.
  - assert (G : forall r, In r (covered l) -> (b_lo r < b_hi r)%Qc) by (intros r Ir; apply filter_In in Ir as [Ir _]; now apply (Lt l)). clear - F G Sp. induction F as [|r p rs ps (es & Ee & Et) F IH]; constructor; [|apply IH; intros r' I0; apply G; now right].
    exists es. split; [exact Ee|]. destruct (grid_ok fs logs r es Ee) as (S & l0 & l0' & _ & _ & _ & I0). destruct (Sp _ _ (G r (or_introl eq_refl))) as (S1 & _). destruct p as [xi yi]. apply (tabulate_sound fuel); [|exact S|exact Et].
    intros ->. assert (In (b_lo r) []) as [] by (apply I0; now left).
Qed.
Print Assumptions C88_added.
(** It is added if bisecting ends, the only resolved range has a resonance inside it and
    there are no data at 0 K, or they may be overwritten. *)
Theorem C88_works : forall fs logs recon ow l bg self r es f o, covered l = [r] -> look "0K" (d_energy self) = None \/ ow = true -> reaction_at (d_rx self) 2%Z <> None -> spans logs -> (b_lo r < b_hi r)%Qc ->
  energies fs logs r = Some es -> (forall x m, counted x l m -> f x = (bg x + qsum (map (fun r => recon r x) m))%Qc) -> filled f (qc 1 1000) es o ->
  exists fuel d x y, add_elastic_0K fs logs fuel recon ow (Some l) bg self = Some d /\ with_cold x y self d /\ tabulates f es x y.
Proof.
  intros fs logs recon ow l bg self r es f o C H R Sp Lt E Hf Fo. destruct (grid_ok fs logs r es E) as (S & l0 & l' & _ & _ & _ & I0). destruct (Sp _ _ Lt) as (S1 & _). assert (N : es <> []) by (intros ->; assert (In (b_lo r) []) as [] by (apply I0; now left)).
  destruct (elastic_total recon l bg) as (f' & Ef). destruct (elastic_some _ _ _ _ Ef) as (l1 & E1 & H1). assert (l1 = l) as -> by congruence. assert (X : forall x, f' x = f x) by (intros x; destruct (counted_some x l) as (m & Hm); now rewrite (H1 x m Hm), (Hf x m Hm)).
  assert (Fo' : filled f' tolerance es o) by (apply (filled_ext f f' _ X), Fo).
  destruct (tabulate_complete f' es o N S Fo') as (fuel & x & Et). destruct (add_some fs logs fuel recon ow l bg self f' x (map f' x) H Ef (over_one _ _ _ _ _ _ _ _ _ C E Et) R) as (d & Ed & W). exists fuel, d, x, (map f' x). split; [exact Ed|]. split; [exact W|].
  pose proof (tabulate_sound fuel f' es x (map f' x) N S Et) as (_ & T2 & T3 & T4 & o' & ks & T5 & T6 & T7). split; [now apply map_ext|]. split; [exact T2|]. split; [exact T3|]. split; [exact T4|]. exists o', ks.
  assert (Eo : map f' o' = map f o') by now apply map_ext. rewrite Eo in T6. split; [|split; [exact T6|exact T7]].
  apply (filled_ext f' f _ (fun x => eq_sym (X x))), T5.
Qed.
Print Assumptions C88_works.
(** Data at 0 K are not overwritten unless that is wished. *)
Theorem C88_kept : forall fs logs fuel recon rs bg self, look "0K" (d_energy self) <> None -> add_elastic_0K fs logs fuel recon false rs bg self = None.
Proof.
  intros fs logs fuel recon rs bg self H. destruct (add_elastic_0K fs logs fuel recon false rs bg self) as [d|] eqn:E; [|reflexivity]. destruct (add_inv _ _ _ _ _ _ _ _ _ E) as ([X|X] & _); [congruence|discriminate].
Qed.
Print Assumptions C88_kept.
(** Not true: the grid includes the peaks.  They are on it only by chance. *)
Theorem C88_peak_refuted : forall fs logs r l l' es e g, factors fs -> has (b_kind r) l -> kept r l l' -> distinct l' -> (forall q, In q l' -> (0 < snd q)%Qc) -> energies fs logs r = Some es -> In (e, g) l' ->
  (In e es <-> In e (logs (b_lo r) (b_hi r))).
Proof.
  intros fs logs r l l' es e g Fa H K D W E I0. destruct (grid_ok fs logs r es E) as (_ & l0 & l1 & H0 & K0 & _ & Ie). assert (l0 = l) as -> by (eapply has_unique; eassumption). assert (l1 = l') as -> by (eapply kept_unique; eassumption).
  rewrite Ie. split; [|auto]. intros [X|X]; [exact X|]. exfalso. exact (peak_alone fs r l' e g Fa D W I0 X).
Qed.
Print Assumptions C88_peak_refuted.
(** Not true: a range without resonances inside it is tabulated too.  Nor is one with only
    a scattering radius: both make it fail, whatever the rest. *)
Theorem C88_empty_refuted : forall fs logs fuel recon ow l bg self r, In r l -> b_kind r <> Unresolved -> (forall rows, has (b_kind r) rows -> kept r rows []) -> add_elastic_0K fs logs fuel recon ow (Some l) bg self = None.
Proof.
  intros fs logs fuel recon ow l bg self r I0 U H. destruct (add_elastic_0K fs logs fuel recon ow (Some l) bg self) as [d|] eqn:E; [|reflexivity]. destruct (add_inv _ _ _ _ _ _ _ _ _ E) as (_ & l0 & f & x & y & El & _ & O & _).
  assert (l0 = l) as -> by congruence. rewrite (over_fails fs logs fuel f l r [] [] I0 U (proj2 (energies_none fs logs r) H)) in O. discriminate.
Qed.
Print Assumptions C88_empty_refuted.
Theorem C88_radius_refuted : forall fs logs fuel recon ow l bg self r, In r l -> b_kind r = Radius -> add_elastic_0K fs logs fuel recon ow (Some l) bg self = None.
Proof. intros fs logs fuel recon ow l bg self r I0 K. apply (C88_empty_refuted fs logs fuel recon ow l bg self r I0); rewrite K; [discriminate|intros ? []]. Qed.
Print Assumptions C88_radius_refuted.
(** Not true: without resonances the background is tabulated.  It fails. *)
Theorem C88_none_refuted : forall fs logs fuel recon ow bg self, add_elastic_0K fs logs fuel recon ow None bg self = None.
Proof. intros fs logs fuel recon ow bg self. unfold add_elastic_0K. cbn [elastic_of]. now destruct (_ && _). Qed.
Print Assumptions C88_none_refuted.
(** Not true: there is a cross section afterwards.  With unresolved resonances only, it is a
    table without points. *)
Theorem C88_unresolved_refuted : forall fs logs fuel recon ow l bg self, (forall r, In r l -> b_kind r = Unresolved) -> look "0K" (d_energy self) = None -> reaction_at (d_rx self) 2%Z <> None ->
  exists d, add_elastic_0K fs logs fuel recon ow (Some l) bg self = Some d /\ with_cold [] [] self d.
Proof.
  intros fs logs fuel recon ow l bg self U L R. destruct (elastic_total recon l bg) as (f & Ef). apply (add_some fs logs fuel recon ow l bg self f [] []); [now left|exact Ef| |exact R]. apply over_none. clear - U. induction l as [|r l IH]; [reflexivity|].
  unfold covered. cbn [filter]. rewrite (U r (or_introl eq_refl)). apply IH. intros r' I0. apply U. now right.
Qed.
Print Assumptions C88_unresolved_refuted.
(** Not true: the energies increase.  Where two ranges meet, the energy is there twice. *)
Theorem C88_joint_refuted : forall fs logs fuel recon ow r1 r2 bg self d, spans logs -> factors fs -> (b_lo r1 < b_hi r1)%Qc -> b_hi r1 = b_lo r2 -> (b_lo r2 < b_hi r2)%Qc ->
  (forall r l p, In r [r1; r2] -> has (b_kind r) l -> In p l -> (0 <= snd p)%Qc) -> b_kind r1 <> Unresolved -> b_kind r2 <> Unresolved ->
  add_elastic_0K fs logs fuel recon ow (Some [r1; r2]) bg self = Some d -> exists x1 x2, look "0K" (d_energy d) = Some (x1 ++ b_lo r2 :: b_lo r2 :: x2).
Proof.
  intros fs logs fuel recon ow r1 r2 bg self d Sp Fa L1 Eb L2 W U1 U2 E. assert (Lr : forall l r, Some [r1; r2] = Some l -> In r l -> (b_lo r < b_hi r)%Qc).
  { intros l r E0 I0. assert (l = [r1; r2]) as -> by congruence. destruct I0 as [<-|[<-|[]]]; assumption. }
  destruct (C88_added fs logs fuel recon ow _ bg self d Sp Lr E) as (l & f & parts & El & _ & F & Wc).
  assert (l = [r1; r2]) as -> by congruence. assert (C : covered [r1; r2] = [r1; r2]) by (unfold covered; cbn [filter]; destruct (b_kind r1), (b_kind r2); congruence). rewrite C in F.
  inversion F as [|? p1 ? ps1 (es1 & G1 & T1) F1]; subst. inversion F1 as [|? p2 ? ps2 (es2 & G2 & T2) F2]; subst. inversion F2; subst.
  destruct (C88_grid fs logs r1 es1 Sp Fa L1 (fun l p => W r1 l p (or_introl eq_refl)) G1) as (_ & A0 & A1 & _). destruct (C88_grid fs logs r2 es2 Sp Fa L2 (fun l p => W r2 l p (or_intror (or_introl eq_refl))) G2) as (_ & B1 & _).
  destruct T1 as (_ & _ & A3 & A2 & _), T2 as (_ & _ & B2 & _). rewrite B1 in B2. destruct (fst p2) as [|b x2] eqn:X2; [discriminate|]. cbn in B2. assert (b = b_lo r2) as -> by congruence.
  assert (N : fst p1 <> []) by (intros X; rewrite X, A0 in A3; discriminate). destruct (exists_last N) as (x1 & z & X1). rewrite A1, X1, last_last, Eb in A2. exists x1, x2.
  destruct Wc as (_ & _ & _ & _ & _ & _ & _ & _ & Wc & _). rewrite Wc. cbn [map concat]. rewrite X1, X2, A2, app_nil_r, <- app_assoc. reflexivity.
Qed.
Print Assumptions C88_joint_refuted.
(** Not true: it ends.  Where two ranges meet both contribute, so the cross section jumps
    there, and the bisection has no end if the jump is more than what it varies by. *)
Theorem C88_endless_refuted : forall fs logs fuel recon ow r1 r2 bg self m M, spans logs -> factors fs -> (b_lo r1 < b_hi r1)%Qc -> b_hi r1 = b_lo r2 -> (b_lo r2 < b_hi r2)%Qc ->
  (forall r l p, In r [r1; r2] -> has (b_kind r) l -> In p l -> (0 <= snd p)%Qc) -> (forall r, In r [r1; r2] -> exists rows, has (b_kind r) rows) ->
  (forall x, b_lo r1 <= x <= b_hi r1 -> m <= bg x + recon r1 x <= M)%Qc -> (0 < m)%Qc -> (qz 2 * (M * qc 1001 1000 - m) < recon r2 (b_lo r2))%Qc ->
  add_elastic_0K fs logs fuel recon ow (Some [r1; r2]) bg self = None.
Proof.
  intros fs logs fuel recon ow r1 r2 bg self m M Sp Fa L1 Eb L2 W H B Pm J. destruct (add_elastic_0K fs logs fuel recon ow (Some [r1; r2]) bg self) as [d|] eqn:E; [exfalso|reflexivity].
  assert (Lr : forall l r, Some [r1; r2] = Some l -> In r l -> (b_lo r < b_hi r)%Qc).
  { intros l r E0 I0. assert (l = [r1; r2]) as -> by congruence. destruct I0 as [<-|[<-|[]]]; assumption. }
  assert (K : forall r, In r [r1; r2] -> match b_kind r with Unresolved | Radius => False | _ => True end) by (intros r I0; destruct (H r I0) as (rows & Hr); now destruct (b_kind r)).
  pose proof (K r1 (or_introl eq_refl)) as K1. pose proof (K r2 (or_intror (or_introl eq_refl))) as K2.
  destruct (C88_added fs logs fuel recon ow _ bg self d Sp Lr E) as (l & f & parts & El & V & F & _). assert (l = [r1; r2]) as -> by congruence.
  assert (C : covered [r1; r2] = [r1; r2]) by (unfold covered; cbn [filter]; now destruct (b_kind r1), (b_kind r2)). rewrite C in F.
  inversion F as [|? p1 ? ps1 (es1 & G1 & T1) F1]; subst. destruct (C88_grid fs logs r1 es1 Sp Fa L1 (fun l p => W r1 l p (or_introl eq_refl)) G1) as (S1 & A0 & A1 & _).
  destruct T1 as (_ & _ & _ & _ & o & ks & Fo & _).
  assert (Flow : forall x, (b_lo r1 <= x)%Qc -> (x < b_hi r1)%Qc -> (m <= f x <= M)%Qc).
  { intros x X1 X2. rewrite (V x [r1]); [|constructor; [split; [split; [exact X1|now apply Qclt_le_weak]|exact K1]|constructor; [|constructor]]; intros [[Y _] _]; rewrite <- Eb in Y; exact (Qclt_not_le _ _ X2 Y)].
    cbn [map]. replace (qsum [recon r1 x]) with (recon r1 x) by (cbn; ring). apply B. split; [exact X1|now apply Qclt_le_weak]. }
  assert (Fhi : (f (b_hi r1) = bg (b_hi r1) + recon r1 (b_hi r1) + recon r2 (b_lo r2))%Qc).
  { rewrite (V (b_hi r1) [r1; r2]); [cbn; rewrite Eb; ring|]. constructor; [split; [split; [now apply Qclt_le_weak|apply Qcle_refl]|exact K1]|]. constructor; [split; [|exact K2]; rewrite Eb; split; [apply Qcle_refl|now apply Qclt_le_weak]|constructor]. }
  destruct (B (b_hi r1)) as [Bh _]; [split; [now apply Qclt_le_weak|apply Qcle_refl]|].
  apply (jump_bad f (qc 1 1000) es1 o (b_lo r1) (b_hi r1)); [exact Fo|exact S1|exact A0|exact A1|exact L1|]. intros x X1 X2 G. apply Linz_Proofs.mag_iff in G.
  destruct (middle_strict x (b_hi r1) X2) as [M1 M2]. assert (M1' : (b_lo r1 <= middle x (b_hi r1))%Qc) by (eapply Qcle_trans; [exact X1|now apply Qclt_le_weak]).
  destruct (Flow _ M1' M2) as [Y1 Y2]. destruct (Flow _ X1 X2) as [Z1 Z2]. rewrite Fhi in G. exact (jump_arith _ _ _ _ _ _ Pm Y1 Y2 Z1 Bh J G).
Qed.
Print Assumptions C88_endless_refuted.

(** The cross section at an energy is the background and the contribution of every resolved
    range the energy is in. *)
Theorem C89_value : forall recon rs bg x m, counted x rs m -> at_energy recon rs bg x = (bg + qsum (map (fun r => recon r x) m))%Qc.
Proof. intros recon rs bg x m. apply at_counted. Qed.
Print Assumptions C89_value.
(** At an array of energies it is what it is at each of them. *)
Theorem C89_arrays : forall recon recons rs bg xs, (forall r l, recons r l = map (recon r) l) -> at_energies recons rs (map bg xs) xs = Some (map (fun x => at_energy recon rs (bg x) x) xs).
Proof.
  intros recon recons rs bg xs R. rewrite (arrays recon recons rs R) by apply map_length. f_equal. induction xs as [|x xs IH]; [reflexivity|]. cbn [map combine fst snd]. now f_equal.
Qed.
Print Assumptions C89_arrays.
(** The elastic cross section of an evaluation, if it has a file of resonances at all; if
    not, reading it fails. *)
Theorem C89_evaluation : forall recon l bg, exists f, elastic_of recon (Some l) bg = Some f /\ forall x m, counted x l m -> f x = (bg x + qsum (map (fun r => recon r x) m))%Qc.
Proof.
  intros recon l bg. destruct (elastic_total recon l bg) as (f & E). exists f. split; [exact E|]. destruct (elastic_some _ _ _ _ E) as (l0 & E0 & H). assert (l0 = l) as -> by congruence. exact H.
Qed.
Print Assumptions C89_evaluation.
Theorem C89_none_refuted : forall recon bg, elastic_of recon None bg = None.
Proof. reflexivity. Qed.
Print Assumptions C89_none_refuted.
(** Not true: an energy is in one range.  Where two meet, both contribute. *)
Theorem C89_border_refuted : forall recon r1 r2 bg, b_hi r1 = b_lo r2 -> (b_lo r1 < b_hi r1)%Qc -> (b_lo r2 < b_hi r2)%Qc -> (forall r, In r [r1; r2] -> exists rows, has (b_kind r) rows) ->
  at_energy recon [r1; r2] bg (b_lo r2) = (bg + recon r1 (b_lo r2) + recon r2 (b_lo r2))%Qc.
Proof.
  intros recon r1 r2 bg E L1 L2 H. rewrite (at_counted recon (b_lo r2) [r1; r2] bg [r1; r2]); [cbn; ring|].
  assert (K : forall r, In r [r1; r2] -> match b_kind r with Unresolved | Radius => False | _ => True end) by (intros r I0; destruct (H r I0) as (rows & Hr); now destruct (b_kind r)).
  constructor; [split; [|apply K; now left]; rewrite <- E; split; [now apply Qclt_le_weak|apply Qcle_refl]|]. constructor; [split; [|apply K; right; now left]; split; [apply Qcle_refl|now apply Qclt_le_weak]|constructor].
Qed.
Print Assumptions C89_border_refuted.

(** ** Cases *)
Definition co_fs : list Qc := [qc 1 1000; qz 1; qz 1000].
Definition co_logs (a b : Qc) : list Qc := [a; b].
Lemma co_factors : factors co_fs.
Proof. split; [repeat constructor|]. intros f I0. cbn in I0. repeat (destruct I0 as [<-|I0]; [reflexivity|]). destruct I0. Qed.
Lemma co_spans : spans co_logs.
Proof. intros a b L. split; [now left|]. split; [right; now left|]. intros e [<-|[<-|[]]]; split; try apply Qcle_refl; now apply Qclt_le_weak. Qed.
(** Two resonances in order, and the same ones in two blocks, as for two angular momenta. *)
Definition co_r : band := mkBand (qz 1) (qz 20) (Breit [(- qz 3, qz 1); (qz 5, qz 1); (qz 10, qz 1)]%Qc).
Definition co_blocks : band := mkBand (qz 1) (qz 20) (Breit [(qz 10, qz 1); (qz 5, qz 1)]).
Definition co_reich : band := mkBand (qz 20) (qz 30) (Reich [(qz 25, (qc 1 2, qc 1 4, (- qc 1 8, qc 1 8)))]%Qc).
Lemma co_es : energies co_fs co_logs co_r = Some [qz 1; qz 4; qc 4999 1000; qz 6; qz 9; qc 9999 1000; qz 11; qz 20].
Proof. vm_compute. reflexivity. Qed.
(** Not true: points next to a resonance are there up to the next one.  When resonances are
    not in order, those above the last may be missing. *)
Theorem C88_order_refuted : exists fs logs r l l' es e g f0 f, factors fs /\ spans logs /\ has (b_kind r) l /\ kept r l l' /\ energies fs logs r = Some es /\ In (e, g) l' /\ (forall p, In p l' -> (fst p <= e)%Qc) /\
  fs = f0 :: f :: tl (tl fs) /\ (e + g * f < b_hi r)%Qc /\ ~ In (e + g * f)%Qc es.
Proof.
  exists co_fs, co_logs, co_blocks, [(qz 10, qz 1); (qz 5, qz 1)], [(qz 10, qz 1); (qz 5, qz 1)], [qz 1; qz 6; qz 9; qc 9999 1000; qz 20], (qz 10), (qz 1), (qc 1 1000), (qz 1).
  split; [exact co_factors|]. split; [exact co_spans|]. split; [reflexivity|]. split; [repeat constructor|]. split; [vm_compute; reflexivity|]. split; [now left|]. split; [intros p [<-|[<-|[]]]; discriminate|]. split; [reflexivity|]. split; [reflexivity|].
  assert (X : existsb (qeqb (qz 10 + qz 1 * qz 1)%Qc) [qz 1; qz 6; qz 9; qc 9999 1000; qz 20] = false) by (vm_compute; reflexivity). intros I0. assert (existsb (qeqb (qz 10 + qz 1 * qz 1)%Qc) [qz 1; qz 6; qz 9; qc 9999 1000; qz 20] = true) by (apply existsb_exists; eexists; split; [exact I0|now apply qeqb_eq]). congruence.
Qed.
Print Assumptions C88_order_refuted.
Definition co_recon (r : band) (x : Qc) : Qc := match b_kind r with Breit _ => x | _ => qz 7 end.
Definition co_unres : band := mkBand (qz 30) (qz 40) Unresolved.
Definition co_radius : band := mkBand (qz 1) (qz 20) Radius.
Definition co_bound : band := mkBand (qz 1) (qz 20) (Breit [(- qz 3, qz 1)]%Qc).
(** Without a contribution where they meet. *)
Definition co_still (r : band) (x : Qc) : Qc := (x - qz 20)%Qc.
Definition co_with (recon : band -> Qc -> Qc) (l : list band) (ow : bool) : option nuclide := add_elastic_0K co_fs co_logs 50 recon ow (Some l) (fun _ => qz 100) ex_d.
Definition co_add := co_with co_recon.
Definition co_shown (d : option nuclide) : option (option (list Qc) * option (option xsec)) :=
  option_map (fun d => (look "0K" (d_energy d), option_map (fun r => look "0K" (x_xs r)) (reaction_at (d_rx d) 2%Z))) d.
Example C88_hypotheses_met : factors co_fs /\ spans co_logs /\ has (b_kind co_r) [(- qz 3, qz 1); (qz 5, qz 1); (qz 10, qz 1)]%Qc /\ kept co_r [(- qz 3, qz 1); (qz 5, qz 1); (qz 10, qz 1)]%Qc [(qz 5, qz 1); (qz 10, qz 1)] /\ distinct [(qz 5, qz 1); (qz 10, qz 1)] /\
  bounds co_r [] ([] ++ [(qz 10, qz 1)]) (qz 5) (qz 1) (qc 15 2) /\ bounds co_r ([] ++ [(qz 5, qz 1)]) [] (qz 10) (qc 15 2) (qz 20) /\ beside co_fs (qz 5) (qz 1) (qz 1) (qc 15 2) (qz 6) /\ beside co_fs (qz 10) (qz 1) (qc 15 2) (qz 20) (qz 9) /\
  has (b_kind co_reich) [(qz 25, qz 1)] /\ covered [co_r; co_unres] = [co_r] /\
  co_add [co_r; co_unres] false = None /\ co_shown (co_add [co_r; co_unres] true) = Some (Some [qz 1; qz 20], Some (Some (Table (mkFn [qz 1; qz 20] [qz 101; qz 120] [2%Z] [2%Z]) None))) /\
  co_add [co_r; co_reich] true = None /\ option_map fst (co_shown (co_with co_still [co_r; co_reich] true)) = Some (Some [qz 1; qz 20; qz 20; qz 30]) /\
  co_add [co_radius] true = None /\ co_add [co_bound] true = None /\ co_shown (co_add [co_unres] true) = Some (Some [], Some (Some (Table (mkFn [] [] [0%Z] [2%Z]) None))).
Proof.
  split; [exact co_factors|]. split; [exact co_spans|]. split; [reflexivity|]. split; [apply k_out; [intros [H _]; discriminate|repeat constructor]|]. split; [repeat constructor|].
  split; [split; [reflexivity|apply Qc_is_canon; reflexivity]|]. split; [split; [apply Qc_is_canon; reflexivity|reflexivity]|].
  split; [exists (qz 1); right; exists (qc 1 1000), [qz 1; qz 1000]; split; [reflexivity|]; split; [now left|]; split; [apply Qc_is_canon; reflexivity|reflexivity]|].
  split; [exists (qz 1); left; split; [right; now left|]; split; [apply Qc_is_canon; reflexivity|reflexivity]|].
  split; [constructor; [|constructor]; exists (qc 1 8), (qc 1 8); split; [split; [right; apply Qc_is_canon; reflexivity|discriminate]|]; split; [split; [now left|discriminate]|]; f_equal; apply Qc_is_canon; reflexivity|].
  split; [reflexivity|]. vm_compute. repeat split.
Qed.
(** A jump by half the cross section where two ranges meet. *)
Definition co_jump (r : band) (x : Qc) : Qc := match b_kind r with Breit _ => 0%Qc | _ => qz 50 end.
Example C88_endless_hypotheses_met : (b_lo co_r < b_hi co_r)%Qc /\ b_hi co_r = b_lo co_reich /\ (b_lo co_reich < b_hi co_reich)%Qc /\
  (forall x, b_lo co_r <= x <= b_hi co_r -> qz 100 <= qz 100 + co_jump co_r x <= qz 100)%Qc /\ (qz 2 * (qz 100 * qc 1001 1000 - qz 100) < co_jump co_reich (b_lo co_reich))%Qc /\
  forall fuel, add_elastic_0K co_fs co_logs fuel co_jump true (Some [co_r; co_reich]) (fun _ => qz 100) ex_d = None.
Proof.
  assert (A : (forall x, b_lo co_r <= x <= b_hi co_r -> qz 100 <= qz 100 + co_jump co_r x <= qz 100)%Qc) by (intros x _; change (co_jump co_r x) with 0%Qc; rewrite Qcplus_0_r; split; apply Qcle_refl).
  split; [reflexivity|]. split; [reflexivity|]. split; [reflexivity|]. split; [exact A|]. split; [reflexivity|]. intros fuel. apply (C88_endless_refuted co_fs co_logs fuel co_jump true co_r co_reich (fun _ => qz 100) ex_d (qz 100) (qz 100) co_spans co_factors); [reflexivity|reflexivity|reflexivity| | |exact A|reflexivity|reflexivity].
  - intros r l p [<-|[<-|[]]] H.
    + cbn in H. subst l. intros I0. cbn in I0. repeat (destruct I0 as [<-|I0]; [discriminate|]). destruct I0.
    + assert (H0 : has (b_kind co_reich) [(qz 25, qc 1 2 + qc 1 4 + qabs (- qc 1 8) + qabs (qc 1 8))%Qc]) by (apply peaks_has; reflexivity).
      rewrite (has_unique _ _ _ H H0). intros [<-|[]]. discriminate.
  - intros r [<-|[<-|[]]]; eexists; apply peaks_has; reflexivity.
Qed.
(** A range with two resonances, one it meets, an unresolved one and one with a radius only. *)
Example C89_hypotheses_met : counted (qz 20) [co_r; co_reich; co_unres; co_radius] [co_r; co_reich] /\ at_energy co_recon [co_r; co_reich; co_unres; co_radius] (qz 100) (qz 20) = qz 127 /\
  at_energies (fun r => map (co_recon r)) [co_r; co_reich; co_unres; co_radius] [qz 100; qz 101; qz 102; qz 103] [qz 0; qz 10; qz 20; qz 35] = Some [qz 100; qz 111; qz 129; qz 103] /\
  (exists f, elastic_of co_recon (Some [co_unres]) (fun x => x) = Some f /\ f (qz 35) = qz 35) /\ (exists rows, has (b_kind co_r) rows) /\ exists rows, has (b_kind co_reich) rows.
Proof.
  split; [apply c_in; [split; [split; discriminate|exact I]|]; apply c_in; [split; [split; discriminate|exact I]|]; apply c_out; [intros [_ []]|]; apply c_out; [intros [_ []]|]; constructor|].
  split; [apply Qc_is_canon; reflexivity|]. split; [vm_compute; reflexivity|]. split; [eexists; split; reflexivity|]. split; eexists; apply peaks_has; reflexivity.
Qed.
