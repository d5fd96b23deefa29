(** C58: angular distributions. *)
From Coq Require Import ZArith QArith Qcanon List Bool Arith Lia.
From Verif Require Import Num Text Cont_Model Ang_Model Ang_Spec Ang_Proofs.
From Verif Require Endf_Model Endf_Spec Endf_Props.
Import ListNotations.
Local Open Scope nat_scope.

(** What the words of an ACE table describe is what [from_ace] returns: energies in eV,
    tables as they stand, 32 bins of equal probability, isotropy. *)
Theorem C58_ace : forall ev xss ld ls energies laws, angular xss ld ls energies laws ->
  exists ms, from_ace ev xss ld ls = Some (map (fun e => (e * ev)%Qc) energies, ms) /\ Forall2 means laws ms.
Proof. exact ace_read. Qed.
Print Assumptions C58_ace.

(** Read from ACE, written and read back: the same points, if equiprobable cosines ascend. *)
Theorem C58_ace_stored : forall ev xss ld ls energies laws, angular xss ld ls energies laws -> Forall proper laws ->
  exists ms g ms', from_ace ev xss ld ls = Some (map (fun e => (e * ev)%Qc) energies, ms) /\ Forall2 means laws ms /\
    to_hdf5 (map (fun e => (e * ev)%Qc) energies) ms = (g, true) /\
    from_hdf5 g = Some (map (fun e => (e * ev)%Qc) energies, ms') /\ Forall2 same_points ms ms'.
Proof. exact ace_stored. Qed.
Print Assumptions C58_ace_stored.

(** What is written can be read and has the same points; histograms and linear tables
    come back unchanged. *)
Theorem C58_round_trip : forall es ms, length es = length ms -> Forall storable ms ->
  exists g ms', to_hdf5 es ms = (g, true) /\ from_hdf5 g = Some (es, ms') /\ Forall2 same_points ms ms' /\ (Forall plainly ms -> ms' = ms).
Proof. exact stored. Qed.
Print Assumptions C58_round_trip.

(** The coefficients given to a Legendre distribution are those it reports. *)
Theorem C58_legendre : forall cs m, legendre cs = Some m -> coefficients m = Some cs.
Proof. exact legendre_coefficients. Qed.
Print Assumptions C58_legendre.

(** ENDF, file 4, in its four representations. *)
Theorem C58_endf_isotropic : forall emax head rest, mf4_head head 0 1 ->
  from_endf emax (head ++ rest) = Some ([0%Qc; emax], [Unif (- (1)) 1; Unif (- (1)) 1]).
Proof. exact endf_isotropic. Qed.
Print Assumptions C58_endf_isotropic.
Theorem C58_endf_legendre : forall emax head t2 body rs rest, mf4_head head 1 0 -> tab2 t2 (length rs) -> records leg_record body rs ->
  exists es ms, from_endf emax (head ++ t2 ++ body ++ rest) = Some (es, ms) /\ listed leg_means rs es ms.
Proof. exact endf_legendre. Qed.
Print Assumptions C58_endf_legendre.
Theorem C58_endf_tables : forall emax head t2 body rs rest, mf4_head head 2 0 -> tab2 t2 (length rs) -> records tab_record body rs ->
  exists es ms, from_endf emax (head ++ t2 ++ body ++ rest) = Some (es, ms) /\ listed tab_means rs es ms.
Proof. exact endf_tables. Qed.
Print Assumptions C58_endf_tables.
Theorem C58_endf_both : forall emax head t2 body rs t2' body' rs' rest, mf4_head head 3 0 -> tab2 t2 (length rs) -> records leg_record body rs ->
  tab2 t2' (length rs') -> records tab_record body' rs' ->
  exists es ms es' ms', from_endf emax (head ++ t2 ++ body ++ t2' ++ body' ++ rest) = Some (es ++ es', ms ++ ms') /\
    listed leg_means rs es ms /\ listed tab_means rs' es' ms'.
Proof. exact endf_both. Qed.
Print Assumptions C58_endf_both.

(** Not true: an angular distribution read from ENDF can be written.  Unless it is
    isotropic or empty, [to_hdf5] raises, having written the energies only, and what it
    leaves cannot be read. *)
Theorem C58_endf_stored_refuted : forall emax f es ms, from_endf emax f = Some (es, ms) ->
  (ms = [Unif (- (1)) 1; Unif (- (1)) 1] \/ ms = []) \/
  (to_hdf5 es ms = (mkGroup es None, false) /\ from_hdf5 (mkGroup es None) = None).
Proof. exact endf_unstorable. Qed.
Print Assumptions C58_endf_stored_refuted.

(** Not true: what can be written can be read.  A negative density, as cosines out of
    order give, is written, and the file cannot be read. *)
Theorem C58_readable_refuted :
  (forall es ms g i l t, length es = length ms -> to_hdf5 es ms = (g, true) -> In (Tab i l) ms -> In t l -> (pp t < 0)%Qc -> from_hdf5 g = None) /\
  (forall ev xss ld ls energies laws cos i a b, angular xss ld ls energies laws -> In (Equi cos) laws ->
    nth_error cos i = Some a -> nth_error cos (S i) = Some b -> (b < a)%Qc ->
    exists ms g, from_ace ev xss ld ls = Some (map (fun e => (e * ev)%Qc) energies, ms) /\
      to_hdf5 (map (fun e => (e * ev)%Qc) energies) ms = (g, true) /\ from_hdf5 g = None).
Proof. split; [exact negative_lost | exact ace_lost]. Qed.
Print Assumptions C58_readable_refuted.

(** Not true: the interpolation comes back.  Every logarithmic scheme becomes linear. *)
Theorem C58_scheme_refuted : forall e i l, i <> Histogram -> nonnegative l ->
  exists g, to_hdf5 [e] [Tab i l] = (g, true) /\ from_hdf5 g = Some ([e], [Tab LinLin l]).
Proof.
  intros e i l N P. destruct (stored [e] [Tab i l] eq_refl) as (g & ms' & T & F & _ & _); [repeat constructor; exact P|]. exists g. split; [exact T|].
  injection T as <-. unfold from_hdf5. cbn [g_mu g_energy length seq turns fst snd flat_map map offsets_from]. unfold turn. cbn [nth_error length Nat.sub Nat.ltb Nat.leb]. rewrite scheme_code, app_nil_r. unfold slice.
  rewrite Nat.sub_0_r, skipn_O, firstn_all. apply nonneg_ok in P. rewrite P. destruct i; [congruence|reflexivity..].
Qed.
Print Assumptions C58_scheme_refuted.

(** Not true: a distribution without its energy is refused.  It is joined to the one before. *)
Theorem C58_lengths_refuted : forall e i l l', plain i -> nonnegative (l ++ l') ->
  exists g, to_hdf5 [e] [Tab i l; Tab i l'] = (g, true) /\ from_hdf5 g = Some ([e], [Tab i (l ++ l')]).
Proof. intros e i l l' [->| ->] N; exact (merged e _ _ l l' N). Qed.
Print Assumptions C58_lengths_refuted.

(** *** Examples *)
Definition ex_cos (k : Z) : list Qc := map (fun i => (qz k * (qz (Z.of_nat i) / qz 16 - 1))%Qc) (seq 0 33).
Definition ex_table : list point := [(- (1), qc 1 2, 0); (0, qc 1 2, qc 1 2); (1, qc 1 2, 1)]%Qc.
Definition ex_xss (k : Z) : list Qc :=
  map qz [7; 7; 3; 1; 5; 20; -10; 0; 21]%Z ++ (map qz [2; 3]%Z ++ map px ex_table ++ map pp ex_table ++ map pc ex_table) ++ ex_cos k.
Definition ex_laws (k : Z) : list law := [Table LinLin ex_table; Isotropic; Equi (ex_cos k)].
Lemma ex_angular k : angular (ex_xss k) 0 3 (map qz [1; 5; 20]%Z) (ex_laws k).
Proof.
  exists [-10; 0; 21]%Z. split; [|split; [reflexivity|]].
  - exists (map qz [7; 7]%Z), ((map qz [2; 3]%Z ++ map px ex_table ++ map pp ex_table ++ map pc ex_table) ++ ex_cos k). split; reflexivity.
  - constructor; [|constructor; [constructor|constructor; [|constructor]]].
    + apply (lo_table _ _ _ LinLin 2); [lia | constructor | repeat (constructor; [discriminate|]); constructor|].
      exists (map qz [7; 7; 3; 1; 5; 20; -10; 0; 21]%Z), (ex_cos k). split; reflexivity.
    + apply lo_equi; [lia | reflexivity|]. exists (map qz [7; 7; 3; 1; 5; 20; -10; 0; 21]%Z ++ (map qz [2; 3]%Z ++ map px ex_table ++ map pp ex_table ++ map pc ex_table)), [].
      split; [|reflexivity]. unfold ex_xss. rewrite app_nil_r. now rewrite <- !app_assoc.
Qed.
Lemma increasing_b l : forallb (fun i => match nth_error l i, nth_error l (S i) with Some a, Some b => qltb a b | _, _ => true end) (seq 0 (length l)) = true -> increasing l.
Proof.
  intros H i a b A B. rewrite forallb_forall in H. assert (I : i < length l) by (apply nth_error_Some; congruence). specialize (H i). rewrite A, B in H.
  destruct (qltb_spec a b) as [Y|_]; [exact Y|]. specialize (H (proj2 (in_seq (length l) 0 i) ltac:(lia))). discriminate H.
Qed.
(** A table, isotropy and 32 bins at 1, 5 and 20 MeV. *)
Example C58_ace_hypotheses_met : angular (ex_xss 1) 0 3 (map qz [1; 5; 20]%Z) (ex_laws 1) /\ Forall proper (ex_laws 1).
Proof. split; [apply ex_angular|]. repeat constructor. cbn [proper]. apply increasing_b. vm_compute. reflexivity. Qed.
(** The same with the cosines of the bins descending. *)
Example C58_readable_hypotheses_met : angular (ex_xss (-1)) 0 3 (map qz [1; 5; 20]%Z) (ex_laws (-1)) /\ In (Equi (ex_cos (-1))) (ex_laws (-1)) /\
  exists a b, nth_error (ex_cos (-1)) 0 = Some a /\ nth_error (ex_cos (-1)) 1 = Some b /\ (b < a)%Qc.
Proof. split; [apply ex_angular|]. split; [right; right; now left|]. do 2 eexists. split; [reflexivity|]. split; [reflexivity|]. reflexivity. Qed.
Example C58_round_trip_hypotheses_met : Forall storable [Tab LinLin ex_table; Unif (- (1)) 1; Tab LogLog ex_table] /\ legendre [1%Qc; qc 1 3] <> None.
Proof. split; [|discriminate]. repeat constructor; discriminate. Qed.

(** File 4 with Legendre coefficients below and a table above. *)
Definition ex_head : lines := [Endf_Props.ctl (9223500, 4)%N (2330248, 2)%N 0 3 0 0 Endf_Props.ex_tail; Endf_Props.ctl (1000000, 0)%N (2330248, 2)%N 0 2 0 2 Endf_Props.ex_tail].
Definition ex_tab2 : lines := [Endf_Props.ctl (1000000, 0)%N (1000000, 0)%N 0 0 1 1 Endf_Props.ex_tail; concat [Endf_Props.int 1 ++ Endf_Props.int 2] ++ Endf_Props.ex_tail].
Definition ex_leg : lines :=
  [Endf_Props.ctl (1000000, 0)%N (2500000, 6)%N 0 0 7 0 Endf_Props.ex_tail;
   concat (map Endf_Props.ex_num (firstn 6 Endf_Props.ex_vs)) ++ Endf_Props.ex_tail; concat (map Endf_Props.ex_num (skipn 6 Endf_Props.ex_vs)) ++ Endf_Props.ex_tail].
Definition ex_tab : lines :=
  [Endf_Props.ctl (1000000, 0)%N (2000000, 7)%N 0 0 1 1 Endf_Props.ex_tail; concat [Endf_Props.int 1 ++ Endf_Props.int 4] ++ Endf_Props.ex_tail;
   concat [Endf_Props.ex_num (1000000, 0)%N ++ Endf_Props.ex_num (2500000, 1)%N] ++ []].
Example C58_endf_hypotheses_met :
  mf4_head ex_head 3 0 /\ tab2 ex_tab2 1 /\
  records leg_record (ex_leg ++ []) [(Endf_Props.ex_val (2500000, 6)%N, map Endf_Props.ex_val Endf_Props.ex_vs)] /\
  records tab_record (ex_tab ++ []) [(Endf_Props.ex_val (2000000, 7)%N, LogLin, [(Endf_Props.ex_val (1000000, 0)%N, Endf_Props.ex_val (2500000, 1)%N)])].
Proof.
  assert (RI : forall a b, length (Dec.decZ a) <= 11 -> length (Dec.decZ b) <= 11 -> Endf_Spec.rows (Endf_Spec.pair_field Endf_Spec.integer_field) 3 [(a, b)] [concat [Endf_Props.int a ++ Endf_Props.int b] ++ Endf_Props.ex_tail]).
  { intros a b A B. apply Endf_Spec.rows_last; [discriminate|cbn; lia|]. repeat constructor. exists (Endf_Props.int a), (Endf_Props.int b). split; [reflexivity|]. split; apply Endf_Props.int_ok; assumption. }
  split; [|split; [|split]].
  - do 13 eexists. split; [reflexivity|]. split; [apply Endf_Props.ctl_ok; Endf_Props.lens|]. split; [apply Endf_Props.ctl_ok; Endf_Props.lens|]. split; [lia | reflexivity].
  - do 6 eexists. exists [(1, 2)%Z]. split; [reflexivity|]. split; [apply Endf_Props.ctl_ok; Endf_Props.lens|]. apply RI; Endf_Props.lens.
  - constructor; [|constructor]. do 6 eexists. split; [reflexivity|]. cbn [fst snd]. split; [apply Endf_Props.ctl_ok; Endf_Props.lens|]. apply Endf_Props.C36_hypotheses_met.
  - constructor; [|constructor]. exists (hd [] ex_tab), (firstn 1 (tl ex_tab)), (tl (tl ex_tab)). do 4 eexists. exists 4%Z. split; [reflexivity|]. split; [constructor|]. split; [repeat constructor; discriminate|].
    split; [apply Endf_Props.ctl_ok; Endf_Props.lens|]. split; [apply RI; Endf_Props.lens|]. apply Endf_Props.C36_hypotheses_met.
Qed.
