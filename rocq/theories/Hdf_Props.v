(** Products and their distributions in HDF5, theorems. *)
From Coq Require Import ZArith QArith Qcanon List Bool Arith Lia String.
From Verif Require Import Num Neut_Model Neut_Spec Law_Model Law_Spec Hdf_Model Hdf_Spec Hdf_Proofs.
From Verif Require Cont_Model Cont_Spec Ang_Model Ang_Spec Law_Proofs Law_Props.
Import ListNotations.
Local Open Scope list_scope.
Local Open Scope nat_scope.

(** A product can be written, and what is read back is that product: particle, emission mode,
    decay rate, yield, the functions saying where its distributions apply, and every
    distribution with its numbers.  Without the isotropic and the logarithmic, it is the same. *)
Theorem C70_product : forall p, product_fine p -> exists n p', product_node p group = Some n /\ product_of n = Some p' /\ kept_product p p' /\ (plain_product p -> p' = p).
Proof. exact product_back. Qed.
Print Assumptions C70_product.
(** So can a distribution. *)
Theorem C70_law : forall d, law_fine d -> exists n d', law_node d group = Some n /\ law_of n = Some d' /\ kept_law d d' /\ (plain_law d -> d' = d).
Proof. intros d F. destruct (law_back d None F) as (n & d' & A & B & C & _ & D). exists n, d'. auto. Qed.
Print Assumptions C70_law.
(** A law standing in an ACE table is read, written and read back. *)
Theorem C70_ace : forall awr x l start q t, law_stands x l start t -> Law_Spec.law_fine awr t -> told_stored t -> (forall n m, t = TNBody n m -> q <> None) ->
  exists d n d', law_from_ace awr x l start q = Some d /\ law_read awr q t d /\ law_node (d, None) group = Some n /\ law_of n = Some d' /\ kept_law (d, None) d'.
Proof. exact ace_kept. Qed.
Print Assumptions C70_ace.
(** Functions for some distributions only: the product is not written. *)
Lemma few app : app <> [] -> forall ds i n, length app < i + length ds -> i <= length app -> write_dists i app ds n = None.
Proof.
  intros N. induction ds as [|d ds IH]; intros i n L M; cbn [length] in L; [lia|]. cbn [write_dists]. destruct app as [|f app]; [congruence|].
  destruct (nth_error (f :: app) i) as [g|] eqn:E; [|reflexivity]. assert (S i <= length (f :: app)) by (apply nth_error_Some; congruence).
  destruct (fn_node g); [|reflexivity]. destruct (create _ _ group); [|reflexivity]. destruct (law_node d _); [|reflexivity]. destruct (create _ _ n); [|reflexivity]. apply IH; [cbn [length] in *; lia|assumption].
Qed.
Theorem C70_some : forall p n, p_app p <> [] -> length (p_app p) < length (p_dist p) -> product_node p n = None.
Proof.
  intros p n N L. unfold product_node. destruct (yield_node (p_yield p)); [|reflexivity]. destruct (create "yield" _ _); [|reflexivity]. apply few; [exact N | exact L | lia].
Qed.
Print Assumptions C70_some.

(** *** Not so *)
(** A product read has no negative decay rate. *)
Theorem C70_rate : forall n p, product_of n = Some p -> (0 <= p_rate p)%Qc /\ (attr n "decay_rate" = None -> p_rate p = 0%Qc).
Proof.
  intros n p E. unfold product_of in E. destruct (str _); [|discriminate]. destruct (particle_of _); [|discriminate]. destruct (str _); [|discriminate]. destruct (mode_of _); [|discriminate].
  destruct (match attr n "decay_rate" with None => _ | Some _ => _ end) as [rate|] eqn:R; [|discriminate]. destruct (qltb rate 0) eqn:L; [discriminate|].
  destruct (kid n "yield"); [|discriminate]. destruct (yield_of _); [|discriminate]. destruct (integer _); [|discriminate]. destruct (all_some _); [|discriminate].
  injection E as <-. cbn [p_rate]. split.
  - apply Qcnot_lt_le. intros C. apply qltb_lt in C. congruence.
  - intros A. rewrite A in R. now injection R.
Qed.
Print Assumptions C70_rate.
(** Not true: what is written can be read.  A Madland-Nix spectrum is written, and never read. *)
Theorem C70_madland_refuted : forall efl efh tm, fn_fine tm -> exists n, law_node (Uncorrelated (Some (Madland efl efh tm)), None) group = Some n /\ law_of n = None.
Proof.
  intros efl efh tm F. destruct (fn_back tm F) as (k & E & _). cbn [law_node energy_node]. rewrite E. eexists. split; reflexivity.
Qed.
Print Assumptions C70_madland_refuted.
(** Nor a negative density, in a continuous or in a Kalbach-Mann spectrum; the latter are read
    from ACE. *)
Theorem C70_negative_refuted :
  (forall bp it es ds n d i c t, law_node (Uncorrelated (Some (Continuous bp it es ds)), None) group = Some n -> length es = length ds -> In d ds -> continuous_in d i c -> In t c -> (Cont_Model.pp t < 0)%Qc -> law_of n = None) /\
  (forall bp it es ds r s a n d i c t, law_node (Kalbach bp it es ds r s, a) group = Some n -> length es = length ds -> In d ds -> continuous_in d i c -> In t c -> (Cont_Model.pp t < 0)%Qc -> law_of n = None) /\
  (forall awr x l start q i out s, law_stands x l start (TKalbach i out) -> Law_Spec.law_fine awr (TKalbach i out) -> In s out -> ~ Law_Spec.nonnegative (sp_cont (fst s)) ->
    exists d n, law_from_ace awr x l start q = Some d /\ law_node (d, None) group = Some n /\ law_of n = None).
Proof. split; [exact continuous_lost|]. split; [exact kalbach_lost | exact ace_lost]. Qed.
Print Assumptions C70_negative_refuted.
(** Not true: what is read can be written.  Two spectra of ENDF cannot, nor correlated
    distributions with lines and a continuous part, which are read from ACE. *)
Lemma mixed bp it es ds mus a w u i c : In (Cont_Model.Mix w u i c) ds -> law_node (Correlated bp it es ds mus, a) group = None.
Proof.
  intros I0. cbn [law_node]. unfold correlated_node. destruct (incident_node bp it es _); [|reflexivity].
  assert (E : forallb has_x ds = false).
  { destruct (forallb has_x ds) eqn:E; [|reflexivity]. rewrite forallb_forall in E. specialize (E _ I0). discriminate. }
  now rewrite E.
Qed.
Theorem C70_unwritten_refuted :
  (forall f g u es pdf a, law_node (Uncorrelated (Some (General f g u)), a) group = None /\ law_node (Uncorrelated (Some (Arbitrary es pdf)), a) group = None) /\
  (forall awr x l start q i out s, law_stands x l start (TCorrelated i out) -> Law_Spec.law_fine awr (TCorrelated i out) -> In s out -> sp_lines (fst s) <> [] -> sp_cont (fst s) <> [] ->
    exists d, law_from_ace awr x l start q = Some d /\ law_node (d, None) group = None).
Proof.
  split.
  - intros f g u es pdf a. cbn [law_node energy_node]. destruct a as [a|]; [|auto]. destruct (angle_node a); [|auto]. destruct (create "angle" _ _); auto.
  - intros awr x l start q i out s S F I0 N1 N2. destruct (Law_Proofs.reads awr x l start q _ S F) as (d & E & R); [discriminate|]. destruct d as [| |bp it es ds mus|]; cbn [law_read] in R; try contradiction. destruct R as (_ & _ & R & _).
    exists (Correlated bp it es ds mus). split; [exact E|].
    assert (X : exists d, In d ds /\ spectrum_read (fst s) d).
    { clear - R I0. revert ds R. induction out as [|y out IH]; intros ds R; [contradiction|]. inversion R as [|? d ? ds' A B]; subst. destruct I0 as [->|I0]; [exists d; split; [now left | exact A]|]. destruct (IH I0 ds' B) as (d' & P & Q). exists d'. split; [now right | exact Q]. }
    destruct X as (d & D & X). unfold spectrum_read in X. destruct d as [j c|c|w u j c]; cbn [Cont_Spec.ace_dist] in X; [destruct X; contradiction | destruct X as (_ & X & _); contradiction|]. now apply (mixed _ _ _ _ _ _ w u j c).
Qed.
Print Assumptions C70_unwritten_refuted.
(** Not true: the angles set on a distribution are in the file.  Those of other than
    uncorrelated ones (reaction.py:1085) leave no trace. *)
Theorem C70_angle_refuted : forall d a n, (forall e, d <> Uncorrelated e) -> law_node (d, Some a) n = law_node (d, None) n.
Proof. intros d a n N. destruct d as [e| | |]; [now destruct (N e) | reflexivity..]. Qed.
Print Assumptions C70_angle_refuted.

(** *** Examples *)
Definition ex_fn : fn := linear [qz 1; qz 2] [qz 1; qc 1 2].
Definition ex_lines : list Cont_Model.point := [(qz 1, qc 1 4, qc 1 4)].
Definition ex_cont : list Cont_Model.point := [(qz 2, qz 1, qc 1 4); (qz 3, qc 1 2, qz 1)].
Definition ex_mix : Cont_Model.dist := Cont_Model.Mix [qc 1 4; (1 - qc 1 4)%Qc] ex_lines Cont_Model.LinLin ex_cont.
Definition ex_angle : angle := ([qz 1], [Ang_Model.Tab Cont_Model.LinLin [(qz (-1), qc 1 2, qz 0); (qz 1, qc 1 2, qz 1)]]).
Definition ex_par : fn := linear [qz 1; qz 2; qz 3] [qz 0; qc 1 2; qz 1].
Definition ex_product : prod := mkProduct true Delayed (qc 1 3) (Tabd ex_fn) [ex_fn; ex_fn; ex_fn]
  [(Uncorrelated (Some (Continuous [2%Z] [2%Z] [qz 1; qz 2] [ex_mix; Cont_Model.Disc ex_lines])), Some ex_angle);
   (Kalbach [1%Z] [2%Z] [qz 1] [ex_mix] [ex_par] [ex_par], None);
   (Correlated [1%Z] [2%Z] [qz 1] [Cont_Model.Tab Cont_Model.Histogram ex_cont] [[Lines ex_lines; Cos Cont_Model.LinLin ex_cont]], None)].
Lemma ex_mix_fit : Cont_Spec.fit ex_mix /\ Cont_Spec.plainly ex_mix.
Proof.
  assert (W : Cont_Spec.lines_weight ex_lines (qc 1 4)) by (exists (qz 1, qc 1 4, qc 1 4), []; split; reflexivity).
  split; [split; [repeat constructor; discriminate|]; split; [repeat constructor; discriminate|]; split; [discriminate|]; exists (qc 1 4); split; [exact W | split; discriminate]|]. split; [now right | exists (qc 1 4); split; [exact W | reflexivity]].
Qed.
Example C70_product_hypotheses_met : product_fine ex_product /\ plain_product ex_product.
Proof.
  destruct ex_mix_fit as [MF MP]. split.
  - split; [discriminate|]. split; [reflexivity|]. split; [|split; [right; cbn; lia | repeat constructor]]. constructor; [|constructor; [|constructor; [|constructor]]].
    + split; [split; [reflexivity|]; split; [reflexivity|]; constructor; [exact MF|]; constructor; [split; [discriminate | repeat constructor; discriminate] | constructor]|]. split; [reflexivity | repeat constructor; discriminate].
    + split; [split; [reflexivity|]; split; [reflexivity|]; constructor; [exact MF | constructor]|]. split; repeat constructor.
    + split; [split; [reflexivity|]; split; [reflexivity|]; constructor; [split; [discriminate | now left] | constructor]|]. split; [constructor; [discriminate | constructor]|]. split; repeat constructor; discriminate.
  - split; [|cbn; lia]. constructor; [|constructor; [|constructor; [|constructor]]].
    + split; [constructor; [exact MP | repeat constructor] | constructor; [now right | constructor]].
    + split; [constructor; [exact MP | constructor]|]. split; [repeat constructor|]. split; [repeat constructor | reflexivity].
    + split; [constructor; [now left | constructor]|]. split; [|reflexivity]. constructor; [|constructor]. constructor; [exact I|]. constructor; [now right | constructor].
Qed.
Example C70_product_example : exists n, product_node ex_product group = Some n /\ product_of n = Some ex_product.
Proof. destruct C70_product_hypotheses_met as [F P]. destruct (C70_product _ F) as (n & p' & A & B & _ & C). exists n. split; [exact A|]. now rewrite <- (C P). Qed.
(** One function for three distributions. *)
Example C70_some_hypotheses_met : let p := mkProduct (D := law) (A := angle) true Prompt 0%Qc (Poly [qz 1]) [ex_fn] (p_dist ex_product) in p_app p <> [] /\ length (p_app p) < length (p_dist p).
Proof. split; [discriminate | cbn; lia]. Qed.
(** A table with a Kalbach-Mann law and a correlated one. *)
Definition ex_sp : spectrum := mkSp 1 [] [(qz 1, qz 1, qz 0); (qz 2, qc (-1) 2, qz 1)].
Definition ex_x : list Qc := [qz 0]
  ++ [qz 0; qz 44; qz 4] (* 1 *) ++ in_words (mkIn [] [] [qz 1]) [8%Z] (* 4 *) ++ sp_words Law_Props.sp1 [[qz 0; qc 1 2; qz 1]; [qz 3; qz 4; qz 5]] (* 8 *)
  ++ [qz 0; qz 61; qz 28] (* 25 *) ++ in_words (mkIn [] [] [qz 2]) [32%Z] (* 28 *) ++ sp_words ex_sp [map qz [0; 42]%Z] (* 32 *) ++ qz 2 :: qz 2 :: [qz (-1); qz 1] ++ [qc 1 2; qc 1 2] ++ [qz 0; qz 1] (* 42 *).
Definition ex_kalbach := TKalbach (mkIn [] [] [qz 1]) [(Law_Props.sp1, ([qz 0; qc 1 2; qz 1], [qz 3; qz 4; qz 5]))].
Definition ex_correlated := TCorrelated (mkIn [] [] [qz 2]) [(ex_sp, [None; Some (2%Z, [(qz (-1), qc 1 2, qz 0); (qz 1, qc 1 2, qz 1)])])].
Ltac at_k k := apply (Law_Proofs.there ex_x _ k); [vm_compute; reflexivity|cbn; lia].
Example C70_ace_hypotheses_met : (law_stands ex_x 1 1 ex_kalbach /\ Law_Spec.law_fine (qz 10) ex_kalbach /\ told_stored ex_kalbach) /\ (law_stands ex_x 1 25 ex_correlated /\ Law_Spec.law_fine (qz 10) ex_correlated /\ told_stored ex_correlated).
Proof.
  split; (split; [|split]).
  - exists (qz 0), 44%Z, 4%Z. split; [at_k 1|]. split; [reflexivity|]. exists [8%Z]. split; [reflexivity|]. split; [at_k 4|]. repeat constructor. at_k 8.
  - split; [reflexivity|]. intros s [<-|[]]. split; [exact Law_Props.sp1_fine | split; reflexivity].
  - constructor; [|constructor]. split; [discriminate|]. split; [right; intros t [<-|[<-|[]]]; discriminate|]. intros _ _. split; [intros t [<-|[<-|[]]]; discriminate|]. exists (qc 1 4). split; [exists (qz 1, qc 1 4, qc 1 4), []; split; reflexivity | split; discriminate].
  - exists (qz 0), 61%Z, 28%Z. split; [at_k 25|]. split; [reflexivity|]. exists [32%Z]. split; [reflexivity|]. split; [at_k 28|]. constructor; [|constructor]. exists [0%Z; 42%Z]. split; [at_k 32|]. constructor; [cbn; lia|]. constructor; [|constructor]. split; [lia|at_k 42].
  - split; [reflexivity|]. intros s [<-|[]]. split; [split; [cbn; lia | intros t []]|]. split; [reflexivity|]. intros k pts [E|[E|[]]]; [discriminate E|]. injection E as <- <-. split; [lia|]. intros t [<-|[<-|[]]]; discriminate.
  - constructor; [|constructor]. split; [|now left]. split; [discriminate|]. split; [now left|]. intros N. now destruct N.
Qed.
(** The negative density of the Kalbach-Mann law, and the lines and continuous part of the
    correlated one, of the table of Law_Props.v. *)
Example C70_refuted_hypotheses_met : (law_stands Law_Props.ix 1 1 Law_Props.told_kalbach /\ Law_Spec.law_fine (qz 10) Law_Props.told_kalbach /\ ~ Law_Spec.nonnegative (sp_cont Law_Props.sp2)) /\
  (law_stands Law_Props.ix 1 41 Law_Props.told_correlated /\ Law_Spec.law_fine (qz 10) Law_Props.told_correlated /\ sp_lines Law_Props.sp1 <> [] /\ sp_cont Law_Props.sp1 <> []) /\ fn_fine ex_fn.
Proof.
  destruct Law_Props.C69_read_hypotheses_met as ((A & B) & (C & D) & _). destruct Law_Props.C69_negative_hypotheses_met as (_ & _ & N & _).
  split; [auto|]. split; [|reflexivity]. split; [exact C|]. split; [exact D|]. split; discriminate.
Qed.
