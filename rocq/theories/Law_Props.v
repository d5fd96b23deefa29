(** Secondary distributions read from an ACE table, theorems. *)
From Coq Require Import ZArith QArith Qcanon List Bool Arith Lia.
From Verif Require Import Num Neut_Model Neut_Spec Neut_Proofs Nubar_Spec Nubar_Proofs Nubar_Props Law_Model Law_Spec Law_Proofs.
From Verif Require Cont_Model Cont_Spec.
Import ListNotations.
Local Open Scope Z_scope.

(** A law standing in the table is read as what it says, in eV; the N-body law if a reaction
    is handed over. *)
Theorem C69_read : forall awr x l start q t, law_stands x l start t -> law_fine awr t -> (forall n m, t = TNBody n m -> q <> None) ->
  exists d, law_from_ace awr x l start q = Some d /\ law_read awr q t d.
Proof. exact reads. Qed.
Print Assumptions C69_read.
(** The probability under the continuous part of every spectrum read is that of the file,
    with the interpolation and the number of points of the file. *)
Theorem C69_area : forall awr x l start q t d, law_stands x l start t -> law_fine awr t -> (forall n m, t = TNBody n m -> q <> None) -> law_from_ace awr x l start q = Some d ->
  Forall2 (fun s e => forall i c, continuous_in e i c -> area i c = area i (sp_cont s) /\ i = (if sp_int s =? 1 then Cont_Model.Histogram else Cont_Model.LinLin) /\ length c = length (sp_cont s)) (spectra_told t) (spectra_of d).
Proof.
  intros awr x l start q t d S F Q E. destruct (reads awr x l start q t S F Q) as (d' & E' & R). rewrite E in E'. injection E' as <-. apply spectra in R. revert R. apply F2_impl. intros s e R i c. apply continuous_area, R.
Qed.
Print Assumptions C69_area.
(** Other laws are not read; the N-body law not without a reaction (photons, delayed
    neutrons); a tabulated spectrum (law 4) not with a negative density in its continuous
    part. *)
Theorem C69_unsupported : forall awr x l start q next number place, stands x (l + start - 1) [next; qz number; qz place] ->
  ~ In number [2; 3; 33; 4; 7; 9; 11; 44; 61; 66] -> law_from_ace awr x l start q = None.
Proof. exact unsupported. Qed.
Print Assumptions C69_unsupported.
Theorem C69_nbody_alone : forall awr x l start n m, law_stands x l start (TNBody n m) -> law_from_ace awr x l start None = None.
Proof. exact nbody_alone. Qed.
Print Assumptions C69_nbody_alone.
Theorem C69_negative : forall awr x l start q i out s, law_stands x l start (TContinuous i out) -> in_fine i -> In s out -> 0 <= sp_int s < 10 -> ~ nonnegative (sp_cont s) ->
  law_from_ace awr x l start q = None.
Proof. exact negative_refused. Qed.
Print Assumptions C69_negative.
(** Reading a whole table: the laws of the chain of a reaction become the distributions of
    its first product, in their order; the Q value of an N-body law is that of the
    reaction. *)
Theorem C69_products : forall A (R : readers law A) awr a c n x i h lnw l loc ts, (forall y j s q, dist_at R y j s q = law_from_ace awr y j s q) ->
  says a c -> apart a c -> listed_once c -> from_ace R a = Some (n, x) ->
  nth_error (c_channels c) i = Some h -> ~ ignored (c_mt h) -> (c_ty h = 19 -> fissions (c_mt h) /\ exists f, tells a c f) -> emits a i ->
  kept a c (jxs a 10 + Z.of_nat i) [qz lnw] -> chained a c lnw l -> kept a c (jxs a 8 + Z.of_nat i + 1) [qz loc] ->
  Forall2 (fun e t => (forall y, partly a c y -> law_stands y (jxs a 11) (fst e) t) /\ law_fine awr t) l ts ->
  exists p ps ds, products_of n (c_mt h) (p :: ps) ds /\ p_app p = map (fun e => in_ev (snd e)) l /\
    Forall2 (fun t d => law_read awr (Some (c_q h * qz 1000000)%Qc) t (fst d)) ts (p_dist p).
Proof.
  intros A R awr a c n x i h lnw l loc ts D S P O OK E Ig Ty Em K1 Ch K2 F. destruct (C65_laws _ _ R a c n x i h lnw l loc S P O OK E Ig Ty Em K1 Ch K2) as (x' & p & ps & ds & Pa & PO & Ap & F2 & _).
  exists p, ps, ds. split; [exact PO|]. split; [exact Ap|]. clear - D Pa F F2. revert ts F. induction F2 as [|e d l ds H F2 IH]; intros ts F; inversion F as [|e' t l' ts' [T1 T2] Ft]; subst; constructor; [|now apply IH].
  rewrite D in H. destruct (reads awr x' (jxs a 11) (fst e) (Some (c_q h * qz 1000000)%Qc) t (T1 x' Pa) T2) as (d' & E' & Rd); [discriminate|]. rewrite H in E'. injection E' as <-. exact Rd.
Qed.
Print Assumptions C69_products.

(** ** A block *)
Definition sp1 : spectrum := mkSp 2 [(qz 1, qc 1 4, qc 1 4)] [(qz 2, qz 1, qc 1 4); (qc 5 2, qz 2, qz 1)].
Definition sp2 : spectrum := mkSp 1 [] [(qz 1, qz 1, qz 0); (qz 2, qz (-1), qz 1)].
Definition ix : list Qc := [qz 0]
  ++ [qz 0; qz 44; qz 4] (* 1 *) ++ in_words (mkIn [2] [2] [qz 1; qz 3]) [12; 29] (* 4 *) ++ sp_words sp1 [[qz 0; qc 1 2; qz 1]; [qz 3; qz 4; qz 5]] (* 12 *) ++ sp_words sp2 [[qz 0; qz 1]; [qz 2; qz 2]] (* 29 *)
  ++ [qz 0; qz 61; qz 44] (* 41 *) ++ in_words (mkIn [] [] [qz 2]) [49] (* 44 *) ++ [qz 0] ++ sp_words sp1 [map qz [0; -1; 63]] (* 49 *) ++ qz 2 :: qz 2 :: [qz (-1); qz 1] ++ [qc 1 2; qc 1 2] ++ [qz 0; qz 1] (* 63 *)
  ++ [qz 0; qz 11; qz 74] (* 71 *) ++ table_words (flat 1 (qz 2)) ++ table_words (flat (qz 2) 1) ++ [qc (-1) 10] (* 74 *)
  ++ [qz 0; qz 33; qz 90; qz 2; qc 1 2] (* 87 *)
  ++ [qz 0; qz 4; qz 95] (* 92 *) ++ in_words (mkIn [] [] [qz 2]) [29] (* 95 *)
  ++ [qz 0; qz 5; qz 90] (* 99 *) ++ [qz 0; qz 66; qz 105; qz 3; qz 2] (* 102 *) ++ [qz 0; qz 2; qz 110; qz 1; qz 3] (* 107 *).
Ltac at_k k := apply (there ix _ k); [vm_compute; reflexivity|cbn; lia].
Definition told_kalbach := TKalbach (mkIn [2] [2] [qz 1; qz 3]) [(sp1, ([qz 0; qc 1 2; qz 1], [qz 3; qz 4; qz 5])); (sp2, ([qz 0; qz 1], [qz 2; qz 2]))].
Definition told_correlated := TCorrelated (mkIn [] [] [qz 2]) [(sp1, [None; None; Some (2, [(qz (-1), qc 1 2, qz 0); (qz 1, qc 1 2, qz 1)])])].
Definition told_watt := TWatt (flat 1 (qz 2)) (flat (qz 2) 1) (qc (-1) 10).
Lemma sp1_fine : sp_fine sp1. Proof. split; [cbn; lia|]. intros t [<-|[]]. discriminate. Qed.
Lemma sp2_fine : sp_fine sp2. Proof. split; [cbn; lia|]. intros t []. Qed.
Example C69_read_hypotheses_met : (law_stands ix 1 1 told_kalbach /\ law_fine (qz 10) told_kalbach) /\ (law_stands ix 1 41 told_correlated /\ law_fine (qz 10) told_correlated) /\
  (law_stands ix 1 71 told_watt /\ law_fine (qz 10) told_watt) /\ law_stands ix 1 87 (TLevel (qz 2) (qc 1 2)) /\ law_stands ix 1 107 (TPhoton 1 (qz 3)).
Proof.
  split; [split|split; [split|split; [split|split]]].
  - exists (qz 0), 44, 4. split; [at_k 1%nat|]. split; [reflexivity|]. exists [12; 29]. split; [reflexivity|]. split; [at_k 4%nat|]. repeat constructor; [at_k 12%nat|at_k 29%nat].
  - split; [reflexivity|]. intros s [<-|[<-|[]]]; (split; [exact sp1_fine || exact sp2_fine|split; reflexivity]).
  - exists (qz 0), 61, 44. split; [at_k 41%nat|]. split; [reflexivity|]. exists [49]. split; [reflexivity|]. split; [at_k 44%nat|]. constructor; [|constructor]. exists [0; -1; 63]. split; [at_k 49%nat|]. constructor; [cbn; lia|]. constructor; [cbn; lia|]. constructor; [|constructor]. split; [lia|at_k 63%nat].
  - split; [reflexivity|]. intros s [<-|[]]. split; [exact sp1_fine|]. split; [reflexivity|]. intros k pts [E|[E|[E|[]]]]; try discriminate E. injection E as <- <-. split; [lia|]. intros t [<-|[<-|[]]]; discriminate.
  - exists (qz 0), 11, 74. split; [at_k 71%nat|]. split; [reflexivity|]. at_k 74%nat.
  - repeat split; reflexivity.
  - exists (qz 0), 33, 90. split; [at_k 87%nat|]. split; [now right|]. at_k 90%nat.
  - exists (qz 0), 2, 110. split; [at_k 107%nat|]. split; [reflexivity|]. at_k 110%nat.
Qed.
(** A Kalbach-Mann law with a negative density is read; the same spectrum is refused in
    law 4; law 5 and an N-body law without a reaction are refused. *)
Example C69_negative_hypotheses_met : law_from_ace (qz 10) ix 1 1 None <> None /\ law_stands ix 1 92 (TContinuous (mkIn [] [] [qz 2]) [sp2]) /\ ~ nonnegative (sp_cont sp2) /\
  stands ix (1 + 99 - 1) [qz 0; qz 5; qz 90] /\ law_stands ix 1 102 (TNBody 3 (qz 2)) /\ law_fine (qz 10) (TNBody 3 (qz 2)).
Proof.
  split; [vm_compute; discriminate|]. split; [|split; [|split; [|split]]].
  - exists (qz 0), 4, 95. split; [at_k 92%nat|]. split; [reflexivity|]. exists [29]. split; [reflexivity|]. split; [at_k 95%nat|]. repeat constructor. destruct C69_read_hypotheses_met as [[(? & ? & ? & _ & _ & Hd) _] _]. apply (there ix _ 29%nat); [vm_compute; reflexivity|cbn; lia].
  - intros N. apply (Qcle_not_lt _ _ (N _ (or_intror (or_introl eq_refl)))). reflexivity.
  - at_k 99%nat.
  - exists (qz 0), 66, 105. split; [at_k 102%nat|]. split; [reflexivity|]. at_k 105%nat.
  - repeat split.
Qed.
Example C69_area_example : exists bp it es ds r a, law_from_ace (qz 10) ix 1 1 None = Some (Kalbach bp it es ds r a) /\ exists w b c, nth_error ds 0 = Some (Cont_Model.Mix w b Cont_Model.LinLin c) /\ area Cont_Model.LinLin c = qc 3 4.
Proof.
  pose proof C69_read_hypotheses_met as ((St & Fi) & _). destruct (C69_read (qz 10) ix 1 1 None told_kalbach St Fi) as (d & E & R); [discriminate|]. pose proof (C69_area _ _ _ _ _ _ _ St Fi (fun n m (e : told_kalbach = TNBody n m) => ltac:(discriminate e)) E) as F.
  destruct d as [| bp it es ds r a | |]; cbn [law_read told_kalbach] in R; try now destruct R. exists bp, it, es, ds, r, a. split; [exact E|]. destruct R as (_ & _ & R & _). inversion R as [|s d l' ds' R1 R2]; subst. destruct d as [|b|w b i c]; cbn in R1; try now destruct R1. destruct R1 as (_ & _ & -> & _).
  exists w, b, c. split; [reflexivity|]. cbn [spectra_told spectra_of told_kalbach map fst] in F. inversion F as [|s e l1 l2 F1 F2]; subst. destruct (F1 Cont_Model.LinLin c) as (Ar & _); [right; now exists w, b|]. rewrite Ar. apply Qc_is_canon. reflexivity.
Qed.

(** ** A table with laws: (n,2n) with an N-body law and a tabulated one, anything with a
    Maxwell spectrum, delayed neutrons with a level *)
Definition tx_dlw : list Qc := (qz 0 :: qz 7 :: qz 74 :: table_words (flat 1 1)) ++ (qz 19 :: qz 66 :: qz 81 :: table_words (flat 1 0)) ++ (qz 0 :: qz 4 :: qz 83 :: table_words (flat 0 1)) ++ table_words (flat (qz 1) (qz 2)).
Definition tx_words : list Qc :=
  [qz 0; qz 0; qz (-1); qz 1] ++ [qz 1; qz 10; qz 1] ++ tx_dlw ++ ex_nu ++ qz 2 :: table_words (flat (qc 1 10) (qc 1 10)) ++ concat (map group_words ex_groups) ++ [qz 1; qz 1]
  ++ [qz 0; qz 3; qz 4; qz 2; qc 1 2] (* 75 *) ++ (table_words (flat 1 (qz 2)) ++ [qc (-1) 10]) (* 80 *) ++ [qz 3; qz 2] (* 87 *) ++ in_words (mkIn [] [] [qz 1; qz 3]) [89; 100] (* 89 *) ++ sp_words sp1 [] (* 95 *)
  ++ sp_words (mkSp 1 [] [(qz 1, qz 1, qz 0); (qz 2, qz 0, qz 1)]) [] (* 106 *).
Definition tx_a : ace := mkAce ex_nxs (ex_jxs 40 52 59 73) (xss (lay ex_c) ++ tx_words).
Definition tx_readers : readers law unit := mkReaders law unit (fun _ _ _ _ _ _ => 0%Qc) (law_from_ace (qz 10)) (fun _ => true) (Uncorrelated None) (fun _ _ _ => Some tt) (fun _ _ => tt) (fun _ => None).
Lemma tx_kept k l : firstn (length l) (skipn k tx_words) = l -> (k <= length tx_words)%nat -> kept tx_a ex_c (ex_at + Z.of_nat k) l.
Proof. apply (ex_kept 40 52 59 73). Qed.
Example C69_products_hypotheses_met : says tx_a ex_c /\ apart tx_a ex_c /\ listed_once ex_c /\ (exists n x, from_ace tx_readers tx_a = Some (n, x)) /\ emits tx_a 1 /\
  kept tx_a ex_c (jxs tx_a 10 + Z.of_nat 1) [qz 10] /\ chained tx_a ex_c 10 [(10, flat 1 0); (19, flat 0 1)] /\ kept tx_a ex_c (jxs tx_a 8 + Z.of_nat 1 + 1) [qz (-1)] /\
  Forall2 (fun e t => (forall y, partly tx_a ex_c y -> law_stands y (jxs tx_a 11) (fst e) t) /\ law_fine (qz 10) t) [(10, flat 1 0); (19, flat 0 1)]
    [TNBody 3 (qz 2); TContinuous (mkIn [] [] [qz 1; qz 3]) [sp1; mkSp 1 [] [(qz 1, qz 1, qz 0); (qz 2, qz 0, qz 1)]]].
Proof.
  assert (K : forall k l, firstn (length l) (skipn k tx_words) = l -> (k <= 114)%nat -> kept tx_a ex_c (ex_at + Z.of_nat k) l) by (intros k l E L; apply tx_kept; [exact E|cbn; lia]).
  assert (St : forall y, partly tx_a ex_c y -> forall k l, firstn (length l) (skipn k tx_words) = l -> (k <= 114)%nat -> stands y (ex_at + Z.of_nat k) l) by (intros y Py k l E L; apply (partly_kept tx_a ex_c); auto).
  split; [apply (put_says ex_c _ _ _ ex_consistent ex_hn (ex_hj 40 52 59 73))|]. split; [apply (put_apart ex_c _ _ _ ex_consistent (ex_hj 40 52 59 73))|]. split; [exact ex_once|].
  split; [apply is_some; vm_compute; reflexivity|]. split; [reflexivity|]. split; [apply (K 5%nat); [reflexivity|lia]|]. split.
  { apply ch_law with (next := 19); [lia|split; reflexivity|apply (K 16%nat); [reflexivity|lia]|apply (K 19%nat); [reflexivity|lia]|].
    apply ch_law with (next := 0); [lia|split; reflexivity|apply (K 25%nat); [reflexivity|lia]|apply (K 28%nat); [reflexivity|lia]|]. apply ch_end. lia. }
  split; [apply (K 2%nat); [reflexivity|lia]|]. constructor; [|constructor; [|constructor]].
  - split; [|repeat split]. intros y Py. exists (qz 19), 66, 81. split; [apply (St y Py 16%nat); [reflexivity|lia]|]. split; [reflexivity|]. apply (St y Py 87%nat); [reflexivity|lia].
  - split.
    + intros y Py. exists (qz 0), 4, 83. split; [apply (St y Py 25%nat); [reflexivity|lia]|]. split; [reflexivity|]. exists [89; 100]. split; [reflexivity|]. split; [apply (St y Py 89%nat); [reflexivity|lia]|]. constructor; [apply (St y Py 95%nat); [reflexivity|lia]|]. constructor; [apply (St y Py 106%nat); [reflexivity|lia]|constructor].
    + split; [reflexivity|]. intros s [<-|[<-|[]]]; split; try exact sp1_fine; (split; [cbn; lia|]) || idtac; intros t Ht; cbn in Ht; decompose [or] Ht; subst; try contradiction; discriminate.
Qed.
