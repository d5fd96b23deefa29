(** Property theorems C15-C18: the sampling front end. *)
From Verif Require Import XNum Text Sampler_Model Sampler_Spec Sampler_Proofs.
Local Open Scope nat_scope.

(** C15: with remove_neg the table is that of exactly the good samples, in
    order, unaltered, minus the groups undefined in a kept sample. *)
Theorem C15_keeps_exactly_good : forall samples mean,
  let kept := filter (goodb mean) samples in
  let f := sample_check samples mean true in
  cols f = filter (fun i => goodb mean (nth i samples [])) (seq 0 (length samples)) /\
  rows f = filter no_nan (map (row_of mean kept) (seq 0 (length mean))).
Proof. exact check_keeps. Qed.
Print Assumptions C15_keeps_exactly_good.

Theorem C15_goodb_is_good : forall mean s, goodb mean s = true <-> good mean s.
Proof. exact goodb_good. Qed.
Print Assumptions C15_goodb_is_good.

Theorem C15_keeps_all_without_flag : forall samples mean,
  let f := sample_check samples mean false in
  cols f = seq 0 (length samples) /\ rows f = map (row_of mean samples) (seq 0 (length mean)).
Proof. exact check_all. Qed.
Print Assumptions C15_keeps_all_without_flag.

(** Finite samples and non-zero means: all groups stay, labelled 1..n. *)
Theorem C15_all_groups_kept : forall mean samples, regular mean samples ->
  map fst (rows (sample_check samples mean true)) = seq 1 (length mean).
Proof. exact regular_groups. Qed.
Print Assumptions C15_all_groups_kept.

(** A group undefined in a kept sample is dropped from the whole table. *)
Theorem C15_undefined_group_dropped : forall mean samples g,
  g < length mean -> (exists s, In s samples /\ good mean s /\ rel_value mean s g = NaN) ->
  ~ In (S g) (map fst (rows (sample_check samples mean true))).
Proof. exact nan_group_dropped. Qed.
Print Assumptions C15_undefined_group_dropped.

Definition m3 := [Fin (qz 2); Fin (qz 0); Fin (qz 4)].
Definition s3 := [[Fin (qz 2); Fin (qz 0); Fin (qz 4)]; [Fin (qz (-1)); Fin (qz 1); Fin (qz 1)]; [Fin (qz 4); Fin (qz 5); Fin (qz 2)]].
Example C15_hypotheses_met :
  regular [Fin (qz 2); Fin (qz 4)] [[Fin (qz 1); Fin (qz (-3))]; [Fin (qz 1); Fin (qz 3)]] /\
  cols (sample_check s3 m3 true) = [0; 2] /\
  map fst (rows (sample_check s3 m3 true)) = [1; 3] /\
  (exists s, In s s3 /\ good m3 s /\ rel_value m3 s 1 = NaN).
Proof.
  split.
  { split.
    - intros g Hg. cbn in Hg. destruct g as [|[|g]]; [exists (qz 2)|exists (qz 4)|lia];
        (split; [reflexivity|intros E; apply (f_equal this) in E; discriminate]).
    - intros s g [<-|[<-|[]]] Hg; cbn in Hg; (destruct g as [|[|g]]; [| |lia]); cbn; eauto. }
  split; [vm_compute; reflexivity|]. split; [vm_compute; reflexivity|].
  exists [Fin (qz 2); Fin (qz 0); Fin (qz 4)]. split; [now left|]. split; [|vm_compute; reflexivity].
  apply goodb_good. vm_compute. reflexivity.
Qed.

(** C16: names accepted, in any letter case. *)
Theorem C16_accepts_iff : forall draw mean st num rb rn rr z,
  (sample draw mean st num rb rn rr z = SRaise NotImplemented <-> ~ In (lower st) the_names).
Proof.
  intros. rewrite <- choose_names. unfold sample. destruct (choose st) as [[c d]|].
  - split; [|intros H; exfalso; eauto]. destruct ((_ <? _) && rb); discriminate.
  - split; [intros _ (c & d & H); discriminate|reflexivity].
Qed.
Print Assumptions C16_accepts_iff.

(** A name, in any letter case, decides the distribution and whether the stored
    correlation is used; other draws do not matter. *)
Theorem C16_drawn : forall draw draw' mean st num rb rn rr z c d,
  In (lower st, (c, d)) the_kinds -> draw c d num = draw' c d num ->
  sample draw mean st num rb rn rr z = sample draw' mean st num rb rn rr z.
Proof. exact sample_drawn. Qed.
Print Assumptions C16_drawn.

(** Samples are numbered 0..k-1 with k at most the number requested. *)
Theorem C16_numbered : forall draw mean st num rb rn rr z f,
  (forall c d, length (draw c d num) = num) ->
  sample draw mean st num rb rn rr z = SOk f ->
  cols f = seq 0 (length (cols f)) /\ length (cols f) <= num /\ shaped f.
Proof. exact sample_ok. Qed.
Print Assumptions C16_numbered.

(** It raises exactly when asked to and a sample was dropped. *)
Theorem C16_raises_iff_dropped : forall draw mean st num rb rn (rr : bool) z c d,
  In (lower st, (c, d)) the_kinds -> length (draw c d num) = num ->
  let m := if rr then mean else repeat (Fin 1%Qc) (length mean) in
  ((exists k, sample draw mean st num rb rn rr z = SRaise (BadSamples k)) <->
   rb = true /\ rn = true /\ exists s, In s (draw c d num) /\ ~ good m s).
Proof. intros draw mean st num rb rn rr z c d H. exact (sample_raise draw mean st num rb rn rr z c d (choose_kind st c d H)). Qed.
Print Assumptions C16_raises_iff_dropped.

(** set_neg_to_zero changes only negative values, to zero. *)
Theorem C16_set_neg_to_zero : forall draw mean st num rn rr f,
  sample draw mean st num false rn rr false = SOk f ->
  exists f', sample draw mean st num false rn rr true = SOk f' /\
    cols f' = cols f /\ map fst (rows f') = map fst (rows f) /\
    forall g j, g < length (rows f) -> j < length (cols f) ->
      cell f' g j = if xneg (cell f g j) then Fin 0%Qc else cell f g j.
Proof. exact sample_zero. Qed.
Print Assumptions C16_set_neg_to_zero.

Definition ex_draw (c : bool) (d : dist) (n : nat) : list (list xnum) :=
  repeat [Fin (qz 1); Fin (qz (-3))] (n - 1) ++ (if n =? 0 then [] else [[Fin (qz 1); Fin (qz 3)]]).
Example C16_hypotheses_met :
  (forall n c d, length (ex_draw c d n) = n) /\
  In (lower (str "LogNormal"), (true, LogNormal)) the_kinds /\ ~ In (lower (str "gamma")) the_names /\
  sample ex_draw [Fin (qz 2); Fin (qz 4)] (str "LogNormal") 3 true true true false = SRaise (BadSamples 1) /\
  exists f, sample ex_draw [Fin (qz 2); Fin (qz 4)] (str "LogNormal") 3 false false true false = SOk f /\
            length (cols f) = 3.
Proof.
  split.
  { intros n c d. unfold ex_draw. rewrite app_length, repeat_length. destruct n as [|n]; [reflexivity|].
    cbn [Nat.eqb length]. lia. }
  split; [right; now left|]. split; [cbn; intuition discriminate|]. split; [vm_compute; reflexivity|].
  eexists. split; vm_compute; reflexivity.
Qed.

(** C17: what each relative cell is. *)
Theorem C17_relative_cell : forall draw mean st num rb rn rel full g j,
  (forall c d, length (draw c d num) = num) ->
  sample_xsec draw mean st num rb rn = SOk (rel, full) ->
  g < length mean -> j < length (cols full) ->
  (forall f m, cell full g j = Fin f -> nth g mean NaN = Fin m -> m <> 0%Qc ->
     exists r, cell rel g j = Fin r /\ (r * m = f)%Qc) /\
  (cell full g j = Fin 0%Qc -> nth g mean NaN = Fin 0%Qc -> cell rel g j = cell full g j).
Proof.
  intros draw mean st num rb rn rel full g j Hd H Hg Hj.
  pose proof (xsec_cell _ _ _ _ _ _ _ _ g j Hd H Hg Hj) as C. cbv zeta in C. split.
  - intros f m Ef Em Hm. rewrite Ef, Em in C. cbn in C. apply qeqb_neq in Hm as Hm'. rewrite Hm' in C. cbn in C.
    exists (f / m)%Qc. split; [exact C|]. unfold Qcdiv. rewrite <- Qcmult_assoc, (Qcmult_comm (/ m)), Qcmult_inv_r by exact Hm. ring.
  - intros Ef Em. rewrite Ef, Em in *. cbn in C. exact C.
Qed.
Print Assumptions C17_relative_cell.

Theorem C17_same_shape : forall draw mean st num rb rn rel full,
  (forall c d, length (draw c d num) = num) ->
  sample_xsec draw mean st num rb rn = SOk (rel, full) ->
  length (rows full) = length mean /\ length (rows rel) = length mean /\
  length (cols rel) = length (cols full).
Proof. intros. destruct (xsec_shape _ _ _ _ _ _ _ _ H H0) as (_ & A & B & C & _). auto. Qed.
Print Assumptions C17_same_shape.

(** "Every relative cell is finite" is false: a zero mean with a non-zero sample
    leaves an infinite factor in the table. *)
Theorem C17_always_finite_refuted : exists draw mean rel full,
  (forall n c d, length (draw c d n) = n) /\
  sample_xsec draw mean (str "normal") 1 false true = SOk (rel, full) /\
  cell full 0 0 = Fin (qz 3) /\ cell rel 0 0 = PInf.
Proof.
  exists (fun _ _ n => repeat [Fin (qz 3); Fin (qz 1)] n), [Fin 0%Qc; Fin (qz 2)].
  eexists. eexists. split; [intros; apply repeat_length|]. split; [reflexivity|]. split; reflexivity.
Qed.
Print Assumptions C17_always_finite_refuted.

Example C17_hypotheses_met : exists rel full,
  sample_xsec ex_draw [Fin (qz 2); Fin (qz 4)] (str "NORMAL") 3 false true = SOk (rel, full) /\
  length (cols full) = 1 /\ cell full 1 0 = Fin (qz 3) /\
  (exists r, cell rel 1 0 = Fin r /\ this r = (3 # 4)%Q).
Proof.
  eexists. eexists. split; [reflexivity|]. split; [reflexivity|]. split; [reflexivity|].
  eexists. split; [reflexivity|]. vm_compute. reflexivity.
Qed.

(** C18: normalisation of the stored correlation. *)
Theorem C18_corr_normalised : forall b corr b' corr' m,
  lmax (diag corr) = Some m -> (0 < m)%Qc ->
  Forall (fun r => length r = length corr) corr ->
  load b corr = Some (b', corr') ->
  (forall i j, i < length corr -> j < length corr ->
     (nth j (nth i corr' []) 0 * m = nth j (nth i corr []) 0)%Qc) /\
  lmax (diag corr') = Some 1%Qc.
Proof. exact load_corr. Qed.
Print Assumptions C18_corr_normalised.

Theorem C18_lmax_is_largest : forall l m, lmax l = Some m -> In m l /\ forall x, In x l -> (x <= m)%Qc.
Proof. exact lmax_spec. Qed.
Print Assumptions C18_lmax_is_largest.

(** Bounds are swapped exactly when group 1 is upside down, which orders it. *)
Theorem C18_bounds_ordered : forall b b', fix_bounds b = Some b' ->
  (fst (hd (0, 0)%Qc b') <= snd (hd (0, 0)%Qc b'))%Qc /\
  ((b' = swap_bounds b /\ (snd (hd (0, 0)%Qc b) < fst (hd (0, 0)%Qc b))%Qc) \/
   (b' = b /\ (fst (hd (0, 0)%Qc b) <= snd (hd (0, 0)%Qc b))%Qc)).
Proof. intros b b' H. split; [now apply fix_ordered with b|now apply fix_swaps_iff]. Qed.
Print Assumptions C18_bounds_ordered.

(** Flipped and unflipped stores load alike. *)
Theorem C18_flip_irrelevant : forall b corr r,
  fst (hd (0, 0)%Qc b) <> snd (hd (0, 0)%Qc b) ->
  load b corr = Some r -> load (swap_bounds b) corr = Some r.
Proof.
  intros b corr r Hne. unfold load. destruct (lmax (diag corr)) as [m|]; [|discriminate].
  destruct (qeqb m 0); [discriminate|]. destruct (fix_bounds b) as [b'|] eqn:E; [|discriminate].
  now rewrite (fix_flip b b' E Hne).
Qed.
Print Assumptions C18_flip_irrelevant.

Example C18_hypotheses_met :
  let b := [(qz 20, qz 10); (qz 10, qz 5)] in
  let corr := [[qz 1000; qz 500]; [qz 500; qz 1000]] in
  lmax (diag corr) = Some (qz 1000) /\ (0 < qz 1000)%Qc /\
  Forall (fun r => length r = length corr) corr /\
  (exists c, load b corr = Some ([(qz 10, qz 20); (qz 5, qz 10)], c) /\ map (map this) c = [[1; 1 # 2]; [1 # 2; 1]]%Q) /\
  fst (hd (0, 0)%Qc b) <> snd (hd (0, 0)%Qc b).
Proof.
  cbv zeta. split; [reflexivity|]. split; [qclra|]. split; [repeat constructor|]. split.
  - eexists. split; [reflexivity|]. vm_compute. reflexivity.
  - intros E. apply (f_equal this) in E. discriminate.
Qed.
