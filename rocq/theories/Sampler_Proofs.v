(** Proofs about the sampling front end. *)
From Verif Require Import XNum Text Sampler_Model Sampler_Spec.
Local Open Scope nat_scope.

Lemma select_filter {A B} (p : A -> bool) (h : A -> B) l :
  select (map p l) (map h l) = map h (filter p l).
Proof. induction l as [|x l IH]; [reflexivity|]. cbn. destruct (p x); cbn; now rewrite IH. Qed.

Lemma map_seq_nth {A B} (f : A -> B) (l : list A) d : map (fun i => f (nth i l d)) (seq 0 (length l)) = map f l.
Proof.
  induction l as [|x l IH]; [reflexivity|]. cbn [length seq map nth]. f_equal.
  rewrite <- seq_shift, map_map. exact IH.
Qed.

Lemma forallb_map {A B} (p : B -> bool) (f : A -> B) l : forallb p (map f l) = forallb (fun x => p (f x)) l.
Proof. induction l; cbn; [reflexivity|]. now rewrite IHl. Qed.

Lemma forallb_ext {A} (p q : A -> bool) l : (forall x, In x l -> p x = q x) -> forallb p l = forallb q l.
Proof.
  induction l as [|x l IH]; intros H; [reflexivity|]. cbn. rewrite (H x) by now left. rewrite IH; auto.
  intros; apply H; now right.
Qed.

Lemma nth_map_lt {A B} (f : A -> B) l n da db : n < length l -> nth n (map f l) db = f (nth n l da).
Proof. intros H. rewrite nth_indep with (d' := f da) by now rewrite map_length. apply map_nth. Qed.

Lemma mask_good samples mean :
  map (col_ok (rows (rel_frame samples mean))) (seq 0 (length (cols (rel_frame samples mean)))) =
  map (goodb mean) samples.
Proof.
  cbn [rel_frame cols rows]. rewrite seq_length. rewrite <- (map_seq_nth (goodb mean) samples []).
  apply map_ext_in. intros j Hj. apply in_seq in Hj. unfold col_ok. rewrite forallb_map. cbn [snd].
  apply forallb_ext. intros g _. unfold rel_value.
  rewrite (nth_map_lt _ samples j []) by lia. reflexivity.
Qed.

Lemma filter_positions {A} (p : A -> bool) l d :
  filter (fun i => p (nth i l d)) (seq 0 (length l)) = select (map p l) (seq 0 (length l)).
Proof.
  rewrite <- (map_seq_nth p l d). rewrite <- (map_id (seq 0 (length l))) at 3.
  rewrite select_filter. now rewrite map_id.
Qed.

Lemma check_keeps samples mean :
  let kept := filter (goodb mean) samples in
  let f := sample_check samples mean true in
  cols f = filter (fun i => goodb mean (nth i samples [])) (seq 0 (length samples)) /\
  rows f = filter no_nan (map (row_of mean kept) (seq 0 (length mean))).
Proof.
  cbv zeta. unfold sample_check. rewrite mask_good. cbn [cols rows rel_frame]. split.
  - now rewrite filter_positions.
  - rewrite map_map. cbn [fst snd]. unfold no_nan. f_equal. apply map_ext. intros g. unfold row_of, rel_value.
    f_equal. apply select_filter.
Qed.

Lemma check_all samples mean :
  let f := sample_check samples mean false in
  cols f = seq 0 (length samples) /\ rows f = map (row_of mean samples) (seq 0 (length mean)).
Proof. split; reflexivity. Qed.

Lemma filter_length_positions {A} (p : A -> bool) (l : list A) d :
  length (filter (fun i => p (nth i l d)) (seq 0 (length l))) = length (filter p l).
Proof.
  rewrite filter_positions.
  assert (H : forall m : list nat, length m = length l -> length (select (map p l) m) = length (filter p l)).
  { induction l as [|x l IH]; intros [|y m] H; cbn in *; try discriminate; [reflexivity|].
    destruct (p x); cbn; rewrite IH; auto. }
  apply H. apply seq_length.
Qed.

Lemma check_cols_length samples mean b :
  length (cols (sample_check samples mean b)) =
  length (if b then filter (goodb mean) samples else samples).
Proof.
  destruct b.
  - destruct (check_keeps samples mean) as [-> _]. apply filter_length_positions.
  - cbn. apply seq_length.
Qed.

Lemma regular_no_nan mean samples : regular mean samples -> forall ss, incl ss samples ->
  filter no_nan (map (row_of mean ss) (seq 0 (length mean))) = map (row_of mean ss) (seq 0 (length mean)).
Proof.
  intros [H1 H2] ss Hs. 
  assert (K : forall l, (forall g, In g l -> g < length mean) ->
    filter no_nan (map (row_of mean ss) l) = map (row_of mean ss) l).
  { induction l as [|g l IH]; intros Hl; [reflexivity|]. cbn [map filter].
    assert (no_nan (row_of mean ss g) = true) as ->.
    { unfold no_nan, row_of. cbn [snd]. rewrite forallb_map. apply forallb_forall. intros s Hin.
      unfold rel_value. destruct (H1 g) as (m & -> & Hm); [apply Hl; now left|].
      destruct (H2 s g) as [x ->]; [now apply Hs|apply Hl; now left|]. cbn.
      apply qeqb_neq in Hm. rewrite Hm. reflexivity. }
    f_equal. apply IH. intros; apply Hl; now right. }
  apply K. intros g Hg. apply in_seq in Hg. lia.
Qed.

Lemma regular_groups mean samples : regular mean samples ->
  map fst (rows (sample_check samples mean true)) = seq 1 (length mean).
Proof.
  intros H. destruct (check_keeps samples mean) as [_ ->].
  rewrite (regular_no_nan mean samples H).
  - rewrite map_map. cbn [row_of fst]. apply seq_shift.
  - intros s Hs. now apply filter_In in Hs.
Qed.

Lemma nan_group_dropped mean samples g :
  g < length mean -> (exists s, In s samples /\ good mean s /\ rel_value mean s g = NaN) ->
  ~ In (S g) (map fst (rows (sample_check samples mean true))).
Proof.
  intros Hg (s & Hs & Hgood & Hn) K. destruct (check_keeps samples mean) as [_ E]. rewrite E in K.
  apply in_map_iff in K as ([l r] & Hl & Hr). cbn in Hl. subst l.
  apply filter_In in Hr as [Hr Hno]. apply in_map_iff in Hr as (g' & Hr & _).
  unfold row_of in Hr. injection Hr as -> <-. unfold no_nan in Hno. cbn [snd] in Hno.
  rewrite forallb_map, forallb_forall in Hno. specialize (Hno s).
  rewrite filter_In, goodb_good in Hno. specialize (Hno (conj Hs Hgood)). now rewrite Hn in Hno.
Qed.

(** ** Shapes *)
Lemma select_length {A B} (m : list bool) (l : list A) (l' : list B) :
  length l = length l' -> length (select m l) = length (select m l').
Proof.
  revert l l'. induction m as [|b m IH]; intros [|x l] [|y l'] H; cbn in *; try discriminate; try reflexivity.
  injection H as H. destruct b; cbn; [f_equal|]; now apply IH.
Qed.

Lemma check_shaped samples mean b : shaped (sample_check samples mean b).
Proof.
  assert (H : shaped (rel_frame samples mean)).
  { unfold shaped. cbn [rel_frame rows cols]. apply Forall_map. apply Forall_forall. intros g _. cbn [snd].
    now rewrite map_length, seq_length. }
  destruct b; [|exact H]. unfold sample_check, shaped. cbn [rows cols].
  apply Forall_forall. intros r Hr. apply filter_In in Hr as [Hr _]. apply in_map_iff in Hr as (r0 & <- & Hr).
  cbn [snd]. apply select_length. unfold shaped in H. rewrite Forall_forall in H. now apply H.
Qed.

Lemma zero_shaped f : shaped f -> shaped (zero_neg f).
Proof.
  unfold shaped. cbn [zero_neg rows cols]. intros H. apply Forall_map. eapply Forall_impl; [|exact H].
  cbn. intros r Hr. now rewrite map_length.
Qed.

(** ** sample *)
Lemma choose_names st : (exists c d, choose st = Some (c, d)) <-> In (lower st) the_names.
Proof.
  unfold choose, the_names. cbn [In].
  destruct (eqt (lower st) (str "normal")) eqn:E1; [apply eqt_eq in E1; split; [auto|eauto]|].
  destruct (eqt (lower st) (str "lognormal")) eqn:E2; [apply eqt_eq in E2; split; [auto|eauto]|].
  destruct (eqt (lower st) (str "uncorrelated")) eqn:E3; [apply eqt_eq in E3; split; [auto|eauto]|].
  destruct (eqt (lower st) (str "uniform")) eqn:E4; [apply eqt_eq in E4; split; [auto 6|eauto]|].
  destruct (eqt (lower st) (str "loguncorrelated")) eqn:E5; [apply eqt_eq in E5; split; [auto 7|eauto]|].
  split; [intros (c & d & H); discriminate|].
  intros H. exfalso.
  assert (N : forall a b, eqt a b = false -> b = a -> False) by (intros a b Hf ->; rewrite eqt_refl in Hf; discriminate).
  destruct H as [H|[H|[H|[H|[H|[]]]]]]; [eapply (N _ _ E1)|eapply (N _ _ E2)|eapply (N _ _ E3)|eapply (N _ _ E4)|eapply (N _ _ E5)]; exact H.
Qed.

Lemma choose_kind st c d : In (lower st, (c, d)) the_kinds -> choose st = Some (c, d).
Proof.
  unfold choose. intros H. cbn [In the_kinds] in H.
  repeat (destruct H as [H|H]; [injection H as <- <- <-; reflexivity|]). destruct H.
Qed.
Lemma sample_drawn draw draw' mean st num rb rn rr z c d : In (lower st, (c, d)) the_kinds -> draw c d num = draw' c d num ->
  sample draw mean st num rb rn rr z = sample draw' mean st num rb rn rr z.
Proof. intros H E. unfold sample. rewrite (choose_kind _ _ _ H), E. reflexivity. Qed.

Lemma sample_eq draw mean st num rb rn rr z c d : choose st = Some (c, d) ->
  sample draw mean st num rb rn rr z =
  let m := if rr then mean else repeat (Fin 1%Qc) (length mean) in
  let f0 := sample_check (draw c d num) m rn in
  let f := if z then zero_neg f0 else f0 in
  if (length (cols f0) <? num) && rb then SRaise (BadSamples (length (cols f0)))
  else SOk {| cols := seq 0 (length (cols f0)); rows := rows f |}.
Proof. intros H. unfold sample. rewrite H. cbv zeta. destruct z; reflexivity. Qed.

Lemma filter_le {A} (p : A -> bool) l : length (filter p l) <= length l.
Proof. induction l; cbn; [lia|]. destruct (p a); cbn; lia. Qed.

Lemma filter_all_iff {A} (p : A -> bool) l : length (filter p l) < length l <-> exists x, In x l /\ p x = false.
Proof.
  induction l as [|x l IH]; cbn; [split; [lia|intros (x & [] & _)]|].
  destruct (p x) eqn:E; cbn.
  - rewrite <- Nat.succ_lt_mono, IH. split; intros (y & Hy & Hp).
    + exists y. auto.
    + destruct Hy as [<-|Hy]; [congruence|]. now exists y.
  - split; [|pose proof (filter_le p l); lia]. intros _. exists x. auto.
Qed.

Lemma sample_ok draw mean st num rb rn rr z f :
  (forall c d, length (draw c d num) = num) ->
  sample draw mean st num rb rn rr z = SOk f ->
  cols f = seq 0 (length (cols f)) /\ length (cols f) <= num /\ shaped f.
Proof.
  intros Hd H. destruct (choose st) as [[c d]|] eqn:E; [|unfold sample in H; rewrite E in H; discriminate].
  rewrite (sample_eq _ _ _ _ _ _ _ _ _ _ E) in H. cbv zeta in H.
  destruct ((_ <? _) && rb); [discriminate|]. injection H as <-. cbn [cols rows]. rewrite seq_length.
  split; [reflexivity|]. split.
  - rewrite check_cols_length. destruct rn.
    + eapply Nat.le_trans; [apply filter_le|]. now rewrite Hd.
    + now rewrite Hd.
  - set (f0 := sample_check _ _ rn). assert (S0 : shaped f0) by apply check_shaped.
    assert (S1 : shaped (if z then zero_neg f0 else f0)) by (destruct z; auto using zero_shaped).
    unfold shaped in *. cbn [rows cols]. rewrite seq_length. destruct z; exact S1.
Qed.

Lemma sample_raise draw mean st num rb rn (rr : bool) z c d :
  choose st = Some (c, d) -> length (draw c d num) = num ->
  let m := if rr then mean else repeat (Fin 1%Qc) (length mean) in
  ((exists k, sample draw mean st num rb rn rr z = SRaise (BadSamples k)) <->
   rb = true /\ rn = true /\ exists s, In s (draw c d num) /\ ~ good m s).
Proof.
  intros Hc Hl m. rewrite (sample_eq _ _ _ _ _ _ _ _ _ _ Hc). cbv zeta. fold m.
  rewrite check_cols_length.
  assert (K : (length (if rn then filter (goodb m) (draw c d num) else draw c d num) <? num) = true <->
              rn = true /\ exists s, In s (draw c d num) /\ ~ good m s).
  { rewrite Nat.ltb_lt. destruct rn.
    - rewrite <- Hl at 2. rewrite filter_all_iff. split.
      + intros (x & Hx & Hp). split; [auto|]. exists x. split; [exact Hx|]. rewrite <- goodb_good. congruence.
      + intros (_ & x & Hx & Hp). exists x. split; [exact Hx|]. rewrite <- goodb_good in Hp. now destruct (goodb m x).
    - rewrite Hl. split; [lia|intros [H _]; discriminate]. }
  destruct (_ <? num) eqn:E; cbn [andb].
  - destruct rb.
    + split; [|eauto]. intros _. split; [auto|]. apply K. reflexivity.
    + split; [intros [k H]; discriminate|intros [H _]; discriminate].
  - split; [intros [k H]; discriminate|]. intros (_ & H). apply K in H. discriminate.
Qed.

Lemma zero_neg_cell f g j : shaped f -> g < length (rows f) -> j < length (cols f) ->
  cell (zero_neg f) g j = if xneg (cell f g j) then Fin 0%Qc else cell f g j.
Proof.
  intros Hs Hg Hj. unfold cell. cbn [zero_neg rows].
  rewrite (nth_map_lt _ (rows f) g (0, [])) by exact Hg. cbn [snd].
  unfold shaped in Hs. rewrite Forall_forall in Hs.
  rewrite (nth_map_lt _ _ j NaN); [reflexivity|]. rewrite Hs; [exact Hj|]. now apply nth_In.
Qed.

Lemma sample_zero draw mean st num rn rr f :
  sample draw mean st num false rn rr false = SOk f ->
  exists f', sample draw mean st num false rn rr true = SOk f' /\
    cols f' = cols f /\ map fst (rows f') = map fst (rows f) /\
    forall g j, g < length (rows f) -> j < length (cols f) ->
      cell f' g j = if xneg (cell f g j) then Fin 0%Qc else cell f g j.
Proof.
  intros H. destruct (choose st) as [[c d]|] eqn:E; [|unfold sample in H; rewrite E in H; discriminate].
  rewrite (sample_eq _ _ _ _ _ _ _ _ _ _ E) in H. rewrite (sample_eq _ _ _ _ _ _ _ _ _ _ E).
  cbv zeta in *. rewrite andb_false_r in H |- *.
  injection H as <-. eexists. split; [reflexivity|]. cbn [cols rows]. split; [reflexivity|].
  set (f0 := sample_check _ _ rn). assert (S0 : shaped f0) by apply check_shaped.
  split; [cbn [zero_neg rows]; now rewrite map_map|].
  intros g j Hg Hj. rewrite seq_length in Hj. apply (zero_neg_cell f0 g j S0 Hg Hj).
Qed.

(** ** sample_xsec *)
Lemma combine_nth_lt {A B} (l : list A) (m : list B) n da db : length l = length m ->
  nth n (combine l m) (da, db) = (nth n l da, nth n m db).
Proof. apply combine_nth. Qed.

Lemma columns_cell f g j : g < length (rows f) -> j < length (cols f) ->
  nth g (nth j (columns f) []) NaN = cell f g j.
Proof.
  intros Hg Hj. unfold columns, cell.
  rewrite (nth_map_lt _ _ j 0) by now rewrite seq_length. rewrite seq_nth by exact Hj. cbn [Nat.add].
  rewrite (nth_map_lt _ _ g (0, [])) by exact Hg. reflexivity.
Qed.

Lemma columns_length f : length (columns f) = length (cols f).
Proof. unfold columns. now rewrite map_length, seq_length. Qed.

Lemma xsec_shape draw mean st num rb rn rel full :
  (forall c d, length (draw c d num) = num) ->
  sample_xsec draw mean st num rb rn = SOk (rel, full) ->
  sample draw mean st num rb rn false false = SOk full /\
  length (rows full) = length mean /\ length (rows rel) = length mean /\
  length (cols rel) = length (cols full) /\
  rel = patch_nan (sample_check (columns full) mean false) full.
Proof.
  intros Hd. unfold sample_xsec. destruct (sample _ _ _ _ _ _ _ _) as [f|e] eqn:E; [|discriminate].
  destruct (length (rows f) =? length mean) eqn:L; [|discriminate]. apply Nat.eqb_eq in L. cbn [negb].
  intros H. injection H as <- <-. split; [reflexivity|]. split; [exact L|]. split.
  - cbn [patch_nan rows]. rewrite map_length, combine_length. cbn [sample_check rel_frame rows].
    rewrite map_length, seq_length, L. lia.
  - split; [|reflexivity]. cbn [patch_nan cols sample_check rel_frame]. now rewrite seq_length, columns_length.
Qed.

Lemma xsec_cell draw mean st num rb rn rel full g j :
  (forall c d, length (draw c d num) = num) ->
  sample_xsec draw mean st num rb rn = SOk (rel, full) ->
  g < length mean -> j < length (cols full) ->
  cell rel g j = (let r := xdiv (cell full g j) (nth g mean NaN) in
                  if xisnan r then cell full g j else r).
Proof.
  intros Hd H Hg Hj. destruct (xsec_shape _ _ _ _ _ _ _ _ Hd H) as (H1 & H2 & H3 & H4 & ->).
  destruct (sample_ok _ _ _ _ _ _ _ _ _ Hd H1) as (_ & _ & Hs).
  unfold shaped in Hs. rewrite Forall_forall in Hs.
  assert (Hrow : length (snd (nth g (rows full) (0, []))) = length (cols full)).
  { apply Hs. apply nth_In. lia. }
  unfold cell at 1. cbn [patch_nan rows sample_check rel_frame].
  set (relrows := map _ (seq 0 (length mean))).
  assert (Lr : length relrows = length mean) by (unfold relrows; now rewrite map_length, seq_length).
  rewrite (nth_map_lt _ _ g ((0, []), (0, []))) by (rewrite combine_length; lia).
  rewrite combine_nth by lia. cbn [fst snd].
  assert (Eg : snd (nth g relrows (0, [])) = map (fun s => xdiv (nth g s NaN) (nth g mean NaN)) (columns full)).
  { unfold relrows. rewrite (nth_map_lt _ _ g 0) by now rewrite seq_length. rewrite seq_nth by exact Hg. reflexivity. }
  rewrite Eg.
  rewrite (nth_map_lt _ _ j (NaN, NaN)) by (rewrite combine_length, map_length, columns_length, Hrow; lia).
  rewrite combine_nth by (rewrite map_length, columns_length; auto). cbn [fst snd].
  rewrite (nth_map_lt _ _ j []) by now rewrite columns_length.
  rewrite columns_cell by (auto; lia). reflexivity.
Qed.

(** ** load *)
Lemma lmax_spec l m : lmax l = Some m -> In m l /\ forall x, In x l -> (x <= m)%Qc.
Proof.
  revert m. induction l as [|x l IH]; intros m; [discriminate|]. cbn [lmax].
  destruct (lmax l) as [k|] eqn:E.
  - destruct (IH k eq_refl) as [H1 H2]. destruct (qltb x k) eqn:F; intros [= <-].
    + split; [now right|]. intros y [<-|Hy]; [qclra|auto].
    + split; [now left|]. intros y [<-|Hy]; [apply Qcle_refl|]. apply H2 in Hy. qclra.
  - intros [= <-]. split; [now left|]. intros y [<-|Hy]; [apply Qcle_refl|].
    destruct l; [destruct Hy|]. cbn in E. destruct (lmax l); discriminate.
Qed.

Lemma fix_flip b b' : fix_bounds b = Some b' -> fst (hd (0, 0)%Qc b) <> snd (hd (0, 0)%Qc b) ->
  fix_bounds (swap_bounds b) = Some b'.
Proof.
  destruct b as [|[l h] b]; [discriminate|]. cbn [fix_bounds swap_bounds map hd fst snd].
  intros H Hne. injection H as <-. f_equal.
  assert (Inv : swap_bounds (swap_bounds b) = b).
  { unfold swap_bounds. rewrite map_map. cbn. rewrite <- map_id. apply map_ext. now intros []. }
  destruct (qltb_spec h l) as [A|A]; destruct (qltb_spec l h) as [B|B]; cbn [fst snd map].
  - exfalso. qclra.
  - reflexivity.
  - unfold swap_bounds in *. cbn [map fst snd]. now rewrite Inv.
  - exfalso. apply Hne. apply Qcle_antisym; qclra.
Qed.

Lemma fix_ordered b b' : fix_bounds b = Some b' -> (fst (hd (0, 0)%Qc b') <= snd (hd (0, 0)%Qc b'))%Qc.
Proof.
  destruct b as [|[l h] b]; [discriminate|]. cbn [fix_bounds fst snd].
  destruct (qltb h l) eqn:E; intros [= <-]; cbn; qclra.
Qed.

Lemma fix_swaps_iff b b' : fix_bounds b = Some b' ->
  (b' = swap_bounds b /\ (snd (hd (0, 0)%Qc b) < fst (hd (0, 0)%Qc b))%Qc) \/
  (b' = b /\ (fst (hd (0, 0)%Qc b) <= snd (hd (0, 0)%Qc b))%Qc).
Proof.
  destruct b as [|[l h] b]; [discriminate|]. cbn [fix_bounds fst snd hd].
  destruct (qltb h l) eqn:E; intros [= <-]; [left|right]; split; auto; qclra.
Qed.

Lemma load_corr b corr b' corr' m : lmax (diag corr) = Some m -> (0 < m)%Qc ->
  Forall (fun r => length r = length corr) corr ->
  load b corr = Some (b', corr') ->
  (forall i j, i < length corr -> j < length corr ->
     (nth j (nth i corr' []) 0 * m = nth j (nth i corr []) 0)%Qc) /\
  lmax (diag corr') = Some 1%Qc.
Proof.
  intros Hm Hpos Hsq. unfold load. rewrite Hm. destruct (qeqb m 0) eqn:E; [discriminate|].
  apply qeqb_neq in E. destruct (fix_bounds b) as [b0|]; [|discriminate]. intros H. injection H as _ <-.
  assert (Hn : forall i j, i < length corr -> j < length corr ->
     nth j (nth i (map (map (fun x => (x / m)%Qc)) corr) []) 0%Qc = (nth j (nth i corr []) 0 / m)%Qc).
  { intros i j Hi Hj. rewrite (nth_map_lt _ corr i []) by exact Hi.
    rewrite (nth_map_lt _ _ j 0%Qc); [reflexivity|]. rewrite Forall_forall in Hsq. rewrite Hsq; [exact Hj|]. now apply nth_In. }
  split.
  - intros i j Hi Hj. rewrite Hn by assumption. unfold Qcdiv. rewrite <- Qcmult_assoc, (Qcmult_comm (/ m)), Qcmult_inv_r by exact E. ring.
  - assert (D : diag (map (map (fun x => (x / m)%Qc)) corr) = map (fun x => (x / m)%Qc) (diag corr)).
    { unfold diag. rewrite map_length, map_map. apply map_ext_in. intros i Hi. apply in_seq in Hi. apply Hn; lia. }
    rewrite D. clear D Hn.
    assert (K : forall l, lmax (map (fun x => (x / m)%Qc) l) = option_map (fun x => (x / m)%Qc) (lmax l)).
    { induction l as [|x l IH]; [reflexivity|]. cbn [map lmax]. rewrite IH. destruct (lmax l) as [k|]; [|reflexivity].
      cbn [option_map]. assert (Hq : qltb (x / m) (k / m) = qltb x k).
      { apply eq_true_iff_eq. rewrite !qltb_lt. unfold Qcdiv.
        assert (Hi : (0 < / m)%Qc).
        { apply Qcnot_le_lt. intros C. assert (m * / m = 1)%Qc by now apply Qcmult_inv_r.
          assert (m * / m <= 0)%Qc by (clear -C Hpos; qcnra). rewrite H in H0. qclra. }
        split; intros Hlt; qcnra. }
      rewrite Hq. now destruct (qltb x k). }
    rewrite K, Hm. cbn. f_equal. now apply Qcmult_inv_r.
Qed.
