From Verif Require Endf2_Proofs.
From Verif Require Import Num Text Dec Endf_Model Endf_Spec Endf_Proofs Endf_Props Intg_Model Intg_Spec Intg_Props SampleCorr_Model Rcov_Model Rcov_Spec Rcov_Proofs Rcov2_Proofs.
From Coq Require Import Permutation Sorting.Sorted Lia.
Local Open Scope list_scope.
Local Open Scope nat_scope.

(** ** Subsets *)
Lemma pairs_listing (g : nat -> nat -> Qc) : forall flat, StronglySorted lt flat ->
  flat_map (fun a => flat_map (fun b => if a <=? b then [g a b] else []) flat) flat = listing (length flat) (fun p q => g (nth p flat 0) (nth q flat 0)).
Proof.
  induction 1 as [|a flat H1 IH H2]; [reflexivity|]. cbn [length]. rewrite listing_S. cbn [flat_map]. f_equal.
  - rewrite Nat.leb_refl. cbn [app seq map nth]. f_equal. rewrite <- seq_shift, map_map. cbn [nth].
    rewrite (map_seq_nth _ _ (g a) 0 flat). clear IH H1. induction H2 as [|b l Hb Hl IH]; [reflexivity|].
    cbn [flat_map map]. rewrite (proj2 (Nat.leb_le a b)) by lia. cbn [app]. now rewrite IH.
  - cbn [nth]. rewrite <- IH. rewrite !flat_map_concat_map. f_equal. apply map_ext_in. intros b Hb.
    pose proof (proj1 (Forall_forall _ _) H2 b Hb). rewrite (proj2 (Nat.leb_gt b a)) by lia. cbn [app]. reflexivity.
Qed.
Lemma flat_sorted k : forall l, StronglySorted lt l -> StronglySorted lt (flat_map (fun a => map (fun i => a * k + i) (seq 0 k)) l).
Proof.
  induction 1 as [|a l H1 IH H2]; [constructor|]. cbn [flat_map].
  assert (A : forall s n, s + n <= k -> StronglySorted lt (map (fun i => a * k + i) (seq s n) ++ flat_map (fun a => map (fun i => a * k + i) (seq 0 k)) l)).
  { intros s n. revert s. induction n as [|n IHn]; intros s Hs; [exact IH|]. cbn [seq map app]. constructor; [apply IHn; lia|].
    apply Forall_app. split.
    - apply Forall_forall. intros y Hy. apply in_map_iff in Hy. destruct Hy as (i & <- & Hi). apply in_seq in Hi. lia.
    - apply Forall_forall. intros y Hy. apply in_flat_map in Hy. destruct Hy as (b & Hb & Hy). apply in_map_iff in Hy. destruct Hy as (i & <- & Hi).
      apply in_seq in Hi. pose proof (proj1 (Forall_forall _ _) H2 b Hb). nia. }
  exact (A 0 k ltac:(lia)).
Qed.
Lemma flat_length k l : length (flat_map (fun a => map (fun i => a * k + i) (seq 0 k)) l) = k * length l.
Proof. induction l as [|a l IH]; cbn [flat_map length]; [lia|]. rewrite app_length, map_length, seq_length, IH. lia. Qed.
Lemma flat_nth k : forall l p x, p < length l -> x < k ->
  nth (p * k + x) (flat_map (fun a => map (fun i => a * k + i) (seq 0 k)) l) 0 = nth p l 0 * k + x.
Proof.
  induction l as [|a l IH]; intros p x Hp Hx; cbn [length] in Hp; [lia|]. cbn [flat_map]. destruct p as [|p].
  - rewrite app_nth1 by (rewrite map_length, seq_length; lia). cbn [Nat.mul Nat.add nth].
    rewrite (nth_indep _ _ (a * k + 0)) by (rewrite map_length, seq_length; lia). rewrite (map_nth (fun i => a * k + i)), seq_nth by lia. lia.
  - rewrite app_nth2 by (rewrite map_length, seq_length; lia). rewrite map_length, seq_length.
    replace (S p * k + x - k) with (p * k + x) by lia. cbn [nth]. apply IH; lia.
Qed.
Lemma all_some_id {A} (l : list A) : all_some (map Some l) = Some l.
Proof. induction l as [|a l IH]; [reflexivity|]. cbn [map all_some]. now rewrite IH. Qed.
Lemma entries_all m flat : Forall (fun a => a < fst m) flat ->
  flat_map (fun a => flat_map (fun b => if a <=? b then [entry m a b] else []) flat) flat =
  map Some (flat_map (fun a => flat_map (fun b => if a <=? b then [snd m a b] else []) flat) flat).
Proof.
  intros H. assert (A : forall l l', Forall (fun a => a < fst m) l -> Forall (fun a => a < fst m) l' ->
    flat_map (fun a => flat_map (fun b => if a <=? b then [entry m a b] else []) l') l = map Some (flat_map (fun a => flat_map (fun b => if a <=? b then [snd m a b] else []) l') l)).
  { intros l l' Hl Hl'. induction Hl as [|a l Ha Hl IH]; [reflexivity|]. cbn [flat_map]. rewrite map_app, <- IH. f_equal.
    clear IH. induction Hl' as [|b l' Hb Hl' IH]; [reflexivity|]. cbn [flat_map]. rewrite map_app, <- IH. f_equal.
    destruct (a <=? b); [|reflexivity]. unfold entry. now rewrite (proj2 (Nat.ltb_lt _ _) Ha), (proj2 (Nat.ltb_lt _ _) Hb). }
  now apply A.
Qed.
Definition within (c : reson -> Qc) (lo hi : Qc) (p : nat * reson) : bool := qleb lo (c (snd p)) && qleb (c (snd p)) hi.
Lemma filter_fst_sorted (f : nat * reson -> bool) : forall t, StronglySorted lt (map fst t) -> StronglySorted lt (map fst (filter f t)).
Proof.
  induction t as [|p t IH]; intros H; [constructor|]. cbn [map] in H. inversion H as [|? ? H1 H2]; subst. cbn [filter]. destruct (f p); [|now apply IH].
  cbn [map]. constructor; [now apply IH|]. apply Forall_forall. intros y Hy. apply in_map_iff in Hy. destruct Hy as (q & <- & Hq). apply filter_In in Hq.
  apply (proj1 (Forall_forall _ _) H2). apply in_map, Hq.
Qed.
Lemma subset_ok c lo hi r : StronglySorted lt (map fst (r_file2 r)) ->
  (forall a, In a (map fst (r_file2 r)) -> a * r_mpar r + r_mpar r <= fst (r_cov r)) ->
  let ps := filter (within c lo hi) (r_file2 r) in
  exists r' m, subset c lo hi r = Some r' /\ r_params r' = ps /\ r_file2 r' = ps /\ r_form r' = r_form r /\ r_mpar r' = r_mpar r /\
    r_cov r' = (r_mpar r * length ps, m) /\
    upper_part (r_mpar r * length ps)
      (fun i j => snd (r_cov r) (nth i (flat_map (fun a => map (fun i => a * r_mpar r + i) (seq 0 (r_mpar r))) (map fst ps)) 0)
                                (nth j (flat_map (fun a => map (fun i => a * r_mpar r + i) (seq 0 (r_mpar r))) (map fst ps)) 0)) m.
Proof.
  intros Hs Hd ps. unfold subset.
  change (filter (fun p => qleb lo (c (snd p)) && qleb (c (snd p)) hi) (r_file2 r)) with ps.
  set (flat := flat_map (fun a => map (fun i => a * r_mpar r + i) (seq 0 (r_mpar r))) (map fst ps)).
  assert (Fs : StronglySorted lt flat) by apply flat_sorted, filter_fst_sorted, Hs.
  assert (Fl : length flat = r_mpar r * length ps) by (unfold flat; now rewrite flat_length, map_length).
  rewrite entries_all.
  - rewrite all_some_id, (pairs_listing (snd (r_cov r)) flat Fs).
    destruct (triu_ok (length flat) (fun p q => snd (r_cov r) (nth p flat 0) (nth q flat 0))) as (m & -> & U).
    eexists. exists m. split; [reflexivity|]. cbn [r_params r_file2 r_form r_mpar r_cov]. rewrite Fl in *. repeat split; apply U.
  - apply Forall_forall. intros y Hy. apply in_flat_map in Hy. destruct Hy as (a & Ha & Hy). apply in_map_iff in Hy. destruct Hy as (i & <- & Hi).
    apply in_seq in Hi. enough (a * r_mpar r + r_mpar r <= fst (r_cov r)) by lia. apply Hd. apply in_map_iff in Ha. destruct Ha as (p & <- & Hp).
    apply in_map. apply filter_In in Hp. apply Hp.
Qed.
(** A label beyond the matrix. *)
Lemma subset_out c lo hi r p : In p (r_file2 r) -> within c lo hi p = true -> fst (r_cov r) <= fst p * r_mpar r -> 0 < r_mpar r -> subset c lo hi r = None.
Proof.
  intros Hp Hw Hd Hm. unfold subset.
  set (flat := flat_map (fun a => map (fun i => a * r_mpar r + i) (seq 0 (r_mpar r))) _). rewrite all_some_none; [reflexivity|].
  assert (Hin : In (fst p * r_mpar r + 0) flat).
  { unfold flat. apply in_flat_map. exists (fst p). split; [apply in_map, filter_In; now split|]. apply in_map_iff. exists 0. split; [lia|]. apply in_seq. lia. }
  apply in_flat_map. exists (fst p * r_mpar r + 0). split; [exact Hin|]. apply in_flat_map. exists (fst p * r_mpar r + 0). split; [exact Hin|].
  rewrite Nat.leb_refl. left. unfold entry. rewrite (proj2 (Nat.ltb_ge _ _)) by lia. reflexivity.
Qed.

(** ** Sampling *)
Lemma chunks k : 0 < k -> forall n (s : list Qc), length s = k * n -> exists bl, s = concat bl /\ length bl = n /\ Forall (fun b => length b = k) bl.
Proof.
  intros Hk. induction n as [|n IH]; intros s Hs.
  - exists []. destruct s; [repeat split; constructor|cbn in Hs; lia].
  - destruct (IH (skipn k s)) as (bl & E & L & F); [rewrite skipn_length; lia|]. exists (firstn k s :: bl). cbn [concat length]. rewrite <- E, firstn_skipn, L.
    repeat split. constructor; [rewrite firstn_length; lia|exact F].
Qed.
Lemma one_sample_ok fm mpar ps bl : Forall (complete fm) ps -> length bl = length ps -> Forall (fun b => length b = mpar) bl ->
  In mpar (match fm with Rm => [3; 5] | _ => [3; 4; 5] end) ->
  exists t, one_sample fm mpar ps (concat bl) = Some t /\ length t = length ps /\
    forall i, i < length ps -> drawn fm (nth i ps (mkRes 0%Qc 0 0%Qc [])) (nth i bl []) (nth i t (mkRes 0%Qc 0 0%Qc [])).
Proof.
  intros Hc Hl Hb Hm. assert (M : 3 <= mpar <= 5 /\ (fm = Rm -> mpar <> 4)).
  { destruct fm; cbn [In] in Hm; split; try lia; intros; try discriminate; lia. }
  unfold one_sample. rewrite (proj2 (Nat.eqb_neq mpar 0)) by lia.
  rewrite !(stride_concat mpar bl 0), (stride_concat mpar bl 1), (stride_concat mpar bl 2) by (lia || exact Hb).
  set (d := mkRes 0%Qc 0 0%Qc []).
  set (w3 := if 3 <? mpar then stride mpar 3 (concat bl) else map (fun p => fld (widths p) (if is_rm fm then 2 else 3)) ps).
  set (w4 := if (if is_rm fm then 3 else 4) <? mpar then stride mpar 4 (concat bl) else map (fun p => fld (widths p) (if is_rm fm then 3 else 4)) ps).
  set (v3 := fun i => if 3 <? mpar then nth 3 (nth i bl []) 0%Qc else fld (widths (nth i ps d)) (if is_rm fm then 2 else 3)).
  set (v4 := fun i => if 4 <? mpar then nth 4 (nth i bl []) 0%Qc else fld (widths (nth i ps d)) (if is_rm fm then 3 else 4)).
  assert (E3 : forall i, i < length ps -> nth_error w3 i = Some (v3 i)).
  { intros i Hi. unfold w3, v3. destruct (Nat.ltb_spec 3 mpar).
    - rewrite (stride_concat mpar bl 3) by (lia || exact Hb). rewrite nth_error_map, (nth_error_nth' bl []) by lia. reflexivity.
    - rewrite nth_error_map, (nth_error_nth' ps d) by lia. reflexivity. }
  assert (E4 : forall i, i < length ps -> nth_error w4 i = Some (v4 i)).
  { intros i Hi. unfold w4, v4. assert (X : ((if is_rm fm then 3 else 4) <? mpar) = (4 <? mpar)).
    { destruct fm; try reflexivity. cbn [is_rm]. destruct M as [M1 M2]. specialize (M2 eq_refl). destruct (Nat.ltb_spec 3 mpar), (Nat.ltb_spec 4 mpar); try reflexivity; lia. }
    rewrite X. destruct (Nat.ltb_spec 4 mpar).
    - rewrite (stride_concat mpar bl 4) by (lia || exact Hb). rewrite nth_error_map, (nth_error_nth' bl []) by lia. reflexivity.
    - rewrite nth_error_map, (nth_error_nth' ps d) by lia. reflexivity. }
  rewrite map_length.
  set (g := fun i => let b := nth i bl [] in mkRes (nth 0 b 0%Qc) (lval (nth i ps d)) (spin (nth i ps d))
      (if is_rm fm then [nth 1 b 0%Qc; nth 2 b 0%Qc; v3 i; v4 i] else [(nth 1 b 0 + nth 2 b 0 + v3 i + v4 i)%Qc; nth 1 b 0%Qc; nth 2 b 0%Qc; v3 i; v4 i])).
  rewrite (all_some_map _ _ _ g).
  2: { intros i Hi. apply in_seq in Hi. rewrite (nth_error_nth' ps d) by lia. rewrite !nth_error_map, (nth_error_nth' bl []) by lia. cbn [option_map].
       rewrite E3, E4 by lia. reflexivity. }
  eexists. split; [reflexivity|]. split; [rewrite map_length, seq_length; exact Hl|]. intros i Hi.
  rewrite (nth_indep (map g (seq 0 (length bl))) d (g 0)) by (rewrite map_length, seq_length; lia). rewrite (map_nth g), seq_nth by lia. cbn [Nat.add].
  assert (Hbi : length (nth i bl []) = mpar) by (apply (proj1 (Forall_forall _ _) Hb), nth_In; lia).
  assert (Hpi : complete fm (nth i ps d)) by (apply (proj1 (Forall_forall _ _) Hc), nth_In; lia).
  unfold g, v3, v4. clear - Hbi Hpi M. destruct (nth i ps d) as [e l j w]. revert Hbi. generalize (nth i bl []). intros b Hbi.
  unfold complete in Hpi. cbn [widths] in Hpi. unfold drawn, complete, varying, fld. cbn [lval spin widths energy].
  destruct fm; cbn [is_rm] in *.
  - do 6 (destruct w as [|? w]; try (cbn in Hpi; lia)). do 6 (try (destruct b as [|? b]; try (cbn in Hbi; lia))); subst mpar;
    cbn [length Nat.ltb Nat.leb nth tl hd skipn app qsum fold_right]; repeat split; intros; ring.
  - do 6 (destruct w as [|? w]; try (cbn in Hpi; lia)). do 6 (try (destruct b as [|? b]; try (cbn in Hbi; lia))); subst mpar;
    cbn [length Nat.ltb Nat.leb nth tl hd skipn app qsum fold_right]; repeat split; intros; ring.
  - assert (mpar <> 4) by (now apply M).
    do 5 (destruct w as [|? w]; try (cbn in Hpi; lia)). do 6 (try (destruct b as [|? b]; try (cbn in Hbi; lia))); subst mpar; try (cbn in *; lia);
    cbn [length Nat.ltb Nat.leb nth tl hd skipn app qsum fold_right]; repeat split; intros C; now destruct C.
Qed.

(** Reich-Moore with four parameters: the last row has no last width. *)
Lemma one_sample_four ps bl : ps <> [] -> length bl = length ps -> Forall (fun b => length b = 4) bl -> one_sample Rm 4 ps (concat bl) = None.
Proof.
  intros N Hl Hb. unfold one_sample. cbn [Nat.eqb is_rm Nat.ltb Nat.leb]. rewrite !(stride_concat 4 bl 0) by (lia || exact Hb). rewrite map_length.
  assert (L : length (stride 4 4 (concat bl)) = length bl - 1).
  { unfold stride. rewrite map_length, seq_length, (concat_length 4 bl Hb).
    destruct (length bl) as [|n]; [reflexivity|]. symmetry. apply (Nat.div_unique _ 4 (S n - 1) 3); lia. }
  assert (Hp : 0 < length bl) by (rewrite Hl; destruct ps; [now destruct N|cbn; lia]).
  rewrite all_some_none; [reflexivity|]. apply in_map_iff. exists (length bl - 1). split; [|apply in_seq; lia].
  rewrite (proj2 (nth_error_None (stride 4 4 (concat bl)) (length bl - 1))) by lia.
  repeat match goal with |- match ?x with Some _ => _ | None => None end = None => destruct x; [|reflexivity] end. reflexivity.
Qed.

(** ** Sections *)
Lemma head_record_ok l a b i j k n rest : control_line l a b i j k n -> get_head_record (l :: rest) = Some (trunc a, b, i, j, k, n, rest).
Proof.
  intros H. unfold get_head_record. cbn [readline]. pose proof (Endf2_Proofs.control_fields _ _ _ _ _ _ _ H) as (F1 & F2 & F3 & F4 & F5 & F6).
  now rewrite F1, F2, F3, F4, F5, F6.
Qed.
Lemma said_ok fm items t d ls rest : said_text fm (n1 items) t d ls ->
  exists r, cov_from_endf fm items t (ls ++ rest) = Some (r, rest) /\ said_range fm (c1 items) (c2 items) t d r.
Proof.
  destruct d as [b|rs npar nd nrow xs|rss rs]; cbn [said_text said_range].
  - intros (H & P & N). assert (E : flat_map s_res ([] ++ [b]) = s_res b) by (cbn [app flat_map]; apply app_nil_r).
    destruct (general_ok fm items t 0 [] b ls rest H) as (r & m & E1 & R & Ec & U & Em); rewrite ?E; try assumption.
    rewrite E in *. exists r. unfold s_size in *. split; [assumption|]. split; [assumption|]. split; [|exists m; split; assumption].
    rewrite Em. apply Nat.div_mul. destruct (s_res b); [now destruct N|discriminate].
  - intros (H & P & N & L). destruct (compact_ok fm items t rs npar nd nrow xs ls rest H N P) as [_ W].
    destruct (W L) as (r & m & E1 & R & Ec & Em & Hm). exists r. change (flat_map (fun p => counting (is_rm fm) (snd p)) rs) with (all_counting fm rs) in Hm.
    split; [assumption|]. split; [assumption|]. split; [assumption|]. exists m. split; [assumption|]. cbv zeta. split; [|split].
    + intros i. rewrite Hm, Nat.eqb_refl. ring.
    + intros i j D. rewrite Hm, (proj2 (Nat.eqb_neq i j) D). reflexivity.
    + intros i j. rewrite !Hm, (Nat.eqb_sym j i), (Nat.max_comm j i), (Nat.min_comm j i). ring.
  - intros (H & Hf & E & P). destruct (compatible_ok fm items t rss ls rest Hf H) as [_ W].
    destruct (W rs E P) as (r & m & E1 & R & Ec & Em & P1 & P2). exists r. split; [assumption|]. split; [assumption|]. split; [assumption|]. exists m.
    split; [assumption|]. split; [|split].
    + intros k a b p Hk Ha Hb D Hp. rewrite P1 by assumption. assert (X : read_place a b = Some p); [|now rewrite X].
      unfold read_place. destruct a as [|[|[|[|a]]]]; try lia; destruct b as [|[|[|[|b]]]]; try lia; try exact Hp. now destruct D.
    + intros k a b Hk Ha Hb Hp. rewrite P1 by assumption. assert (X : read_place a b = None); [|now rewrite X].
      unfold read_place. destruct a as [|[|[|[|a]]]]; try lia; destruct b as [|[|[|[|b]]]]; try lia; try exact Hp; reflexivity.
    + intros i j D. apply P2. now left.
Qed.
Lemma cov_file2 fm items t f r rest : cov_from_endf fm items t f = Some (r, rest) -> r_file2 r = t.
Proof.
  unfold cov_from_endf. intros E. destruct (radius items f) as [f1|]; [|discriminate]. destruct (get_cont_record false f1) as [[it f2]|]; [|discriminate].
  destruct (if (l2 it =? 1)%Z then _ else _) as [[[recs m] f3]|]; [|discriminate]. destruct (length recs =? 0); [discriminate|].
  destruct (add_file2 fm recs t); [|discriminate]. now injection E as <- _.
Qed.
Lemma ranges_ok res : forall j ds ls rest, ranges_text res j ds ls -> exists rs, Forall2 stated_range ds rs /\
  Forall2 (fun d r => r_file2 r = t_file2 d) ds rs /\
  forall more, cov_ranges (length ds + more) j res (ls ++ rest) =
    match cov_ranges more (j + length ds) res rest with Some (l, f) => Some (rs ++ l, f) | None => None end.
Proof.
  intros j ds ls rest H. induction H as [j|j h i lrf nro naps body d ds ls Hc Hi Hf Ht Hr H IH].
  - exists []. split; [constructor|]. split; [constructor|]. intros more. cbn [length Nat.add app]. rewrite Nat.add_0_r. destruct (cov_ranges more j res rest) as [[l f]|]; reflexivity.
  - destruct IH as (rs & F1 & F2 & E).
    destruct (said_ok (t_form d) {| c1 := Some (t_lo d); c2 := Some (t_hi d); l1 := i; l2 := lrf; n1 := nro; n2 := naps |} (t_file2 d) (t_said d) body (ls ++ rest) Hr) as (r & Er & Sr).
    cbn [c1 c2] in Sr. exists (r :: rs). split; [constructor; [exact Sr|exact F1]|].
    split; [constructor; [exact (cov_file2 _ _ _ _ _ _ Er)|exact F2]|]. intros more.
    cbn [length Nat.add cov_ranges app]. rewrite (C36_cont _ _ _ _ _ _ _ _ Hc). cbn [l1 l2].
    assert (Ef : (lrf =? 0)%Z || (lrf =? 7)%Z = false /\ form_of lrf = Some (t_form d)).
    { destruct Hf as [X|[X|[X|[]]]]; injection X as <- <-; split; reflexivity. }
    destruct Ef as [-> ->]. assert (Ei : (i =? 0)%Z || (i =? 1)%Z = true) by (destruct Hi as [-> | ->]; reflexivity). rewrite Ei, Ht, <- app_assoc, Er, E.
    replace (S j + length ds) with (j + S (length ds)) by lia. destruct (cov_ranges more (j + S (length ds)) res rest) as [[l f]|]; reflexivity.
Qed.
Lemma isotopes_ok res : forall dss ls rest, isotopes_text res dss ls -> exists rs, Forall2 stated_range (concat dss) rs /\
  Forall2 (fun d r => r_file2 r = t_file2 d) (concat dss) rs /\
  forall more, cov_isotopes (length dss + more) res (ls ++ rest) = match cov_isotopes more res rest with Some l => Some (rs ++ l) | None => None end.
Proof.
  intros dss ls rest H. induction H as [|h a b i j n ds dss l ls Hc Hr H IH].
  - exists []. split; [constructor|]. split; [constructor|]. intros more. cbn [length Nat.add app concat]. destruct (cov_isotopes more res rest); reflexivity.
  - destruct IH as (rs & F1 & F2 & E). destruct (ranges_ok res 0 ds l (ls ++ rest) Hr) as (rs0 & G1 & G2 & Er). exists (rs0 ++ rs).
    cbn [concat]. split; [now apply Forall2_app|]. split; [now apply Forall2_app|]. intros more.
    cbn [length Nat.add cov_isotopes app]. rewrite (C36_cont _ _ _ _ _ _ _ _ Hc). cbn [n1]. rewrite Nat2Z.id, <- app_assoc.
    specialize (Er 0). rewrite Nat.add_0_r in Er. rewrite Er. cbn [cov_ranges]. rewrite E, app_nil_r.
    destruct (cov_isotopes more res rest); [|reflexivity]. now rewrite app_assoc.
Qed.
