(** C75, C76: covariances of resonance parameters. *)
From Verif Require Import Num Text Dec Endf_Model Endf_Spec Endf_Proofs Endf_Props Intg_Model Intg_Spec Intg_Props SampleCorr_Model Rcov_Model Rcov_Spec Rcov_Proofs Rcov2_Proofs Rcov3_Proofs.
From Coq Require Import Permutation Sorting.Sorted Lia.
Local Open Scope list_scope.
Local Open Scope nat_scope.

(** ** C75: reading *)
(** The table of File 2: the resonances of all l-values in the order of the file, numbered
    from 0. *)
Theorem C75_file2 : forall fm items flag ws h ls rest, head_text (n1 items) flag (Z.of_nat (length ws)) h -> ws <> [] -> waves_text ws ls ->
  exists t, file2_from_endf fm items (h ++ ls ++ rest) = Some (t, rest) /\ map fst t = seq 0 (length t) /\
    Forall2 (f2_meant fm) (flat_map (fun w => map (pair w) (w_res w)) ws) (map snd t).
Proof.
  intros fm items flag ws h ls rest Hh Hw Ht. exists (labelled (flat_map (f2_rows fm) ws)). split; [exact (file2_ok fm items flag ws h ls rest Hh Hw Ht)|].
  split; [now rewrite labelled_fst, labelled_length|]. rewrite labelled_snd. clear Hh Hw.
  induction Ht as [|w ws l ls H1 H2 H3 IH]; [constructor|]. cbn [flat_map]. apply Forall2_app; [|exact IH]. unfold f2_rows. clear H1.
  induction H2 as [|r rs Hr Hrs IH2]; [constructor|]. cbn [map]. constructor; [|exact IH2]. unfold f2_meant, f2_row.
  do 7 (destruct r as [|? r]; try (cbn in Hr; lia)). unfold fld. cbn [nth skipn app qsum fold_right].
  destruct fm; [| |reflexivity]; (destruct (0 <? w_x w)%Z; [|reflexivity]); do 6 f_equal; f_equal; ring.
Qed.
Print Assumptions C75_file2.

(** The general format with one block of short-range covariances: the matrix has exactly the
    upper triangle listed, and the table the resonances in order, with l and competitive width
    of the resonances of File 2 of these energies.  Long-range covariances are left unread. *)
Theorem C75_general : forall fm items file2 nlong b ls rest, general_text (n1 items) nlong [b] ls ->
  same_energies (s_res b) file2 -> s_res b <> [] ->
  exists r m, cov_from_endf fm items file2 (ls ++ rest) = Some (r, rest) /\ range_of fm (c1 items) (c2 items) 1 (s_res b) file2 r /\
    r_mpar r = s_mpar b /\ r_cov r = (s_mpar b * length (s_res b), m) /\ upper_part (s_mpar b * length (s_res b)) (s_cov b) m.
Proof.
  intros fm items file2 nlong b ls rest H P N. assert (E : flat_map s_res ([] ++ [b]) = s_res b) by (cbn [app flat_map]; apply app_nil_r).
  destruct (general_ok fm items file2 nlong [] b ls rest H) as (r & m & E1 & R & Ec & U & Em); rewrite ?E; try assumption.
  rewrite E in *. exists r, m. unfold s_size in *. repeat (split; [assumption|]). split; [|split; assumption].
  rewrite Em. apply Nat.div_mul. destruct (s_res b); [now destruct N|discriminate].
Qed.
Print Assumptions C75_general.

(** With several blocks the resonances of all are kept, but only the last matrix; the number of
    parameters per resonance is what is left when its size is divided by all resonances. *)
Theorem C75_blocks_refuted : forall fm items file2 nlong bs b ls rest, general_text (n1 items) nlong (bs ++ [b]) ls ->
  same_energies (flat_map s_res (bs ++ [b])) file2 -> flat_map s_res bs <> [] -> 0 < s_mpar b ->
  exists r m, cov_from_endf fm items file2 (ls ++ rest) = Some (r, rest) /\ range_of fm (c1 items) (c2 items) 1 (flat_map s_res (bs ++ [b])) file2 r /\
    r_cov r = (s_mpar b * length (s_res b), m) /\ upper_part (s_mpar b * length (s_res b)) (s_cov b) m /\
    fst (r_cov r) < s_mpar b * length (r_params r) /\ (length (s_res b) <> 0 -> r_mpar r < s_mpar b).
Proof.
  intros fm items file2 nlong bs b ls rest H P N Hm.
  destruct (general_ok fm items file2 nlong bs b ls rest H P) as (r & m & E1 & R & Ec & U & Em).
  { rewrite flat_map_app. destruct (flat_map s_res bs); [now destruct N|discriminate]. }
  exists r, m. repeat (split; [assumption|]).
  assert (L : length (s_res b) < length (flat_map s_res (bs ++ [b]))).
  { rewrite flat_map_app, app_length. cbn [flat_map]. rewrite app_nil_r. destruct (flat_map s_res bs); [now destruct N|cbn [length]; lia]. }
  assert (Lp : length (r_params r) = length (flat_map s_res (bs ++ [b]))).
  { destruct R as (_ & _ & _ & _ & _ & F & _). rewrite <- (map_length fst), F. apply seq_length. }
  rewrite Ec, Lp. cbn [fst]. unfold s_size in *. split; [nia|]. intros N0. rewrite Em. apply Nat.div_lt_upper_bound; nia.
Qed.
Print Assumptions C75_blocks_refuted.

(** The compact format: the covariance of two parameters is their correlation (as read from
    the INTG lines, C37) times their deviations. *)
Theorem C75_compact : forall fm items file2 rs npar nd nrow xs ls rest, compact_text (n1 items) rs (record npar nd nrow xs) ls -> rs <> [] ->
  same_energies (map fst rs) file2 ->
  let u := flat_map (fun p => counting (match fm with Rm => true | _ => false end) (snd p)) rs in length u = npar ->
  exists r m, cov_from_endf fm items file2 (ls ++ rest) = Some (r, rest) /\ range_of fm (c1 items) (c2 items) 2 (map fst rs) file2 r /\
    r_cov r = (npar, m) /\ r_mpar r = npar / length rs /\
    (forall i, m i i = (nth i u 0 * nth i u 0)%Qc) /\
    (forall i j, i <> j -> m i j = (nth i u 0 * observed nd xs (Nat.max i j) (Nat.min i j) * nth j u 0)%Qc) /\ (forall i j, m i j = m j i).
Proof.
  intros fm items file2 rs npar nd nrow xs ls rest H N P u L. destruct (compact_ok fm items file2 rs npar nd nrow xs ls rest H N P) as [_ W].
  destruct (W L) as (r & m & E1 & R & Ec & Em & Hm). exists r, m. change (is_rm fm) with (match fm with Rm => true | _ => false end) in Hm. fold u in Hm.
  repeat (split; [assumption|]). split; [|split].
  - intros i. rewrite Hm, Nat.eqb_refl. ring.
  - intros i j D. rewrite Hm, (proj2 (Nat.eqb_neq i j) D). reflexivity.
  - intros i j. rewrite !Hm, (Nat.eqb_sym j i), (Nat.max_comm j i), (Nat.min_comm j i). ring.
Qed.
Print Assumptions C75_compact.

(** A deviation of 0 (a parameter that is known) is dropped, and the numbers left no longer fit
    the correlations: nothing is read. *)
Theorem C75_known_refuted : forall fm items file2 rs npar nd nrow xs ls rest, compact_text (n1 items) rs (record npar nd nrow xs) ls -> rs <> [] ->
  same_energies (map fst rs) file2 ->
  length (flat_map (fun p => counting (match fm with Rm => true | _ => false end) (snd p)) rs) <> npar -> cov_from_endf fm items file2 (ls ++ rest) = None.
Proof. intros fm items file2 rs npar nd nrow xs ls rest H N P L. exact (proj1 (compact_ok fm items file2 rs npar nd nrow xs ls rest H N P) L). Qed.
Print Assumptions C75_known_refuted.

(** The compatible format with the resonances of one l-value: what is between resonances is 0, and
    of one resonance each covariance is where it belongs, except that of the neutron and the
    capture width. *)
Theorem C75_compatible : forall fm items file2 rss rs ls rest, fm <> Rm -> compat_text (n1 items) rss ls ->
  filter (fun l => negb (length l =? 0)) rss = [rs] -> same_energies rs file2 ->
  exists r m, cov_from_endf fm items file2 (ls ++ rest) = Some (r, rest) /\ range_of fm (c1 items) (c2 items) 0 (map (firstn 6) rs) file2 r /\
    r_cov r = (4 * length rs, m) /\ r_mpar r = 4 /\
    (forall k a b p, k < length rs -> a < 4 -> b < 4 -> (a, b) <> (1, 2) -> meant_place a b = Some p -> m (4 * k + a) (4 * k + b) = nth p (nth k rs []) 0%Qc) /\
    (forall k a b, k < length rs -> a < 4 -> b < 4 -> meant_place a b = None -> m (4 * k + a) (4 * k + b) = 0%Qc) /\
    (forall i j, i / 4 <> j / 4 -> m i j = 0%Qc).
Proof.
  intros fm items file2 rss rs ls rest Hf H E P. destruct (compatible_ok fm items file2 rss ls rest Hf H) as [_ W].
  destruct (W rs E P) as (r & m & E1 & R & Ec & Em & P1 & P2). exists r, m. repeat (split; [assumption|]). split; [|split].
  - intros k a b p Hk Ha Hb D Hp. rewrite P1 by assumption. assert (X : read_place a b = Some p); [|now rewrite X].
    unfold read_place. destruct a as [|[|[|[|a]]]]; try lia; destruct b as [|[|[|[|b]]]]; try lia; try exact Hp. now destruct D.
  - intros k a b Hk Ha Hb Hp. rewrite P1 by assumption. assert (X : read_place a b = None); [|now rewrite X].
    unfold read_place. destruct a as [|[|[|[|a]]]]; try lia; destruct b as [|[|[|[|b]]]]; try lia; try exact Hp; reflexivity.
  - intros i j D. apply P2. now left.
Qed.
Print Assumptions C75_compatible.

(** That one is lost: it is 0 whatever the file says. *)
Theorem C75_pair_refuted : forall fm items file2 rss rs ls rest, fm <> Rm -> compat_text (n1 items) rss ls ->
  filter (fun l => negb (length l =? 0)) rss = [rs] -> same_energies rs file2 ->
  exists r m, cov_from_endf fm items file2 (ls ++ rest) = Some (r, rest) /\ r_cov r = (4 * length rs, m) /\
    meant_place 1 2 = Some 8 /\ forall k, k < length rs -> m (4 * k + 1) (4 * k + 2) = 0%Qc.
Proof.
  intros fm items file2 rss rs ls rest Hf H E P. destruct (compatible_ok fm items file2 rss ls rest Hf H) as [_ W].
  destruct (W rs E P) as (r & m & E1 & R & Ec & Em & P1 & P2). exists r, m. repeat (split; [assumption||reflexivity|]).
  intros k Hk. now rewrite P1 by lia.
Qed.
Print Assumptions C75_pair_refuted.

(** Two l-values with resonances: nothing is read. *)
Theorem C75_waves_refuted : forall fm items file2 rss ls rest, fm <> Rm -> compat_text (n1 items) rss ls ->
  2 <= length (filter (fun l => negb (length l =? 0)) rss) -> cov_from_endf fm items file2 (ls ++ rest) = None.
Proof. intros fm items file2 rss ls rest Hf H L. exact (proj1 (compatible_ok fm items file2 rss ls rest Hf H) L). Qed.
Print Assumptions C75_waves_refuted.

(** Covariances of only some of the resonances of File 2 are not read. *)
Theorem C75_some_refuted : forall fm items file2 nlong b ls rest, general_text (n1 items) nlong [b] ls -> length (s_res b) <> length file2 ->
  cov_from_endf fm items file2 (ls ++ rest) = None.
Proof.
  intros fm items file2 nlong b ls rest (nls & h & l & a & a' & i & j & body & -> & Hh & Hc & Hs) N. rewrite <- app_assoc. rewrite (cov_head _ _ _ _ _ _ _ Hh).
  cbn [app]. change (1 =? 1)%Z with true. cbv iota. unfold general. rewrite (C36_cont _ _ _ _ _ _ _ _ Hc). cbn [n1]. rewrite Nat2Z.id.
  destruct (blocks_ok _ _ rest Hs) as (o & -> & Ho). cbn [rev app] in Ho. destruct Ho as (m & -> & _). cbv beta iota. cbn [flat_map]. rewrite app_nil_r.
  destruct (length (s_res b) =? 0); [reflexivity|]. unfold add_file2. now rewrite (proj2 (Nat.eqb_neq _ _) N).
Qed.
Print Assumptions C75_some_refuted.

(** A whole section: the ranges of all isotopes, in order, each as stated. *)
Theorem C75_section : forall res h za awr i j n dss ls rest, control_line h za awr i j (Z.of_nat (length dss)) n -> isotopes_text res dss ls ->
  exists rs, covariances_from_endf res (h :: ls ++ rest) = Some rs /\ Forall2 stated_range (concat dss) rs.
Proof.
  intros res h za awr i j n dss ls rest Hh H. unfold covariances_from_endf. rewrite (head_record_ok _ _ _ _ _ _ _ _ Hh). rewrite Nat2Z.id.
  destruct (isotopes_ok res dss ls rest H) as (rs & F & _ & E). specialize (E 0). rewrite Nat.add_0_r in E. exists rs. rewrite E. cbn [cov_isotopes]. now rewrite app_nil_r.
Qed.
Print Assumptions C75_section.

(** Each isotope starts again with the first range of File 2: when every isotope has one range,
    all are combined with the table of the first. *)
Theorem C75_isotopes_refuted : forall res h za awr i j n dss ls rest, control_line h za awr i j (Z.of_nat (length dss)) n -> isotopes_text res dss ls ->
  Forall (fun ds => length ds = 1) dss ->
  exists rs, covariances_from_endf res (h :: ls ++ rest) = Some rs /\ length rs = length dss /\ forall r, In r rs -> nth_error res 0 = Some (Some (r_file2 r)).
Proof.
  intros res h za awr i j n dss ls rest Hh H F. unfold covariances_from_endf. rewrite (head_record_ok _ _ _ _ _ _ _ _ Hh). rewrite Nat2Z.id.
  destruct (isotopes_ok res dss ls rest H) as (rs & _ & F2 & E). specialize (E 0). rewrite Nat.add_0_r in E. exists rs. rewrite E. cbn [cov_isotopes]. rewrite app_nil_r.
  split; [reflexivity|]. assert (L : length (concat dss) = length dss).
  { clear - F. induction F as [|x l Hx Hl IH]; [reflexivity|]. cbn [concat length]. rewrite app_length, IH, Hx. reflexivity. }
  split; [rewrite <- L; clear - F2; induction F2; [reflexivity|cbn [length]; now f_equal]|].
  assert (G : forall d, In d (concat dss) -> nth_error res 0 = Some (Some (t_file2 d))).
  { clear - H F. induction H as [|h a b i j n ds dss l ls Hc Hr H IH]; [intros d []|]. inversion F as [|? ? F1 F2]; subst. cbn [concat]. intros d Hd. apply in_app_or in Hd.
    destruct Hd as [Hd|Hd]; [|now apply IH]. destruct ds as [|d0 [|? ?]]; try discriminate. destruct Hd as [<-|[]]. now inversion Hr. }
  intros r Hr. clear - F2 G Hr. induction F2 as [|d r0 ds rs E F2 IH]; [destruct Hr|]. destruct Hr as [<-|Hr].
  - rewrite E. apply G. now left.
  - apply IH; [|exact Hr]. intros d' Hd'. apply G. now right.
Qed.
Print Assumptions C75_isotopes_refuted.

(** An unresolved range at the end of the section is passed over. *)
Theorem C75_unresolved : forall res h za awr i j n dss ls k a b i' j' n' ds l u c d lrf nro naps rest,
  control_line h za awr i j (Z.of_nat (S (length dss))) n -> isotopes_text res dss ls ->
  control_line k a b i' j' (Z.of_nat (S (length ds))) n' -> ranges_text res 0 ds l ->
  control_line u c d 2 lrf nro naps -> lrf <> 0%Z -> lrf <> 7%Z ->
  exists rs, covariances_from_endf res (h :: ls ++ k :: l ++ u :: rest) = Some rs /\ Forall2 stated_range (concat dss ++ ds) rs.
Proof.
  intros res h za awr i j n dss ls k a b i' j' n' ds l u c d lrf nro naps rest Hh H Hk Hr Hu N0 N7.
  unfold covariances_from_endf. rewrite (head_record_ok _ _ _ _ _ _ _ _ Hh). rewrite Nat2Z.id.
  destruct (isotopes_ok res dss ls (k :: l ++ u :: rest) H) as (rs & F & _ & E). destruct (ranges_ok res 0 ds l (u :: rest) Hr) as (rs' & F' & _ & E').
  exists (rs ++ rs'). split; [|now apply Forall2_app].
  replace (S (length dss)) with (length dss + 1) by lia. rewrite E. cbn [cov_isotopes]. rewrite (C36_cont _ _ _ _ _ _ _ _ Hk). cbn [n1].
  rewrite Nat2Z.id. replace (S (length ds)) with (length ds + 1) by lia. rewrite (E' 1). cbn [cov_ranges].
  rewrite (C36_cont _ _ _ _ _ _ _ _ Hu). cbn [l1 l2]. rewrite (proj2 (Z.eqb_neq _ _) N0), (proj2 (Z.eqb_neq _ _) N7). cbn [orb Z.eqb Pos.eqb]. now rewrite !app_nil_r.
Qed.
Print Assumptions C75_unresolved.

(** Elsewhere it is not: its own lines are taken for those of the next isotope, and reading
    ends with an exception. *)
Theorem C75_unresolved_refuted : forall res h za awr i j m n k a b i' j' n' u c d lrf nro naps v e f i2 j2 nls n2 w g o i3 n3 n4 rest,
  control_line h za awr i j (Z.of_nat (S (S m))) n ->
  control_line k a b i' j' 1 n' -> control_line u c d 2 lrf nro naps -> lrf <> 0%Z -> lrf <> 7%Z ->
  (* the unresolved range: a line with the number of l-values, then a list with 0 as its second integer *)
  control_line v e f i2 j2 nls n2 -> (0 < nls)%Z -> control_line w g o i3 0 n3 n4 ->
  covariances_from_endf res (h :: k :: u :: v :: w :: rest) = None.
Proof.
  intros res h za awr i j m n k a b i' j' n' u c d lrf nro naps v e f i2 j2 nls n2 w g o i3 n3 n4 rest Hh Hk Hu N0 N7 Hv Hn Hw.
  unfold covariances_from_endf. rewrite (head_record_ok _ _ _ _ _ _ _ _ Hh). rewrite Nat2Z.id. cbn [cov_isotopes].
  rewrite (C36_cont _ _ _ _ _ _ _ _ Hk). cbn [n1]. change (Z.to_nat 1) with 1. cbn [cov_ranges].
  rewrite (C36_cont _ _ _ _ _ _ _ _ Hu). cbn [l1 l2]. rewrite (proj2 (Z.eqb_neq _ _) N0), (proj2 (Z.eqb_neq _ _) N7). cbn [orb Z.eqb Pos.eqb].
  rewrite (C36_cont _ _ _ _ _ _ _ _ Hv). cbn [n1]. destruct (Z.to_nat nls) as [|q] eqn:Eq; [lia|]. cbn [cov_ranges].
  rewrite (C36_cont _ _ _ _ _ _ _ _ Hw). reflexivity.
Qed.
Print Assumptions C75_unresolved_refuted.

(** ** C76: use *)
(** A subset has the rows of File 2's table within the bounds, and of the matrix the entries of
    these, in the upper triangle. *)
Theorem C76_subset : forall c lo hi r, StronglySorted lt (map fst (r_file2 r)) ->
  (forall a, In a (map fst (r_file2 r)) -> a * r_mpar r + r_mpar r <= fst (r_cov r)) ->
  let ps := filter (fun p => qleb lo (c (snd p)) && qleb (c (snd p)) hi) (r_file2 r) in
  exists r' m, subset c lo hi r = Some r' /\ r_params r' = ps /\ r_file2 r' = ps /\ r_form r' = r_form r /\ r_mpar r' = r_mpar r /\
    r_cov r' = (r_mpar r * length ps, m) /\
    (forall p q a b x y, nth_error ps p = Some a -> nth_error ps q = Some b -> x < r_mpar r -> y < r_mpar r ->
      m (p * r_mpar r + x) (q * r_mpar r + y) =
      if p * r_mpar r + x <=? q * r_mpar r + y then snd (r_cov r) (fst a * r_mpar r + x) (fst b * r_mpar r + y) else 0%Qc).
Proof.
  intros c lo hi r Hs Hd ps. destruct (subset_ok c lo hi r Hs Hd) as (r' & m & E & E1 & E2 & E3 & E4 & E5 & U1 & U2).
  exists r', m. repeat (split; [assumption|]). intros p q a b x y Hp Hq Hx Hy.
  assert (Lq : q < length ps) by (apply nth_error_Some; congruence). assert (Lp : p < length ps) by (apply nth_error_Some; congruence).
  assert (Np : nth p (map fst ps) 0 = fst a) by (apply nth_error_nth; now rewrite nth_error_map, Hp).
  assert (Nq : nth q (map fst ps) 0 = fst b) by (apply nth_error_nth; now rewrite nth_error_map, Hq).
  destruct (Nat.leb_spec (p * r_mpar r + x) (q * r_mpar r + y)) as [L|L].
  - rewrite U1; [|exact L|]. 2: { change (filter (within c lo hi) (r_file2 r)) with ps. nia. }
    change (filter (within c lo hi) (r_file2 r)) with ps. rewrite !flat_nth by (rewrite ?map_length; lia). now rewrite Np, Nq.
  - apply U2. now left.
Qed.
Print Assumptions C76_subset.

(** The rows keep their old numbers, so a subset of a subset fails as soon as it has a row whose
    number is not below the number of rows there are. *)
Theorem C76_twice_refuted : forall c lo hi r r1 c' lo' hi' p, StronglySorted lt (map fst (r_file2 r)) ->
  (forall a, In a (map fst (r_file2 r)) -> a * r_mpar r + r_mpar r <= fst (r_cov r)) -> 0 < r_mpar r ->
  subset c lo hi r = Some r1 -> In p (r_params r1) -> length (r_params r1) <= fst p -> (lo' <= c' (snd p) <= hi')%Qc ->
  subset c' lo' hi' r1 = None.
Proof.
  intros c lo hi r r1 c' lo' hi' p Hs Hd Hm E Hp L [B1 B2]. destruct (subset_ok c lo hi r Hs Hd) as (r' & m & E' & E1 & E2 & E3 & E4 & E5 & _).
  rewrite E in E'. injection E' as <-. apply (subset_out c' lo' hi' r1 p).
  - now rewrite E2, <- E1.
  - unfold within. apply qleb_le in B1, B2. now rewrite B1, B2.
  - rewrite E5, E4. cbn [fst]. rewrite <- E1. nia.
  - lia.
Qed.
Print Assumptions C76_twice_refuted.

(** The rows are File 2's, the matrix is in File 32's order: if the first resonances differ, a
    row gets the variance of another resonance. *)
Theorem C76_order_refuted : forall r p q, StronglySorted lt (map fst (r_file2 r)) ->
  (forall a, In a (map fst (r_file2 r)) -> a * r_mpar r + r_mpar r <= fst (r_cov r)) -> 0 < r_mpar r -> NoDup (map energy (map snd (r_file2 r))) ->
  nth_error (r_file2 r) 0 = Some (0, p) -> nth_error (r_params r) 0 = Some (0, q) -> energy p <> energy q ->
  exists r' m, subset energy (energy p) (energy p) r = Some r' /\ r_params r' = [(0, p)] /\ r_cov r' = (r_mpar r, m) /\
    (* the variance of the energy of q *) m 0 0 = snd (r_cov r) 0 0.
Proof.
  intros r p q Hs Hd Hm N Hp Hq D. destruct (C76_subset energy (energy p) (energy p) r Hs Hd) as (r' & m & E & E1 & _ & _ & _ & E5 & Hc).
  assert (F : filter (fun p0 => qleb (energy p) (energy (snd p0)) && qleb (energy (snd p0)) (energy p)) (r_file2 r) = [(0, p)]).
  { destruct (r_file2 r) as [|p0 t]; [discriminate|]. injection Hp as ->. cbn [filter snd]. rewrite (proj2 (qleb_le _ _) (Qcle_refl _)). cbn [andb]. f_equal.
    cbn [map snd] in N. inversion N as [|? ? N1 N2]; subst. clear - N1. induction t as [|p1 t IH]; [reflexivity|]. cbn [filter]. cbn [map] in N1.
    destruct (qleb (energy p) (energy (snd p1)) && qleb (energy (snd p1)) (energy p)) eqn:B.
    - apply andb_prop in B. destruct B as [B1 B2]. apply qleb_le in B1, B2. exfalso. apply N1. left. now apply Qcle_antisym.
    - apply IH. intros C. apply N1. now right. }
  cbv zeta in *. rewrite F in *. exists r', m. split; [exact E|]. split; [exact E1|]. split; [rewrite E5; f_equal; cbn; lia|].
  specialize (Hc 0 0 (0, p) (0, p) 0 0 eq_refl eq_refl Hm Hm). cbn [Nat.mul Nat.add fst Nat.leb] in Hc. exact Hc.
Qed.
Print Assumptions C76_order_refuted.

(** Sampling: the means are the parameters of the table, the matrix the symmetric one of the upper
    triangle; of each draw there is a table of rows drawn in turn. *)
Theorem C76_sample : forall mvn n r, let ps := map snd (r_params r) in Forall (complete (r_form r)) ps ->
  fst (r_cov r) = r_mpar r * length ps -> In (r_mpar r) (match r_form r with Rm => [3; 5] | _ => [3; 4; 5] end) ->
  (forall mean c k, Forall (fun s => length s = length mean) (mvn mean c k)) ->
  let mean := flat_map (fun p => firstn (r_mpar r) (varying (r_form r) p)) ps in
  exists c ts, sample mvn n r = Some ts /\
    (forall i j, c i j = c j i) /\ ((forall i j, j < i -> snd (r_cov r) i j = 0%Qc) -> forall i j, i <= j -> c i j = snd (r_cov r) i j) /\
    Forall2 (fun s t => length t = length ps /\ forall i, i < length ps ->
      drawn (r_form r) (nth i ps (mkRes 0%Qc 0 0%Qc [])) (firstn (r_mpar r) (skipn (i * r_mpar r) s)) (nth i t (mkRes 0%Qc 0 0%Qc []))) (mvn mean c n) ts.
Proof.
  intros mvn n r ps Hc Hd Hm Hv mean. exists (symmetrized (snd (r_cov r))). unfold sample. fold ps.
  assert (Em : flat_map (fun p => firstn (r_mpar r) (varied (r_form r) p)) ps = mean).
  { unfold mean. apply flat_map_ext. intros p. destruct (r_form r); reflexivity. }
  assert (Mb : 3 <= r_mpar r <= 5) by (destruct (r_form r); cbn [In] in Hm; lia).
  assert (Lm : length mean = r_mpar r * length ps).
  { unfold mean. clear - Hc Mb. induction Hc as [|p l Hp Hl IH]; [cbn; lia|]. cbn [flat_map length]. rewrite app_length, IH, firstn_length.
    assert (length (varying (r_form r) p) = 5); [|lia]. unfold varying, complete in *. destruct (r_form r); destruct (widths p) as [|? w]; cbn [length tl] in *; lia. }
  rewrite Em, Lm, Hd, Nat.eqb_refl. cbn [negb].
  assert (A : forall l, Forall (fun s => length s = r_mpar r * length ps) l ->
    exists ts, all_some (map (one_sample (r_form r) (r_mpar r) ps) l) = Some ts /\
      Forall2 (fun s t => length t = length ps /\ forall i, i < length ps ->
        drawn (r_form r) (nth i ps (mkRes 0%Qc 0 0%Qc [])) (firstn (r_mpar r) (skipn (i * r_mpar r) s)) (nth i t (mkRes 0%Qc 0 0%Qc []))) l ts).
  { intros l Hl. induction Hl as [|s l Hs Hl IH]; [exists []; split; [reflexivity|constructor]|].
    destruct IH as (ts & E & F). destruct (chunks (r_mpar r) ltac:(lia) (length ps) s Hs) as (bl & -> & Lb & Fb).
    destruct (one_sample_ok (r_form r) (r_mpar r) ps bl Hc Lb Fb Hm) as (t & Et & Lt & Ht). exists (t :: ts). cbn [map all_some]. rewrite Et, E. split; [reflexivity|].
    constructor; [|exact F]. split; [exact Lt|]. intros i Hi. specialize (Ht i Hi).
    rewrite (skipn_concat (r_mpar r) bl i Fb), (skipn_nth [] i bl) by lia. cbn [concat].
    assert (Li : length (nth i bl []) = r_mpar r) by (apply (proj1 (Forall_forall _ _) Fb), nth_In; lia).
    rewrite firstn_app, Li, Nat.sub_diag, firstn_O, app_nil_r, <- Li, firstn_all. exact Ht. }
  destruct (A (mvn mean (symmetrized (snd (r_cov r))) n)) as (ts & E & F); [rewrite <- Lm; apply Hv|]. exists ts. split; [exact E|]. split; [|split; [|exact F]].
  - intros i j. unfold symmetrized. rewrite (Nat.eqb_sym j i). destruct (Nat.eqb_spec i j) as [->|_]; ring.
  - intros U i j Hij. unfold symmetrized. destruct (Nat.eqb_spec i j) as [->|D]; [ring|]. rewrite (U j i) by lia. ring.
Qed.
Print Assumptions C76_sample.

(** The matrix of the compact format is symmetric already, and sampling doubles what is off its
    diagonal: a correlation above one half becomes one above 1. *)
Theorem C76_doubled_refuted : forall n r, (forall i j, snd (r_cov r) i j = snd (r_cov r) j i) ->
  let ps := map snd (r_params r) in let mean := flat_map (fun p => firstn (r_mpar r) (varying (r_form r) p)) ps in
  exists c, (forall mvn mvn', mvn mean c n = mvn' mean c n -> sample mvn n r = sample mvn' n r) /\
    (forall i, c i i = snd (r_cov r) i i) /\ (forall i j, i <> j -> c i j = (qz 2 * snd (r_cov r) i j)%Qc) /\
    (forall i j, i <> j -> (snd (r_cov r) i i * snd (r_cov r) j j < qz 4 * (snd (r_cov r) i j * snd (r_cov r) i j))%Qc -> (c i i * c j j < c i j * c i j)%Qc).
Proof.
  intros n r Hs ps mean. exists (symmetrized (snd (r_cov r))).
  assert (A : forall i, symmetrized (snd (r_cov r)) i i = snd (r_cov r) i i) by (intros i; unfold symmetrized; rewrite Nat.eqb_refl; ring).
  assert (Two : (qz 2 = 1 + 1)%Qc) by (apply Qc_is_canon; reflexivity). assert (Four : (qz 4 = qz 2 * qz 2)%Qc) by (apply Qc_is_canon; reflexivity).
  assert (B : forall i j, i <> j -> symmetrized (snd (r_cov r)) i j = (qz 2 * snd (r_cov r) i j)%Qc).
  { intros i j D. unfold symmetrized. rewrite (proj2 (Nat.eqb_neq i j) D), (Hs j i), Two. ring. }
  split; [|split; [exact A|split; [exact B|]]].
  - intros mvn mvn' E. unfold sample. fold ps. assert (Em : flat_map (fun p => firstn (r_mpar r) (varied (r_form r) p)) ps = mean).
    { unfold mean. apply flat_map_ext. intros p. destruct (r_form r); reflexivity. }
    rewrite Em. destruct (negb (length mean =? fst (r_cov r))); [reflexivity|]. now rewrite E.
  - intros i j D L. rewrite !A, (B i j D). rewrite Four in L. replace (qz 2 * snd (r_cov r) i j * (qz 2 * snd (r_cov r) i j))%Qc with (qz 2 * qz 2 * (snd (r_cov r) i j * snd (r_cov r) i j))%Qc by ring. exact L.
Qed.
Print Assumptions C76_doubled_refuted.

(** Reich-Moore with four parameters per resonance: no table can be made. *)
Theorem C76_four_refuted : forall mvn n r, r_form r = Rm -> r_mpar r = 4 -> r_params r <> [] -> Forall (complete Rm) (map snd (r_params r)) ->
  (forall mean c k, length (mvn mean c k) = k /\ Forall (fun s => length s = length mean) (mvn mean c k)) -> 0 < n -> sample mvn n r = None.
Proof.
  intros mvn n r Hf Hm N Hc Hv Hn. unfold sample. rewrite Hf, Hm. set (ps := map snd (r_params r)) in *. set (mean := flat_map (fun p => firstn 4 (varied Rm p)) ps).
  destruct (Nat.eqb_spec (length mean) (fst (r_cov r))) as [E|E]; [|reflexivity]. cbn [negb]. destruct (Hv mean (symmetrized (snd (r_cov r))) n) as [L F].
  destruct (mvn mean (symmetrized (snd (r_cov r))) n) as [|s l]; [cbn in L; lia|]. inversion F as [|? ? F1 F2]; subst.
  assert (Np : ps <> []) by (unfold ps; destruct (r_params r); [now destruct N|discriminate]).
  assert (Lm : length mean = 4 * length ps).
  { unfold mean. clear - Hc. induction Hc as [|p l Hp Hl IH]; [reflexivity|]. cbn [flat_map length]. rewrite app_length, IH, firstn_length.
    unfold varied, complete in *. cbn [is_rm length]. lia. }
  destruct (chunks 4 ltac:(lia) (length ps) s) as (bl & -> & Lb & Fb); [congruence|].
  cbn [map all_some]. now rewrite one_sample_four.
Qed.
Print Assumptions C76_four_refuted.

(** ** Cases *)
(** Text of small whole numbers, six to a line. *)
Definition whole (m : N) : Qc := value false m 0 false 0.
Definition small (m : N) : text := pad 11 (decN m).
Fixpoint lay (fuel : nat) (vs : list N) : list text :=
  match fuel, vs with
  | S f, _ :: _ => (concat (map small (firstn 6 vs)) ++ []) :: lay f (skipn 6 vs)
  | _, _ => []
  end.
Definition brief (vs : list N) : Prop := Forall (fun v => length (decN v) <= 11) vs.
Lemma small_ok vs : brief vs -> Forall2 number_field (map small vs) (map whole vs).
Proof.
  induction 1 as [|v vs Hv Hvs IH]; [constructor|]. cbn [map]. constructor; [|exact IH]. unfold small, pad. split.
  - rewrite app_length, repeat_length. lia.
  - rewrite <- (app_nil_r (decN v)). exact (den_integer (11 - length (decN v ++ [])) 0 None (decN v) v (ex_intro _ 0 eq_refl)).
Qed.
Lemma lay_ok : forall fuel vs, length vs <= fuel -> brief vs -> rows number_field 6 (map whole vs) (lay fuel vs).
Proof.
  induction fuel as [|f IH]; intros vs L B; [destruct vs; [constructor|cbn in L; lia]|].
  destruct vs as [|v0 vs0]; [constructor|]. cbn [lay]. set (vs := v0 :: vs0) in *.
  assert (B1 : brief (firstn 6 vs)) by (apply Forall_forall; intros x Hx; apply (proj1 (Forall_forall _ _) B); rewrite <- (firstn_skipn 6 vs); apply in_or_app; now left).
  assert (B2 : brief (skipn 6 vs)) by (apply Forall_forall; intros x Hx; apply (proj1 (Forall_forall _ _) B); rewrite <- (firstn_skipn 6 vs); apply in_or_app; now right).
  destruct (Nat.le_gt_cases (length vs) 6) as [S6|S6].
  - rewrite firstn_all2, skipn_all2 by exact S6. replace (lay f []) with (@nil text) by (destruct f; reflexivity).
    apply rows_last; [discriminate|now rewrite map_length|now apply small_ok].
  - rewrite <- (firstn_skipn 6 vs) at 1. rewrite map_app. apply rows_more; [rewrite map_length, firstn_length; lia| |now apply small_ok|].
    + intros C. apply map_eq_nil in C. apply (f_equal (@length N)) in C. rewrite skipn_length in C. change (length (@nil N)) with 0 in C. lia.
    + apply IH; [rewrite skipn_length; lia|exact B2].
Qed.
Definition line (i j k n : Z) : text := ctl (1000000%N, 0%N) (2000000%N, 3%N) i j k n [].
Definition lo0 : Qc := value false 1000000 6 false 0.
Definition hi0 : Qc := value false 2000000 6 false 3.
Definition listed (i j n : Z) (vs : list N) : list text := line i j (Z.of_nat (length vs)) n :: lay (length vs) vs.
Lemma listed_ok i j n vs qs : length (decZ i) <= 11 -> length (decZ j) <= 11 -> length (decZ n) <= 11 -> length (decZ (Z.of_nat (length vs))) <= 11 -> brief vs ->
  map whole vs = qs -> list_text i j n qs (listed i j n vs).
Proof.
  intros Hi Hj Hn Hk B <-. do 4 eexists. split; [reflexivity|]. rewrite map_length. split; [apply ctl_ok; try assumption; lens|]. now apply lay_ok.
Qed.
Ltac listed_tac := apply listed_ok; [lens|lens|lens|lens|repeat constructor; lens|reflexivity].
Ltac line_tac := apply ctl_ok; lens.
Lemma header_ok flag nls : length (decZ flag) <= 11 -> length (decZ nls) <= 11 -> head_text 0 flag nls [line 0 flag nls 0].
Proof. intros A B. exists [], (line 0 flag nls 0). do 4 eexists. split; [reflexivity|]. split; [now left|]. apply ctl_ok; try assumption; lens. Qed.

(** File 2: resonances at 10 and 20 with l = 0, one at 15 with l = 1. *)
Definition ex_items : cont := {| c1 := Some lo0; c2 := Some hi0; l1 := 1; l2 := 1; n1 := 0; n2 := 0 |}.
Definition res10 : list N := [10; 1; 9; 3; 2; 1]%N.
Definition res20 : list N := [20; 2; 8; 2; 2; 2]%N.
Definition res15 : list N := [15; 0; 7; 4; 3; 0]%N.
Definition ex_waves : list wave := [{| w_l := 0; w_x := 1; w_res := map (map whole) [res10; res20] |}; {| w_l := 1; w_x := 0; w_res := map (map whole) [res15] |}].
Example C75_file2_hypotheses_met : exists h ls, head_text (n1 ex_items) 0 (Z.of_nat (length ex_waves)) h /\ ex_waves <> [] /\ waves_text ex_waves ls.
Proof.
  exists [line 0 0 2 0], (listed 0 1 2 (res10 ++ res20) ++ listed 1 0 1 res15 ++ []). split; [apply header_ok; lens|]. split; [discriminate|].
  apply wt_cons; [listed_tac|repeat constructor|]. apply wt_cons; [listed_tac|repeat constructor|constructor].
Qed.
(** Its table: competitive widths 9 - 6, 8 - 6 and none. *)
Definition ex_table : table :=
  labelled [mkRes (whole 10) 0 (whole 1) [whole 9; whole 3; whole 2; whole 1; whole 3];
            mkRes (whole 20) 0 (whole 2) [whole 8; whole 2; whole 2; whole 2; whole 2];
            mkRes (whole 15) 1 (whole 0) [whole 7; whole 4; whole 3; whole 0; 0%Qc]].
Example C75_file2_rows : Forall2 (f2_meant Slbw) (flat_map (fun w => map (pair w) (w_res w)) ex_waves) (map snd ex_table).
Proof.
  repeat constructor; cbn; repeat f_equal; apply Qc_is_canon; reflexivity.
Qed.

(** The general format, three parameters per resonance, the resonances in another order. *)
Definition ex_short : short := {| s_mpar := 3; s_res := map (map whole) [res20; res10; res15]; s_cov := fun i j => whole (N.of_nat (20 * i + j)) |}.
Definition ex_listing (n : nat) : list N := flat_map (fun i => map (fun j => N.of_nat (20 * i + j)) (seq i (n - i))) (seq 0 n).
Definition ex_general : list text := [line 0 1 1 0; line 0 0 1 0] ++ listed 3 0 3 (res20 ++ res10 ++ res15 ++ ex_listing 9) ++ [].
Lemma ex_general_ok : general_text (n1 ex_items) 0 [ex_short] ex_general.
Proof.
  exists 1%Z, [line 0 1 1 0], (line 0 0 1 0). do 5 eexists. split; [reflexivity|]. split; [apply header_ok; lens|]. split; [line_tac|].
  apply (sh_cons _ _ _ _ 0); [listed_tac|repeat constructor|constructor].
Qed.
Example C75_general_hypotheses_met : general_text (n1 ex_items) 0 [ex_short] ex_general /\ same_energies (s_res ex_short) ex_table /\ s_res ex_short <> [].
Proof.
  split; [exact ex_general_ok|]. split; [|discriminate]. unfold same_energies. cbn. apply perm_swap.
Qed.
(** Two blocks: of the covariances of the first nothing is left, and the second's
    2 x 2 matrix is taken for less than one parameter of each of the three resonances. *)
Definition ex_short1 : short := {| s_mpar := 2; s_res := map (map whole) [res10; res20]; s_cov := fun i j => whole (N.of_nat (20 * i + j)) |}.
Definition ex_short2 : short := {| s_mpar := 2; s_res := map (map whole) [res15]; s_cov := fun i j => whole (N.of_nat (20 * i + j)) |}.
Example C75_blocks_hypotheses_met : exists ls, general_text (n1 ex_items) 0 ([ex_short1] ++ [ex_short2]) ls /\
  same_energies (flat_map s_res ([ex_short1] ++ [ex_short2])) ex_table /\ flat_map s_res [ex_short1] <> [] /\ 0 < s_mpar ex_short2.
Proof.
  exists ([line 0 1 1 0; line 0 0 2 0] ++ listed 2 0 2 (res10 ++ res20 ++ ex_listing 4) ++ listed 2 0 1 (res15 ++ ex_listing 2) ++ []). split; [|split; [|split]].
  - exists 1%Z, [line 0 1 1 0], (line 0 0 2 0). do 5 eexists. split; [reflexivity|]. split; [apply header_ok; lens|]. split; [line_tac|].
    apply (sh_cons _ _ _ _ 0); [listed_tac|repeat constructor|]. apply (sh_cons _ _ _ _ 0); [listed_tac|repeat constructor|constructor].
  - apply Permutation_refl.
  - discriminate.
  - cbn. lia.
Qed.
(** Covariances of one of the three. *)
Example C75_some_hypotheses_met : exists ls, general_text (n1 ex_items) 0 [ex_short2] ls /\ length (s_res ex_short2) <> length ex_table.
Proof.
  exists ([line 0 1 1 0; line 0 0 1 0] ++ listed 2 0 1 (res15 ++ ex_listing 2) ++ []). split; [|discriminate].
  exists 1%Z, [line 0 1 1 0], (line 0 0 1 0). do 5 eexists. split; [reflexivity|]. split; [apply header_ok; lens|]. split; [line_tac|].
  apply (sh_cons _ _ _ _ 0); [listed_tac|repeat constructor|constructor].
Qed.

(** The compact format: one resonance, deviations 1, 2, 3 of energy, neutron and capture width,
    correlations 0.105 and 0.505. *)
Definition one_table : table := labelled [mkRes (whole 10) 0 (whole 1) [whole 9; whole 3; whole 2; whole 1; whole 3]].
Definition ex_devs : list N := [1; 0; 0; 2; 3; 0]%N.
Definition ex_record : list text := [ctl (1000000, 0)%N (1000000, 0)%N 2 3 2 0 []; ex_il 2 1 (10%Z :: repeat 0%Z 17); ex_il 3 1 (50%Z :: (-20)%Z :: repeat 0%Z 16)].
Definition ex_compact : list text := [line 0 2 1 0] ++ listed 0 0 1 (res10 ++ ex_devs) ++ ex_record.
Lemma ex_record_ok : record 3 2 18 ex_intg ex_record.
Proof.
  do 5 eexists. split; [reflexivity|]. split; [apply ctl_ok; lens|]. split; [now left|].
  split; repeat constructor; cbn [row col ints]; try lia; try reflexivity; apply ex_il_ok; try lens; repeat constructor; lens.
Qed.
Lemma ex_compact_ok : compact_text (n1 ex_items) [(map whole res10, map whole ex_devs)] (record 3 2 18 ex_intg) ex_compact.
Proof.
  exists 1%Z, [line 0 2 1 0], 0%Z, 0%Z. do 2 eexists. split; [reflexivity|]. split; [apply header_ok; lens|]. split; [listed_tac|].
  split; [repeat constructor|exact ex_record_ok].
Qed.
Example C75_compact_hypotheses_met : compact_text (n1 ex_items) [(map whole res10, map whole ex_devs)] (record 3 2 18 ex_intg) ex_compact /\
  same_energies (map fst [(map whole res10, map whole ex_devs)]) one_table /\
  flat_map (fun p => counting false (snd p)) [(map whole res10, map whole ex_devs)] = map whole [1; 2; 3]%N.
Proof. split; [exact ex_compact_ok|]. split; [apply Permutation_refl|]. vm_compute. repeat f_equal; apply Qc_is_canon; reflexivity. Qed.
(** With a deviation 0 of the energy Breit-Wigner formats still count it, Reich-Moore does not. *)
Definition ex_devs0 : list N := [0; 0; 0; 2; 3; 0]%N.
Example C75_known_hypotheses_met : exists ls, compact_text (n1 ex_items) [(map whole res10, map whole ex_devs0)] (record 3 2 18 ex_intg) ls /\
  same_energies (map fst [(map whole res10, map whole ex_devs0)]) one_table /\
  length (flat_map (fun p => counting true (snd p)) [(map whole res10, map whole ex_devs0)]) <> 3.
Proof.
  exists ([line 0 2 1 0] ++ listed 0 0 1 (res10 ++ ex_devs0) ++ ex_record). split; [|split; [apply Permutation_refl|vm_compute; discriminate]].
  exists 1%Z, [line 0 2 1 0], 0%Z, 0%Z. do 2 eexists. split; [reflexivity|]. split; [apply header_ok; lens|]. split; [listed_tac|].
  split; [repeat constructor|exact ex_record_ok].
Qed.

(** The compatible format: two resonances of one l-value; then of two. *)
Definition eighteen (r : list N) : list N := r ++ [11; 12; 13; 14; 15; 16; 17; 0; 0; 0; 0; 0]%N.
Definition two_table : table := labelled [mkRes (whole 10) 0 (whole 1) [whole 9; whole 3; whole 2; whole 1; whole 3]; mkRes (whole 20) 0 (whole 2) [whole 8; whole 2; whole 2; whole 2; whole 2]].
Definition ex_rs : list (list Qc) := map (map whole) [eighteen res10; eighteen res20].
Definition ex_compat : list text := [line 0 0 2 0] ++ listed 0 0 2 (eighteen res10 ++ eighteen res20) ++ listed 0 1 0 [] ++ [].
Lemma ex_compat_ok : compat_text (n1 ex_items) [ex_rs; []] ex_compat.
Proof.
  exists [line 0 0 2 0]. eexists. split; [reflexivity|]. split; [apply header_ok; lens|].
  apply (ct_cons _ _ _ _ 0 0); [listed_tac|repeat constructor|]. apply (ct_cons [] _ _ _ 0 1); [listed_tac|constructor|constructor].
Qed.
Example C75_compatible_hypotheses_met : compat_text (n1 ex_items) [ex_rs; []] ex_compat /\
  filter (fun l => negb (length l =? 0)) [ex_rs; []] = [ex_rs] /\ same_energies ex_rs two_table /\
  (* what is lost of the first *) nth 8 (nth 0 ex_rs []) 0%Qc = whole 13.
Proof. split; [exact ex_compat_ok|]. split; [reflexivity|]. split; [apply Permutation_refl|reflexivity]. Qed.
Example C75_waves_hypotheses_met : exists ls, compat_text (n1 ex_items) [map (map whole) [eighteen res10]; map (map whole) [eighteen res20]] ls /\
  2 <= length (filter (fun l => negb (length l =? 0)) [map (map whole) [eighteen res10]; map (map whole) [eighteen res20]]).
Proof.
  exists ([line 0 0 2 0] ++ listed 0 0 1 (eighteen res10) ++ listed 0 1 1 (eighteen res20) ++ []). split; [|cbn; lia].
  exists [line 0 0 2 0]. eexists. split; [reflexivity|]. split; [apply header_ok; lens|].
  apply (ct_cons _ _ _ _ 0 0); [listed_tac|repeat constructor|]. apply (ct_cons _ _ _ _ 0 1); [listed_tac|repeat constructor|constructor].
Qed.

(** A section: an isotope with a range in each of the three formats. *)
Definition st1 : stated := {| t_form := Slbw; t_lo := lo0; t_hi := hi0; t_file2 := ex_table; t_said := Said_general ex_short |}.
Definition st2 : stated := {| t_form := Mlbw; t_lo := lo0; t_hi := hi0; t_file2 := one_table;
  t_said := Said_compact [(map whole res10, map whole ex_devs)] 3 2 18 ex_intg |}.
Definition st3 : stated := {| t_form := Slbw; t_lo := lo0; t_hi := hi0; t_file2 := two_table; t_said := Said_compatible [ex_rs; []] ex_rs |}.
Lemma ex_ranges_ok : ranges_text [Some ex_table; Some one_table; Some two_table] 0 [st1; st2; st3]
  (line 1 1 0 0 :: ex_general ++ line 1 2 0 0 :: ex_compact ++ line 1 1 0 0 :: ex_compat ++ []).
Proof.
  apply (rg_cons _ 0 _ 1 1 0 0); [line_tac|now right|now left|reflexivity| |].
  { split; [exact ex_general_ok|]. split; [|discriminate]. apply perm_swap. }
  apply (rg_cons _ 1 _ 1 2 0 0); [line_tac|now right|now right; left|reflexivity| |].
  { split; [exact ex_compact_ok|]. split; [apply Permutation_refl|]. split; [discriminate|reflexivity]. }
  apply (rg_cons _ 2 _ 1 1 0 0); [line_tac|now right|now left|reflexivity| |constructor].
  split; [exact ex_compat_ok|]. split; [discriminate|]. split; [reflexivity|apply Permutation_refl].
Qed.
Definition ex_section : list text := line 0 0 3 0 :: (line 1 1 0 0 :: ex_general ++ line 1 2 0 0 :: ex_compact ++ line 1 1 0 0 :: ex_compat ++ []) ++ [].
Example C75_section_hypotheses_met : exists h, control_line h lo0 hi0 0 0 (Z.of_nat (length [[st1; st2; st3]])) 0 /\
  isotopes_text [Some ex_table; Some one_table; Some two_table] [[st1; st2; st3]] ex_section.
Proof. exists (line 0 0 1 0). split; [line_tac|]. apply (is_cons _ _ lo0 hi0 0 0 0); [line_tac|exact ex_ranges_ok|constructor]. Qed.
(** Two isotopes with a range each: the second's can only be read if it has the resonances of the
    first's, not those of the second table. *)
Example C75_isotopes_hypotheses_met : exists ls, isotopes_text [Some ex_table; Some one_table] [[st1]; [st1]] ls /\ t_file2 st1 <> one_table.
Proof.
  assert (R : ranges_text [Some ex_table; Some one_table] 0 [st1] (line 1 1 0 0 :: ex_general ++ [])).
  { apply (rg_cons _ 0 _ 1 1 0 0); [line_tac|now right|now left|reflexivity| |constructor]. split; [exact ex_general_ok|]. split; [|discriminate]. apply perm_swap. }
  eexists. split; [|discriminate].
  apply (is_cons _ (line 0 0 1 0) lo0 hi0 0 0 0); [line_tac|exact R|]. apply (is_cons _ (line 0 0 1 0) lo0 hi0 0 0 0); [line_tac|exact R|constructor].
Qed.
Example C75_unresolved_hypotheses_met : exists h k u, control_line h lo0 hi0 0 0 (Z.of_nat (S (length (@nil (list stated))))) 0 /\
  isotopes_text [Some ex_table; Some one_table; Some two_table] [] [] /\ control_line k lo0 hi0 0 0 (Z.of_nat (S (length [st1; st2; st3]))) 0 /\
  control_line u lo0 hi0 2 1 0 0.
Proof. exists (line 0 0 1 0), (line 0 0 4 0), (line 2 1 0 0). split; [line_tac|]. split; [constructor|]. split; line_tac. Qed.
(** Two isotopes, the first with an unresolved range. *)
Example C75_unresolved_refuted_hypotheses_met : exists h k u v w, control_line h lo0 hi0 0 0 (Z.of_nat 2) 0 /\ control_line k lo0 hi0 0 0 1 0 /\
  control_line u lo0 hi0 2 1 0 0 /\ control_line v lo0 hi0 0 0 2 0 /\ control_line w lo0 hi0 0 0 12 2.
Proof. exists (line 0 0 2 0), (line 0 0 1 0), (line 2 1 0 0), (line 0 0 2 0), (line 0 0 12 2). repeat split; line_tac. Qed.

(** A range with three resonances and two parameters each, as read by the general format. *)
Definition ex_cov : nat -> nat -> Qc := fun i j => if i <=? j then whole (N.of_nat (20 * i + j)) else 0%Qc.
Definition ex_range : range := mkRange Slbw None None ex_table (6, ex_cov) 2 1 ex_table.
Example C76_subset_hypotheses_met : StronglySorted lt (map fst (r_file2 ex_range)) /\
  (forall a, In a (map fst (r_file2 ex_range)) -> a * r_mpar ex_range + r_mpar ex_range <= fst (r_cov ex_range)) /\
  (* the last two resonances *) exists r', subset energy (whole 12) (whole 30) ex_range = Some r' /\ map fst (r_params r') = [1; 2] /\
  snd (r_cov r') 0 3 = snd (r_cov ex_range) 2 5 /\ snd (r_cov r') 3 0 = 0%Qc.
Proof.
  split; [repeat constructor|]. split; [cbn; intros a [<-|[<-|[<-|[]]]]; lia|]. eexists. split; [reflexivity|]. split; [reflexivity|]. split; reflexivity.
Qed.
(** These two again: the row numbered 2 is looked for in a matrix of two rows. *)
Example C76_twice_hypotheses_met : exists r1 p, subset energy (whole 12) (whole 30) ex_range = Some r1 /\ In p (r_params r1) /\ length (r_params r1) <= fst p /\
  (whole 12 <= energy (snd p) <= whole 30)%Qc.
Proof.
  exists (match subset energy (whole 12) (whole 30) ex_range with Some r1 => r1 | None => ex_range end), (nth 2 ex_table (0, mkRes 0%Qc 0 0%Qc [])).
  split; [reflexivity|]. split; [right; left; reflexivity|]. split; [cbn; lia|]. split; apply qleb_le; reflexivity.
Qed.
(** File 32 with the resonance at 20 first. *)
Definition ex_swapped : range := mkRange Slbw None None
  (labelled [mkRes (whole 20) 0 (whole 2) [whole 8; whole 2; whole 2; whole 2; whole 2]; mkRes (whole 10) 0 (whole 1) [whole 9; whole 3; whole 2; whole 1; whole 3]])
  (6, ex_cov) 3 1 two_table.
Example C76_order_hypotheses_met : StronglySorted lt (map fst (r_file2 ex_swapped)) /\
  (forall a, In a (map fst (r_file2 ex_swapped)) -> a * r_mpar ex_swapped + r_mpar ex_swapped <= fst (r_cov ex_swapped)) /\
  NoDup (map energy (map snd (r_file2 ex_swapped))) /\
  exists p q, nth_error (r_file2 ex_swapped) 0 = Some (0, p) /\ nth_error (r_params ex_swapped) 0 = Some (0, q) /\ energy p <> energy q.
Proof.
  split; [repeat constructor|]. split; [cbn; intros a [<-|[<-|[]]]; lia|]. split; [|do 2 eexists; repeat split; discriminate].
  cbn. constructor; [intros [E|[]]; discriminate E|]. constructor; [intros []|constructor].
Qed.
(** Sampling from it. *)
Definition ex_mvn (mean : list Qc) (c : qmat) (k : nat) : list (list Qc) := repeat (map (fun x => (x + c 0%nat 1%nat)%Qc) mean) k.
Example C76_sample_hypotheses_met : Forall (complete (r_form ex_swapped)) (map snd (r_params ex_swapped)) /\
  fst (r_cov ex_swapped) = r_mpar ex_swapped * length (map snd (r_params ex_swapped)) /\ In (r_mpar ex_swapped) [3; 4; 5] /\
  (forall mean c k, Forall (fun s => length s = length mean) (ex_mvn mean c k)) /\ (forall i j, j < i -> snd (r_cov ex_swapped) i j = 0%Qc).
Proof.
  split; [repeat constructor|]. split; [reflexivity|]. split; [now left|]. split.
  - intros mean c k. apply Forall_forall. intros s Hs. apply repeat_spec in Hs. subst s. apply map_length.
  - intros i j H. cbn [r_cov ex_swapped snd]. unfold ex_cov. destruct (Nat.leb_spec i j); [lia|reflexivity].
Qed.
(** A matrix of the compact format: deviations 1, correlation 0.6 of energy and neutron width. *)
Definition ex_symmetric : range := mkRange Slbw None None one_table (3, fun i j => if i =? j then 1%Qc else if i + j =? 1 then qc 3 5 else 0%Qc) 3 2 one_table.
Example C76_doubled_hypotheses_met : (forall i j, snd (r_cov ex_symmetric) i j = snd (r_cov ex_symmetric) j i) /\
  (snd (r_cov ex_symmetric) 0%nat 0%nat * snd (r_cov ex_symmetric) 1%nat 1%nat < qz 4 * (snd (r_cov ex_symmetric) 0%nat 1%nat * snd (r_cov ex_symmetric) 0%nat 1%nat))%Qc.
Proof.
  split; [|reflexivity]. intros i j. cbn [r_cov ex_symmetric snd]. now rewrite (Nat.eqb_sym j i), (Nat.add_comm j i).
Qed.
Definition ex_rm : range := mkRange Rm None None (labelled [mkRes (whole 10) 0 (whole 1) [whole 3; whole 2; whole 1; whole 1]]) (4, ex_cov) 4 1
  (labelled [mkRes (whole 10) 0 (whole 1) [whole 3; whole 2; whole 1; whole 1]]).
Example C76_four_hypotheses_met : r_form ex_rm = Rm /\ r_mpar ex_rm = 4 /\ r_params ex_rm <> [] /\ Forall (complete Rm) (map snd (r_params ex_rm)) /\
  (forall mean c k, length (ex_mvn mean c k) = k /\ Forall (fun s => length s = length mean) (ex_mvn mean c k)).
Proof.
  split; [reflexivity|]. split; [reflexivity|]. split; [discriminate|]. split; [repeat constructor|]. intros mean c k. split; [apply repeat_length|].
  apply Forall_forall. intros s Hs. apply repeat_spec in Hs. subst s. apply map_length.
Qed.
