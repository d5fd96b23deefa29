From Verif Require Import Num Text Dec PyNum Endf_Model Endf_Spec Endf2_Spec Endf_Proofs.
From Coq Require Import ZArith NArith.
Local Open Scope list_scope.
Local Open Scope nat_scope.

(** ** Slices *)
Lemma slice_skip a b x t : length x <= a -> slice a b (x ++ t) = slice (a - length x) (b - length x) t.
Proof.
  intros H. unfold slice. rewrite skipn_app, skipn_all2 by exact H. cbn [app]. f_equal. lia.
Qed.
Lemma slice_take a b x t : b - a = length x -> a = 0 -> slice a b (x ++ t) = x.
Proof. intros H ->. unfold slice. cbn [skipn]. rewrite H. now rewrite firstn_app, firstn_all, Nat.sub_diag, app_nil_r. Qed.
Ltac slices := repeat (rewrite slice_skip by (rewrite ?app_length; cbn [length]; lia));
  try (rewrite slice_take by (rewrite ?app_length; cbn [length]; lia)).

Lemma integer_field_read t z : integer_field t z -> py_int t = Some z.
Proof. intros (_ & a & b & ->). apply py_int_dec. Qed.
Lemma number_field_read t x : number_field t x -> float_endf t = Some x.
Proof. intros (_ & H). now apply float_endf_denotes. Qed.

Lemma control_fields l a b i j k n : control_line l a b i j k n ->
  float_endf (slice 0 11 l) = Some a /\ float_endf (slice 11 22 l) = Some b /\
  py_int (slice 22 33 l) = Some i /\ py_int (slice 33 44 l) = Some j /\
  py_int (slice 44 55 l) = Some k /\ py_int (slice 55 66 l) = Some n.
Proof.
  intros (ta & tb & ti & tj & tk & tn & tail & -> & Ha & Hb & Hi & Hj & Hk & Hn).
  pose proof (proj1 Ha). pose proof (proj1 Hb). pose proof (proj1 Hi). pose proof (proj1 Hj).
  pose proof (proj1 Hk). pose proof (proj1 Hn).
  split; [|split; [|split; [|split; [|split]]]].
  - rewrite slice_take by lia. now apply number_field_read.
  - rewrite slice_skip, slice_take by lia. now apply number_field_read.
  - rewrite 2 slice_skip, slice_take by lia. now apply integer_field_read.
  - rewrite 3 slice_skip, slice_take by lia. now apply integer_field_read.
  - rewrite 4 slice_skip, slice_take by lia. now apply integer_field_read.
  - rewrite 5 slice_skip, slice_take by lia. now apply integer_field_read.
Qed.

Lemma get_cont_ok l a b i j k n rest : control_line l a b i j k n ->
  get_cont_record false (l :: rest) = Some ({| c1 := Some a; c2 := Some b; l1 := i; l2 := j; n1 := k; n2 := n |}, rest).
Proof.
  intros H. apply control_fields in H as (H1 & H2 & H3 & H4 & H5 & H6).
  unfold get_cont_record. cbn [readline]. now rewrite H1, H2, H3, H4, H5, H6.
Qed.
Lemma get_cont_skip_ok l a b i j k n rest : control_line l a b i j k n ->
  get_cont_record true (l :: rest) = Some ({| c1 := None; c2 := None; l1 := i; l2 := j; n1 := k; n2 := n |}, rest).
Proof.
  intros H. apply control_fields in H as (H1 & H2 & H3 & H4 & H5 & H6).
  unfold get_cont_record. cbn [readline]. now rewrite H3, H4, H5, H6.
Qed.

Lemma trunc_qz z : trunc (qz z) = z.
Proof.
  unfold trunc, qz. assert (E : this (Q2Qc (z # 1)) = z # 1).
  { cbn. unfold Qred. pose proof (Z.ggcd_gcd z 1) as G. pose proof (Z.ggcd_correct_divisors z 1) as D.
    destruct (Z.ggcd z 1) as [g [aa bb]]. cbn [fst snd] in *. rewrite Z.gcd_1_r in G. subst g.
    destruct D as [D1 D2]. rewrite Z.mul_1_l in D1, D2. subst. reflexivity. }
  rewrite E. cbn [Qnum Qden]. apply Z.quot_1_r.
Qed.

Lemma trunc_zero q : (trunc q =? 0)%Z = true <-> (- (1) < q)%Qc /\ (q < 1)%Qc.
Proof.
  destruct q as [[n d] c]. unfold trunc, Qclt, Qlt. cbn [this Qnum Qden]. rewrite Z.eqb_eq, Z.quot_small_iff by discriminate.
  change (this (- (1))%Qc) with (-1 # 1)%Q. change (this 1%Qc) with (1 # 1)%Q. cbn [Qnum Qden]. lia.
Qed.
Lemma library_ok n : library_name n (library n).
Proof.
  unfold library_name. destruct (in_dec Z.eq_dec n (map fst libraries)) as [I|I].
  - left. cbn [libraries map fst] in I. repeat (destruct I as [<-|I]; [vm_compute; tauto|]). destruct I.
  - right. split; [exact I|]. unfold library.
    destruct n as [|p|p]; [exfalso; apply I; vm_compute; tauto| |reflexivity].
    do 6 (destruct p as [p|p|]; try reflexivity; try (exfalso; apply I; vm_compute; tauto)).
Qed.

(** ** LIST *)
Lemma skipn_skipn {A} n m (l : list A) : skipn n (skipn m l) = skipn (n + m) l.
Proof.
  revert l. induction m as [|m IH]; intros l; [now rewrite Nat.add_0_r|].
  destruct l as [|x l]; [now rewrite !skipn_nil|]. rewrite Nat.add_succ_r. cbn. apply IH.
Qed.
Lemma row_fields_ok vs : forall ts tail j line, Forall2 number_field ts vs ->
  skipn (11 * j) line = concat ts ++ tail -> row_fields (length vs) j line = Some vs.
Proof.
  induction vs as [|v vs IH]; intros ts tail j line H E; inversion H as [|x ? l ? Hf Hr]; subst; [reflexivity|].
  cbn [length row_fields]. cbn [concat] in E. rewrite <- app_assoc in E. pose proof (proj1 Hf) as Hx.
  assert (S1 : slice (11 * j) (11 * (j + 1)) line = x).
  { unfold slice. rewrite E. replace (11 * (j + 1) - 11 * j) with (length x) by lia.
    now rewrite firstn_app, firstn_all, Nat.sub_diag, app_nil_r. }
  rewrite S1, (number_field_read _ _ Hf).
  rewrite (IH l tail (S j) line); [reflexivity|assumption|].
  replace (11 * S j) with (11 + 11 * j) by lia. rewrite <- skipn_skipn, E.
  rewrite skipn_app, skipn_all2 by lia. cbn [app]. replace (11 - length x) with 0 by lia. reflexivity.
Qed.

Lemma list_rows_ok vs ls : rows number_field 6 vs ls -> forall i n rest,
  (n - 6 * Z.of_nat i = Z.of_nat (length vs))%Z ->
  list_rows (Z.to_nat ((n - 6 * Z.of_nat i - 1) / 6 + 1)) i n (ls ++ rest) = Some (vs, rest).
Proof.
  induction 1 as [|vs ts tail Hne Hle Hf|vs ts tail ws ls Hl Hne Hf Hr IH]; intros i n rest E.
  - rewrite E. cbn [length Z.of_nat]. change (Z.to_nat ((0 - 1) / 6 + 1)) with 0. reflexivity.
  - assert (1 <= length vs) by (destruct vs; [congruence|cbn; lia]).
    replace (Z.to_nat ((n - 6 * Z.of_nat i - 1) / 6 + 1)) with 1.
    + cbn [list_rows app readline]. rewrite E. replace (Z.min 6 (Z.of_nat (length vs))) with (Z.of_nat (length vs)) by lia.
      rewrite Nat2Z.id. rewrite (row_fields_ok vs ts tail 0 _ Hf); [|reflexivity]. now rewrite app_nil_r.
    + rewrite E. replace ((Z.of_nat (length vs) - 1) / 6)%Z with 0%Z; [reflexivity|].
      symmetry. apply Z.div_small. lia.
  - rewrite app_length in E.
    assert (1 <= length ws) by (destruct ws; [congruence|cbn; lia]).
    replace (Z.to_nat ((n - 6 * Z.of_nat i - 1) / 6 + 1)) with (S (Z.to_nat ((n - 6 * Z.of_nat (S i) - 1) / 6 + 1))).
    + cbn [list_rows app readline]. replace (Z.min 6 (n - 6 * Z.of_nat i)) with (Z.of_nat (length vs)) by lia.
      rewrite Nat2Z.id. rewrite (row_fields_ok vs ts tail 0 _ Hf); [|reflexivity].
      rewrite IH; [reflexivity|]. lia.
    + replace (n - 6 * Z.of_nat i - 1)%Z with ((n - 6 * Z.of_nat (S i) - 1) + 1 * 6)%Z by lia.
      rewrite Z.div_add by lia.
      assert (0 <= (n - 6 * Z.of_nat (S i) - 1) / 6)%Z by (apply Z.div_pos; lia). lia.
Qed.

Lemma get_list_ok l a b i j n vs ls rest : control_line l a b i j (Z.of_nat (length vs)) n ->
  rows number_field 6 vs ls ->
  get_list_record (l :: ls ++ rest) =
  Some ({| c1 := Some a; c2 := Some b; l1 := i; l2 := j; n1 := Z.of_nat (length vs); n2 := n |}, vs, rest).
Proof.
  intros H Hr. unfold get_list_record. rewrite (get_cont_ok _ _ _ _ _ _ _ _ H). cbn [n1].
  pose proof (list_rows_ok vs ls Hr 0 (Z.of_nat (length vs)) rest ltac:(lia)) as E.
  replace (Z.of_nat (length vs) - 6 * Z.of_nat 0)%Z with (Z.of_nat (length vs)) in E by lia. now rewrite E.
Qed.

(** ** TAB1 and TAB2 *)
Section Pairs.
Context {A : Type} (fld : text -> A -> Prop) (conv : text -> option A).
Hypothesis Hconv : forall t x, fld t x -> conv t = Some x.
Hypothesis Hlen : forall t x, fld t x -> length t = 11.

Lemma pair_row_ok vs : forall ts tail, Forall2 (pair_field fld) ts vs ->
  pair_row conv (length vs) (concat ts ++ tail) = Some vs.
Proof.
  induction vs as [|[u v] vs IH]; intros ts tail H; inversion H as [|x ? l ? Hf Hr]; subst; [reflexivity|].
  destruct Hf as (t1 & t2 & -> & H1 & H2). cbn [fst snd] in *.
  pose proof (Hlen _ _ H1). pose proof (Hlen _ _ H2).
  cbn [length pair_row concat]. rewrite <- !app_assoc.
  rewrite slice_take by lia. rewrite slice_skip, slice_take by lia.
  rewrite (Hconv _ _ H1), (Hconv _ _ H2).
  replace (skipn 22 (t1 ++ t2 ++ concat l ++ tail)) with (concat l ++ tail).
  - now rewrite (IH l tail).
  - rewrite app_assoc. rewrite skipn_app, skipn_all2 by (rewrite app_length; lia).
    rewrite app_length. replace (22 - (length t1 + length t2)) with 0 by lia. reflexivity.
Qed.

Lemma pair_rows_ok vs ls : rows (pair_field fld) 3 vs ls -> forall n m rest,
  (n - m = Z.of_nat (length vs))%Z ->
  pair_rows conv (Z.to_nat ((n - m - 1) / 3 + 1)) n m (ls ++ rest) = Some (vs, rest).
Proof.
  induction 1 as [|vs ts tail Hne Hle Hf|vs ts tail ws ls Hl Hne Hf Hr IH]; intros n m rest E.
  - rewrite E. reflexivity.
  - assert (1 <= length vs) by (destruct vs; [congruence|cbn; lia]).
    replace (Z.to_nat ((n - m - 1) / 3 + 1)) with 1.
    + cbn [pair_rows app readline]. rewrite E. replace (Z.min 3 (Z.of_nat (length vs))) with (Z.of_nat (length vs)) by lia.
      rewrite Nat2Z.id, (pair_row_ok vs ts tail Hf). now rewrite app_nil_r.
    + rewrite E. replace ((Z.of_nat (length vs) - 1) / 3)%Z with 0%Z; [reflexivity|].
      symmetry. apply Z.div_small. lia.
  - rewrite app_length in E. assert (1 <= length ws) by (destruct ws; [congruence|cbn; lia]).
    replace (Z.to_nat ((n - m - 1) / 3 + 1)) with (S (Z.to_nat ((n - (m + 3) - 1) / 3 + 1))).
    + cbn [pair_rows app readline]. replace (Z.min 3 (n - m)) with (Z.of_nat (length vs)) by lia.
      rewrite Nat2Z.id, (pair_row_ok vs ts tail Hf).
      replace (m + Z.max 0 (Z.of_nat (length vs)))%Z with (m + 3)%Z by lia.
      rewrite IH; [reflexivity|]. lia.
    + replace (n - m - 1)%Z with ((n - (m + 3) - 1) + 1 * 3)%Z by lia.
      rewrite Z.div_add by lia. assert (0 <= (n - (m + 3) - 1) / 3)%Z by (apply Z.div_pos; lia). lia.
Qed.

Lemma read_pairs_ok vs ls rest : rows (pair_field fld) 3 vs ls ->
  read_pairs conv (Z.of_nat (length vs)) (ls ++ rest) = Some (vs, rest).
Proof.
  intros H. unfold read_pairs. destruct (Z.ltb_spec (Z.of_nat (length vs)) 0); [lia|].
  pose proof (pair_rows_ok vs ls H (Z.of_nat (length vs)) 0 rest ltac:(lia)) as E.
  now rewrite Z.sub_0_r in E.
Qed.
End Pairs.

Lemma get_tab1_ok l a b i j regions points lr lp rest :
  control_line l a b i j (Z.of_nat (length regions)) (Z.of_nat (length points)) ->
  rows (pair_field integer_field) 3 regions lr -> rows (pair_field number_field) 3 points lp ->
  get_tab1_record (l :: lr ++ lp ++ rest) = Some (a, b, i, j, regions, points, rest).
Proof.
  intros H Hr Hp. apply control_fields in H as (H1 & H2 & H3 & H4 & H5 & H6).
  unfold get_tab1_record. cbn [readline]. rewrite H1, H2, H3, H4, H5, H6.
  rewrite (read_pairs_ok integer_field py_int integer_field_read (fun t x => @proj1 _ _) regions lr _ Hr).
  now rewrite (read_pairs_ok number_field float_endf number_field_read (fun t x => @proj1 _ _) points lp _ Hp).
Qed.
Lemma get_tab2_ok l a b i j n regions lr rest :
  control_line l a b i j (Z.of_nat (length regions)) n -> rows (pair_field integer_field) 3 regions lr ->
  get_tab2_record (l :: lr ++ rest) =
  Some ({| c1 := Some a; c2 := Some b; l1 := i; l2 := j; n1 := Z.of_nat (length regions); n2 := n |}, regions, rest).
Proof.
  intros H Hr. unfold get_tab2_record. rewrite (get_cont_ok _ _ _ _ _ _ _ _ H). cbn [n1].
  now rewrite (read_pairs_ok integer_field py_int integer_field_read (fun t x => @proj1 _ _) regions lr _ Hr).
Qed.

(** ** Sections *)
Lemma pad_length n t : length t <= n -> length (pad n t) = n.
Proof. intros H. unfold pad. rewrite app_length, repeat_length. lia. Qed.
Lemma py_int_pad n z : py_int (pad n (decZ z)) = Some z.
Proof. unfold pad. rewrite <- (app_nil_r (decZ z)) at 2. exact (py_int_dec (n - length (decZ z)) z 0). Qed.

Lemma tagged_fields mat mf mt l : tagged mat mf mt l ->
  slice 66 70 l = pad 4 (decZ mat) /\ slice 70 72 l = pad 2 (decZ mf) /\ slice 72 75 l = pad 3 (decZ mt) /\ ended l.
Proof.
  intros (body & tail & -> & H1 & H2 & H3 & H4 & H5 & H6).
  pose proof (pad_length 4 _ H2). pose proof (pad_length 2 _ H3). pose proof (pad_length 3 _ H4).
  split; [|split; [|split]].
  - rewrite slice_skip, slice_take by lia. reflexivity.
  - rewrite 2 slice_skip, slice_take by lia. reflexivity.
  - rewrite 3 slice_skip, slice_take by lia. reflexivity.
  - exists (body ++ pad 4 (decZ mat) ++ pad 2 (decZ mf) ++ pad 3 (decZ mt) ++ tail). split; [now rewrite <- !app_assoc|].
    rewrite !in_app_iff.
    assert (K : forall n z, ~ In nl (pad n (decZ z))).
    { intros n z. unfold pad. rewrite in_app_iff. intros [K|K]; revert K; [apply notin_spaces; discriminate|].
      apply decZ_notin; [reflexivity|discriminate]. }
    intros [K'|[K'|[K'|[K'|K']]]]; try contradiction; revert K'; apply K.
Qed.
Lemma tagged_ints mat mf mt l : tagged mat mf mt l ->
  py_int (slice 66 70 l) = Some mat /\ py_int (slice 70 72 l) = Some mf /\ py_int (slice 72 75 l) = Some mt.
Proof. intros H. apply tagged_fields in H as (-> & -> & -> & _). now rewrite !py_int_pad. Qed.
Lemma tagged_send mat mf mt l : tagged mat mf mt l -> is_send l = (mt =? 0)%Z.
Proof.
  intros H. apply tagged_fields in H as (_ & _ & E & _). unfold is_send. rewrite E.
  destruct (Z.eqb_spec mt 0) as [->|Hne]; [reflexivity|].
  destruct (eqt (pad 3 (decZ mt)) (str "  0")) eqn:F; [|reflexivity]. exfalso. apply eqt_eq in F.
  pose proof (py_int_pad 3 mt) as P. rewrite F in P. assert (py_int (str "  0") = Some 0%Z) by reflexivity. congruence.
Qed.

Lemma scan_inside mat mf mt ls : (0 < mt)%Z -> (forall l, In l ls -> tagged mat mf mt l) -> forall k t d f,
  scan (Some (k, t)) d (ls ++ f) = scan (Some (k, t ++ concat ls)) d f.
Proof.
  intros Hmt. induction ls as [|l ls IH]; intros H k t d f; [cbn; now rewrite app_nil_r|].
  cbn [app scan]. rewrite (tagged_send mat mf mt l) by (apply H; now left).
  destruct (Z.eqb_spec mt 0); [lia|]. rewrite IH by (intros; apply H; now right). cbn [concat]. now rewrite app_assoc.
Qed.
Lemma scan_skip mat ls : mat <> 0%Z -> (forall l, In l ls -> tagged mat 0 0 l) -> forall d f,
  scan None d (ls ++ f) = scan None d f.
Proof.
  intros Hm. induction ls as [|l ls IH]; intros H d f; [reflexivity|]. cbn [app scan].
  destruct (tagged_ints mat 0 0 l (H l (or_introl eq_refl))) as (-> & -> & ->).
  destruct (Z.eqb_spec mat 0); [contradiction|]. cbn [orb Z.ltb Z.compare]. apply IH. intros; apply H; now right.
Qed.
Lemma scan_section mat s ls d f : mat <> 0%Z -> sect_text mat s ls ->
  scan None d (ls ++ f) = scan None (put (s_mf s, s_mt s) (concat (s_lines s)) d) f.
Proof.
  intros Hm (send & fends & -> & Hmt & Hne & Hl & Hs & Hf).
  destruct (s_lines s) as [|l0 ls0] eqn:E; [congruence|]. rewrite <- app_assoc. cbn [app].
  assert (T0 : tagged mat (s_mf s) (s_mt s) l0) by (apply Hl; now left).
  cbn [scan]. destruct (tagged_ints _ _ _ _ T0) as (-> & -> & ->). rewrite (tagged_send _ _ _ _ T0).
  destruct (Z.ltb_spec 0 (s_mt s)); [|lia]. cbn [orb]. destruct (Z.eqb_spec mat 0); [contradiction|].
  destruct (Z.eqb_spec (s_mt s) 0); [lia|].
  rewrite (scan_inside mat (s_mf s) (s_mt s)) by (auto; intros; apply Hl; now right).
  cbn [scan]. rewrite (tagged_send _ _ _ _ Hs). cbn [Z.eqb].
  now rewrite (scan_skip mat).
Qed.

Lemma key_eqb_eq a b : key_eqb a b = true <-> a = b.
Proof.
  unfold key_eqb. destruct a as [a1 a2], b as [b1 b2]. cbn. rewrite andb_true_iff, !Z.eqb_eq.
  split; [intros [-> ->]; reflexivity|intros [= -> ->]; auto].
Qed.
Lemma put_new k v d : ~ In k (map fst d) -> put k v d = d ++ [(k, v)].
Proof.
  induction d as [|[k' v'] d IH]; intros H; [reflexivity|]. cbn in *.
  destruct (key_eqb k k') eqn:E; [apply key_eqb_eq in E; subst; exfalso; apply H; now left|].
  rewrite IH by tauto. reflexivity.
Qed.
Lemma scan_sections mat ss body : mat <> 0%Z -> sect_texts mat ss body -> forall d f,
  NoDup (map fst d ++ map (fun s => (s_mf s, s_mt s)) ss) ->
  scan None d (body ++ f) = scan None (d ++ map kv ss) f.
Proof.
  intros Hm. induction 1 as [|s ss l ls Hs Hss IH]; intros d f Hn.
  - cbn. now rewrite app_nil_r.
  - rewrite <- app_assoc, (scan_section mat s l d (ls ++ f) Hm Hs).
    cbn [map] in Hn. rewrite put_new.
    + rewrite IH.
      * cbn [map]. rewrite <- app_assoc. reflexivity.
      * rewrite map_app. cbn [map fst]. rewrite <- app_assoc. exact Hn.
    + intros K. apply NoDup_remove_2 in Hn. apply Hn. apply in_or_app. now left.
Qed.

Lemma scan_all mat ss body : mat <> 0%Z -> sect_texts mat ss body -> forall d f,
  scan None d (body ++ f) = scan None (fold_left (fun d s => put (s_mf s, s_mt s) (concat (s_lines s)) d) ss d) f.
Proof.
  intros Hm. induction 1 as [|s ss l ls Hs Hss IH]; intros d f; [reflexivity|].
  rewrite <- app_assoc, (scan_section mat s l d (ls ++ f) Hm Hs). apply IH.
Qed.
Lemma fold_put ss : forall d, NoDup (map fst d ++ map (fun s => (s_mf s, s_mt s)) ss) ->
  fold_left (fun d s => put (s_mf s, s_mt s) (concat (s_lines s)) d) ss d = d ++ map kv ss.
Proof.
  induction ss as [|s ss IH]; intros d Hn; [cbn; now rewrite app_nil_r|]. cbn [map fold_left] in *. rewrite put_new.
  - rewrite IH; [rewrite <- app_assoc; reflexivity|]. rewrite map_app. cbn [map fst]. rewrite <- app_assoc. exact Hn.
  - intros K. apply NoDup_remove_2 in Hn. apply Hn. apply in_or_app. now left.
Qed.
Lemma get_put k v d : get k (put k v d) = Some v.
Proof.
  induction d as [|[k' v'] d IH]; cbn [put get].
  - now rewrite (proj2 (key_eqb_eq k k) eq_refl).
  - destruct (key_eqb k k') eqn:E; cbn [get]; [now rewrite (proj2 (key_eqb_eq k k) eq_refl) | now rewrite E].
Qed.
Lemma get_put_other k k' v d : k <> k' -> get k (put k' v d) = get k d.
Proof.
  intros N. assert (E0 : key_eqb k k' = false) by (destruct (key_eqb k k') eqn:E; [apply key_eqb_eq in E; contradiction | reflexivity]).
  induction d as [|[k2 v2] d IH]; cbn [put get]; [now rewrite E0|].
  destruct (key_eqb k' k2) eqn:E; cbn [get].
  - apply key_eqb_eq in E. subst. now rewrite !E0.
  - destruct (key_eqb k k2); [reflexivity | exact IH].
Qed.
Lemma get_fold_other ss k : (forall s, In s ss -> (s_mf s, s_mt s) <> k) -> forall d,
  get k (fold_left (fun d s => put (s_mf s, s_mt s) (concat (s_lines s)) d) ss d) = get k d.
Proof.
  induction ss as [|s ss IH]; intros H d; [reflexivity|]. cbn [fold_left]. rewrite IH by (intros; apply H; now right).
  apply get_put_other. intros E. apply (H s (or_introl eq_refl)). now symmetry.
Qed.
Lemma get_fold ss s : last_named s ss -> forall d,
  get (s_mf s, s_mt s) (fold_left (fun d s => put (s_mf s, s_mt s) (concat (s_lines s)) d) ss d) = Some (concat (s_lines s)).
Proof.
  intros (a & b & -> & H) d. rewrite fold_left_app. cbn [fold_left]. rewrite get_fold_other by exact H. apply get_put.
Qed.
Lemma material_scan_all mat ss ls rest : material_text mat ss ls ->
  exists f1, skip_head (ls ++ rest) = Some (mat, f1) /\
  scan None [] f1 = Done (fold_left (fun d s => put (s_mf s, s_mt s) (concat (s_lines s)) d) ss [], rest).
Proof.
  intros (pre & body & mend & mt_ & -> & Hm & Hne & Hmf & Hpre & Hb & Hend).
  assert (Hm' : mat <> 0%Z) by lia.
  exists (body ++ mend :: rest). split.
  - rewrite <- !app_assoc. cbn [app].
    induction pre as [|l pre IH].
    + cbn [app]. destruct Hb as [|s ss' l ls' Hs Hss]; [congruence|].
      destruct Hs as (send & fends & -> & Hmt & Hsl & Hl & _). destruct (s_lines s) as [|l0 ls0] eqn:E; [congruence|].
      cbn [app skip_head].
      destruct (tagged_ints _ _ _ _ (Hl l0 (or_introl eq_refl))) as (-> & -> & _).
      destruct (Z.eqb_spec (s_mf s) 0) as [E0|_]; [exfalso; apply (Hmf s); [now left|exact E0]|].
      rewrite <- !app_assoc. reflexivity.
    + cbn [app skip_head]. destruct (Hpre l (or_introl eq_refl)) as (m0 & t0 & _ & Ht).
      destruct (tagged_ints _ _ _ _ Ht) as (_ & -> & _). cbn [Z.eqb].
      apply IH. intros; apply Hpre; now right.
  - rewrite (scan_all mat ss body Hm' Hb). cbn [app scan].
    destruct (tagged_ints _ _ _ _ Hend) as (-> & -> & ->). cbn [Z.eqb]. rewrite orb_true_r. reflexivity.
Qed.
Lemma no_repeat_last ss s : no_repeat ss -> In s ss -> last_named s ss.
Proof.
  unfold no_repeat. induction ss as [|s0 ss IH]; intros Hn H; [destruct H|]. inversion Hn as [|? ? Hn1 Hn2]; subst. destruct H as [->|H].
  - exists [], ss. split; [reflexivity|]. intros s' H' E. apply Hn1. rewrite <- E. exact (in_map (fun s => (s_mf s, s_mt s)) ss s' H').
  - destruct (IH Hn2 H) as (a & b & -> & L). exists (s0 :: a), b. split; [reflexivity | exact L].
Qed.

Lemma sect_lines_ended mat ss body s : sect_texts mat ss body -> In s ss -> Forall ended (s_lines s).
Proof.
  induction 1 as [|s0 ss l ls Hs Hss IH]; intros H; [destruct H|].
  destruct H as [->|H]; [|now apply IH]. destruct Hs as (send & fends & _ & _ & _ & Hl & _).
  apply Forall_forall. intros x Hx. exact (proj2 (proj2 (proj2 (tagged_fields _ _ _ _ (Hl x Hx))))).
Qed.

Lemma text_records_ok txt : forall f, text_records (length txt) (txt ++ f) = (map (firstn 66) txt, f).
Proof. induction txt as [|t txt IH]; intros f; [reflexivity|]. cbn [length text_records app get_text_record readline]. now rewrite IH. Qed.
Lemma directory_ok dl d : Forall2 directory_line dl d -> forall f, directory (length dl) (dl ++ f) = Some d.
Proof.
  induction 1 as [|l [[[mf mt] nc] md] dl d H Hr IH]; intros f; [reflexivity|].
  cbn [length directory app readline].
  destruct H as (blank & ti & tj & tk & tn & tail & -> & Hb & H1 & H2 & H3 & H4).
  pose proof (proj1 H1). pose proof (proj1 H2). pose proof (proj1 H3).
  assert (length tn = 11) by (destruct H4 as [[L _]|[-> _]]; [exact L|reflexivity]).
  rewrite slice_skip, slice_take by lia. rewrite (integer_field_read _ _ H1).
  rewrite 2 slice_skip, slice_take by lia. rewrite (integer_field_read _ _ H2).
  rewrite 3 slice_skip, slice_take by lia. rewrite (integer_field_read _ _ H3).
  rewrite 4 slice_skip, slice_take by lia.
  assert (M : match py_int tn with Some m => m | None => 0%Z end = md).
  { destruct H4 as [H4|[-> ->]]; [now rewrite (integer_field_read _ _ H4)|reflexivity]. }
  rewrite M. now rewrite IH.
Qed.

Lemma read_header_ok dd s d : get (1, 451)%Z dd = Some (concat (s_lines s)) -> Forall ended (s_lines s) -> descriptive_lines d (s_lines s) ->
  exists h, read_header dd = Some h /\ described d h.
Proof.
  intros G He (hl & k1 & k2 & k3 & txt & dir & extra & za & x1 & j2 & q & z & El & Hh & Hza & Hk1 & Hk2 & Hk3 & Htx & Hdir).
  unfold read_header. rewrite G.
  pose proof (lines_ended_all (s_lines s) [] He) as L. rewrite !app_nil_r in L. cbn [lines] in L. rewrite L, El.
  pose proof (control_fields _ _ _ _ _ _ _ Hh) as (F1 & F2 & F3 & F4 & F5 & F6).
  unfold get_head_record. cbn [readline]. rewrite F1, F2, F3, F4, F5, F6.
  rewrite (get_cont_ok _ _ _ _ _ _ _ _ Hk1), (get_cont_ok _ _ _ _ _ _ _ _ Hk2), (get_cont_ok _ _ _ _ _ _ _ _ Hk3).
  cbn [Endf_Model.c1 Endf_Model.c2 Endf_Model.l1 Endf_Model.l2 Endf_Model.n1 Endf_Model.n2 Z.eqb Pos.eqb negb].
  rewrite !Nat2Z.id, text_records_ok, (directory_ok _ _ Hdir).
  eexists. split; [reflexivity|]. unfold described.
  cbn [atomic_number mass_number mass lrp fissionable modification excitation_energy stable isomeric_state state projectile_mass energy_max sublibrary libinfo temperature derived description reaction_list].
  subst za. rewrite trunc_qz.
  pose proof (Z.div_mod (d_za d) 1000 ltac:(lia)). pose proof (Z.mod_pos_bound (d_za d) 1000 ltac:(lia)).
  split; [lia|]. split; [lia|]. do 2 (split; [reflexivity|]). split; [apply Z.eqb_eq|]. do 2 (split; [reflexivity|]).
  split; [apply trunc_zero|]. split; [reflexivity|]. split.
  { assert (Eb : ((d_za d / 1000 =? 95) && (d_za d mod 1000 =? 242))%Z = (d_za d =? 95242)%Z).
    { destruct (Z.eqb_spec (d_za d) 95242) as [->|Hne]; [reflexivity|].
      destruct (Z.eqb_spec (d_za d / 1000) 95), (Z.eqb_spec (d_za d mod 1000) 242); try reflexivity. lia. }
    now rewrite Eb. }
  do 3 (split; [reflexivity|]). split; [exists (library (d_nlib d)); split; [apply library_ok | reflexivity]|].
  split; [reflexivity|]. split; [apply Z.ltb_lt|]. auto.
Qed.

(** ** Whole materials and tapes *)
Lemma evaluate_all mat ss ls rest s d : material_text mat ss ls -> last_named s ss -> s_mf s = 1%Z -> s_mt s = 451%Z -> descriptive_lines d (s_lines s) ->
  exists ev, evaluate (ls ++ rest) = Done (ev, rest) /\ material ev = mat /\ described d (info ev) /\
    section ev = fold_left (fun d s => put (s_mf s, s_mt s) (concat (s_lines s)) d) ss [].
Proof.
  intros Hm Hl E1 E2 Hd. unfold evaluate. destruct (material_scan_all _ _ _ rest Hm) as (f1 & -> & ->).
  pose proof Hm as (pre & body & mend & mt_ & _ & _ & _ & _ & _ & Hb & _).
  assert (Hin : In s ss) by (destruct Hl as (a & b & -> & _); apply in_or_app; right; now left).
  pose proof (sect_lines_ended _ _ _ s Hb Hin) as He.
  pose proof (get_fold ss s Hl []) as G. rewrite E1, E2 in G.
  destruct (read_header_ok _ s _ G He Hd) as (h & -> & H). eexists. split; [reflexivity|]. auto.
Qed.
Lemma evaluate_ok m ls rest : mater_text m ls -> exists ev, evaluate (ls ++ rest) = Done (ev, rest) /\ read_as m ev.
Proof.
  intros (Hm & Hn & s & Hin & E1 & E2 & Hd).
  destruct (evaluate_all _ _ _ rest s _ Hm (no_repeat_last _ _ Hn Hin) E1 E2 Hd) as (ev & E & A & B & C). exists ev. split; [exact E|]. split; [exact A|]. split; [|exact B].
  rewrite C. exact (fold_put (m_sects m) [] Hn).
Qed.
Lemma evaluate_repeated mat ss ls rest s d : material_text mat ss ls -> last_named s ss -> s_mf s = 1%Z -> s_mt s = 451%Z -> descriptive_lines d (s_lines s) ->
  exists ev, evaluate (ls ++ rest) = Done (ev, rest) /\ material ev = mat /\ described d (info ev) /\
    (forall s', last_named s' ss -> get (s_mf s', s_mt s') (section ev) = Some (concat (s_lines s'))) /\
    (forall k, (forall s', In s' ss -> (s_mf s', s_mt s') <> k) -> get k (section ev) = None).
Proof.
  intros Hm Hl E1 E2 Hd. destruct (evaluate_all _ _ _ rest s _ Hm Hl E1 E2 Hd) as (ev & E & A & B & C). exists ev. do 3 (split; [assumption|]). rewrite C. split.
  - intros s' L. now apply get_fold.
  - intros k N. now rewrite get_fold_other.
Qed.

(** The first line of a material is not the end of the tape. *)
Lemma material_first mat ss ls : material_text mat ss ls -> exists l r m mf mt, ls = l :: r /\ (0 <= m)%Z /\ tagged m mf mt l.
Proof.
  intros (pre & body & mend & mt_ & -> & Hm & Hne & Hmf & Hpre & Hb & _).
  destruct pre as [|l pre].
  - destruct Hb as [|s ss' l ls' Hs Hss]; [congruence|]. destruct Hs as (send & fends & -> & _ & Hsl & Hl & _).
    destruct (s_lines s) as [|l0 ls0] eqn:E; [congruence|]. cbn [app]. do 5 eexists. split; [reflexivity|].
    split; [|apply Hl; now left]. lia.
  - destruct (Hpre l (or_introl eq_refl)) as (m0 & t0 & H0 & Ht). cbn [app]. do 5 eexists. split; [reflexivity|]. eauto.
Qed.
Lemma not_tend m mf mt l : (0 <= m)%Z -> tagged m mf mt l -> eqt (slice 66 70 l) (str "  -1") = false.
Proof.
  intros Hm H. apply tagged_fields in H as (-> & _). destruct (eqt _ _) eqn:E; [|reflexivity]. exfalso.
  apply eqt_eq in E. pose proof (py_int_pad 4 m) as P. rewrite E in P.
  assert (py_int (str "  -1") = Some (-1)%Z) by reflexivity. assert (m = (-1)%Z) by congruence. lia.
Qed.
Lemma is_tend l : tagged (-1) 0 0 l -> eqt (slice 66 70 l) (str "  -1") = true.
Proof. intros H. apply tagged_fields in H as (-> & _). reflexivity. Qed.

Lemma evaluations_ok ms f : tape ms f -> forall k, length f < k ->
  exists evs, evaluations_ false k f = Done evs /\ Forall2 read_as ms evs.
Proof.
  induction 1 as [tend rest Ht|m ms l ls Hm Hr IH]; intros k Hk.
  - destruct k as [|k]; [lia|]. cbn [evaluations_ readline]. rewrite (is_tend _ Ht). eauto.
  - destruct k as [|k]; [lia|]. destruct (evaluate_ok m l ls Hm) as (ev & He & Hev).
    destruct (material_first _ _ _ (proj1 Hm)) as (l0 & r0 & m0 & mf & mt & -> & H0 & Ht).
    cbn [evaluations_ readline app]. rewrite (not_tend _ _ _ _ H0 Ht). cbn [app] in He. rewrite He.
    destruct (IH k) as (evs & -> & Hevs).
    + cbn [app length] in Hk. rewrite app_length in Hk. lia.
    + eauto.
Qed.
Lemma evaluations_closing m ms f : tape (m :: ms) f -> forall k, evaluations_ true k f = Raised.
Proof.
  intros H [|k]; [reflexivity|]. inversion H as [|? ? l ls Hm Hr]; subst.
  destruct (evaluate_ok m l ls Hm) as (ev & He & Hev).
  destruct (material_first _ _ _ (proj1 Hm)) as (l0 & r0 & m0 & mf & mt & -> & H0 & Ht).
  cbn [evaluations_ readline app]. rewrite (not_tend _ _ _ _ H0 Ht). cbn [app] in He. now rewrite He.
Qed.

(** A file that stops inside a section. *)
Lemma truncated_hangs mat ss body mf mt part : (0 < mat)%Z -> sect_texts mat ss body ->
  NoDup (map (fun s => (s_mf s, s_mt s)) ss) -> mf <> 0%Z -> (forall s, In s ss -> s_mf s <> 0%Z) ->
  part <> [] -> (0 < mt)%Z -> (forall l, In l part -> tagged mat mf mt l) ->
  evaluate (body ++ part) = Hangs.
Proof.
  intros Hm Hb Hn Hmf Hmfs Hne Hmt Hp. unfold evaluate.
  destruct part as [|p0 part]; [congruence|]. pose proof (Hp p0 (or_introl eq_refl)) as T0.
  assert (E : skip_head (body ++ p0 :: part) = Some (mat, body ++ p0 :: part)).
  { destruct Hb as [|s ss' l ls' Hs Hss].
    - cbn [app skip_head]. destruct (tagged_ints _ _ _ _ T0) as (-> & -> & _).
      destruct (Z.eqb_spec mf 0); [contradiction|reflexivity].
    - destruct Hs as (send & fends & -> & _ & Hsl & Hl & _). destruct (s_lines s) as [|l0 ls0] eqn:E; [congruence|].
      cbn [app skip_head]. destruct (tagged_ints _ _ _ _ (Hl l0 (or_introl eq_refl))) as (-> & -> & _).
      destruct (Z.eqb_spec (s_mf s) 0) as [E0|_]; [exfalso; apply (Hmfs s); [now left|exact E0]|reflexivity]. }
  rewrite E. rewrite (scan_sections mat ss body ltac:(lia) Hb) by exact Hn.
  cbn [scan]. destruct (tagged_ints _ _ _ _ T0) as (-> & -> & ->). rewrite (tagged_send _ _ _ _ T0).
  destruct (Z.ltb_spec 0 mt); [|lia]. cbn [orb]. destruct (Z.eqb_spec mat 0); [lia|]. destruct (Z.eqb_spec mt 0); [lia|].
  rewrite <- (app_nil_r part), (scan_inside mat mf mt) by (auto; intros; apply Hp; now right). reflexivity.
Qed.
