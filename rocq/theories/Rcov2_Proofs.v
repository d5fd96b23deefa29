From Verif Require Import Num Text Dec Endf_Model Endf_Spec Endf_Proofs Endf_Props Intg_Model Intg_Spec Intg_Props SampleCorr_Model Rcov_Model Rcov_Spec Rcov_Proofs.
From Coq Require Import Permutation Sorting.Sorted Lia.
Local Open Scope list_scope.
Local Open Scope nat_scope.

(** ** Compact *)
Lemma skipn_add {A} : forall a b (l : list A), skipn (a + b) l = skipn b (skipn a l).
Proof. induction a as [|a IH]; intros b l; [reflexivity|]. destruct l as [|x l]; [now rewrite !skipn_nil|]. cbn [Nat.add skipn]. apply IH. Qed.
Lemma skipn_nth {A} (d : A) : forall k l, k < length l -> skipn k l = nth k l d :: skipn (S k) l.
Proof. induction k as [|k IH]; intros [|x l] Lk; cbn in Lk; try lia; [reflexivity|]. cbn [nth]. change (skipn (S (S k)) (x :: l)) with (skipn (S k) l). rewrite <- IH by lia. reflexivity. Qed.
Lemma skipn_concat k : forall (bl : list (list Qc)) i, Forall (fun r => length r = k) bl -> skipn (i * k) (concat bl) = concat (skipn i bl).
Proof.
  induction bl as [|r bl IH]; intros i H; [now rewrite !skipn_nil|]. inversion H as [|? ? H1 H2]; subst. destruct i as [|i]; [reflexivity|].
  cbn [Nat.mul concat skipn]. rewrite skipn_add, skipn_app, skipn_all, Nat.sub_diag, skipn_O. cbn [app]. now apply IH.
Qed.
Lemma deviations_ok fm u : length u = 6 -> deviations fm u = Some (counting (is_rm fm) u).
Proof.
  intros H. do 7 (destruct u as [|? u]; try (cbn in H; lia)). unfold counting.
  destruct fm; cbn [deviations is_rm flat_map nonzero combine seq length filter map snd fst negb existsb Nat.eqb orb andb app]; unfold nonzero;
  repeat match goal with |- context [qeqb ?x ?y] => destruct (qeqb x y) end; reflexivity.
Qed.
Lemma compact_ok fm items file2 rs npar nd nrow xs ls rest :
  compact_text (n1 items) rs (record npar nd nrow xs) ls -> rs <> [] -> same_energies (map fst rs) file2 ->
  let u := flat_map (fun p => counting (is_rm fm) (snd p)) rs in
  (length u <> npar -> cov_from_endf fm items file2 (ls ++ rest) = None) /\
  (length u = npar -> exists r m, cov_from_endf fm items file2 (ls ++ rest) = Some (r, rest) /\ range_of fm (c1 items) (c2 items) 2 (map fst rs) file2 r /\
    r_cov r = (npar, m) /\ r_mpar r = npar / length rs /\
    forall i j, m i j = (nth i u 0 * (if Nat.eqb i j then 1 else observed nd xs (Nat.max i j) (Nat.min i j)) * nth j u 0)%Qc).
Proof.
  intros (nls & h & i & j & l & c & -> & Hh & Hl & H6 & Hc) N P u.
  rewrite <- !app_assoc. rewrite (cov_head _ _ _ _ _ _ _ Hh). change (2 =? 1)%Z with false. change (2 =? 2)%Z with true. cbv iota.
  unfold compact. destruct (list_text_ok _ _ _ _ _ (c ++ rest) Hl) as (it & -> & _ & _ & E3). rewrite E3, Nat2Z.id.
  set (bl := map (fun p : list Qc * list Qc => fst p ++ snd p) rs).
  assert (H12 : Forall (fun r => length r = 12) bl).
  { apply Forall_map. apply Forall_impl with (2 := H6). intros p [A B]. rewrite app_length. lia. }
  rewrite (all_some_map _ _ _ (fun i => counting (is_rm fm) (snd (nth i rs ([], []))))).
  2: { intros k Hk. apply in_seq in Hk. assert (Lk : k < length rs) by lia. rewrite <- deviations_ok.
    - f_equal. rewrite skipn_add, (skipn_concat 12 bl k H12).
      assert (Ek : skipn k bl = nth k bl [] :: skipn (S k) bl).
      { apply skipn_nth. unfold bl. rewrite map_length. lia. }
      rewrite Ek. cbn [concat]. unfold bl. change (@nil Qc) with ((fun p : list Qc * list Qc => fst p ++ snd p) ([], [])) at 1. rewrite map_nth.
      destruct (proj1 (Forall_forall _ _) H6 (nth k rs ([], [])) (nth_In _ _ Lk)) as [A B].
      destruct (nth k rs ([], [])) as [x y]. cbn [fst snd] in *.
      rewrite <- app_assoc, skipn_app, A. rewrite skipn_all2 by lia. rewrite Nat.sub_diag, skipn_O. cbn [app].
      rewrite firstn_app, B, Nat.sub_diag, firstn_O, app_nil_r, <- B. apply firstn_all.
    - apply (proj1 (Forall_forall _ _) H6 (nth k rs ([], [])) (nth_In _ _ Lk)). }
  rewrite (map_seq_nth _ _ (fun p => counting (is_rm fm) (snd p)) ([], []) rs).
  rewrite (six_ok 12) by (lia || exact H12).
  assert (E6 : map (firstn 6) bl = map fst rs).
  { unfold bl. rewrite map_map. apply map_ext_in. intros p Hp. destruct (proj1 (Forall_forall _ _) H6 p Hp) as [A _].
    rewrite firstn_app, A, Nat.sub_diag, firstn_O, app_nil_r, <- A. apply firstn_all. }
  rewrite E6. destruct (C37_stored _ _ _ _ _ rest Hc) as (corr & -> & Hm).
  assert (Eu : concat (map (fun p => counting (is_rm fm) (snd p)) rs) = u) by (unfold u; now rewrite flat_map_concat_map). rewrite Eu.
  split; intros Hn.
  - rewrite (proj2 (Nat.eqb_neq _ _) Hn). reflexivity.
  - rewrite (proj2 (Nat.eqb_eq _ _) Hn). cbn [negb]. rewrite map_length.
    destruct (Nat.eqb_spec (length rs) 0) as [C|_]; [destruct rs; [now destruct N|discriminate]|].
    assert (F6 : Forall (fun r => length r = 6) (map fst rs)) by (apply Forall_map; apply Forall_impl with (2 := H6); intros p [A _]; exact A).
    destruct (range_made fm items 2 (map fst rs) file2 (npar, scale u corr) (npar / length rs) F6 P) as (ps & -> & R).
    eexists. exists (scale u corr). split; [reflexivity|]. split; [exact R|]. split; [reflexivity|]. split; [reflexivity|].
    intros a b. unfold scale. now rewrite Hm.
Qed.

(** ** Compatible *)
(** As meant, but for the neutron and capture widths. *)
Definition read_place (a b : nat) : option nat := match a, b with 1, 2 => None | _, _ => meant_place a b end.
Definition placed (rs : list (list Qc)) (m : qmat) : Prop :=
  (forall k a b, k < length rs -> a < 4 -> b < 4 -> m (4 * k + a) (4 * k + b) = match read_place a b with Some p => nth p (nth k rs []) 0%Qc | None => 0%Qc end) /\
  (forall i j, i / 4 <> j / 4 \/ 4 * length rs <= i -> m i j = 0%Qc).

Lemma one_res_ok rs n j recs sz c k : Forall (fun r => length r = 18) rs -> j < length rs -> k + 4 <= sz ->
  exists c', one_res (concat rs) n j (recs, (sz, c), k) = Some (recs ++ [firstn 6 (nth j rs [])], (if j <? n - 1 then sz + 4 else sz, c'), k + 4) /\
    (forall a b, a < 4 -> b < 4 -> c' (k + a) (k + b) = match read_place a b with Some p => nth p (nth j rs []) 0%Qc | None => c (k + a) (k + b) end) /\
    (forall a b, a < k \/ k + 4 <= a \/ b < k \/ k + 4 <= b -> c' a b = c a b).
Proof.
  intros H18 Hj Hk. unfold one_res.
  assert (Eo : firstn 18 (skipn (18 * j) (concat rs)) = nth j rs []).
  { rewrite Nat.mul_comm, (skipn_concat 18 rs j H18).
    assert (Ek : skipn j rs = nth j rs [] :: skipn (S j) rs).
    { now apply skipn_nth. }
    rewrite Ek. cbn [concat]. assert (L : length (nth j rs []) = 18) by (apply (proj1 (Forall_forall _ _) H18), nth_In; exact Hj).
    rewrite firstn_app, L, Nat.sub_diag, firstn_O, app_nil_r, <- L. apply firstn_all. }
  rewrite Eo. assert (L : length (nth j rs []) = 18) by (apply (proj1 (Forall_forall _ _) H18), nth_In; exact Hj).
  rewrite skipn_length, L. change (18 - 6 <? 7) with false. cbv iota.
  assert (G : forall p, nth p (skipn 6 (nth j rs [])) 0%Qc = nth (6 + p) (nth j rs []) 0%Qc).
  { intros p. revert L. generalize (nth j rs []). intros r L. do 6 (destruct r as [|? r]; [cbn in L; lia|]). reflexivity. }
  unfold put_at, fld. rewrite !G.
  repeat (match goal with |- context [?x <? sz] => rewrite (proj2 (Nat.ltb_lt x sz)) by lia end; cbn [andb fst snd]; cbv beta iota).
  cbn [fst snd].
  eexists. split; [destruct (j <? n - 1); reflexivity|]. split.
  - intros a b Ha Hb. destruct a as [|[|[|[|a]]]]; [| | | |lia]; (destruct b as [|[|[|[|b]]]]; [| | | |lia]);
    cbn [read_place meant_place Nat.add];
    repeat match goal with |- context [?x =? ?y] => destruct (Nat.eqb_spec x y); try lia end; reflexivity.
  - intros a b Hab.
    repeat match goal with |- context [?x =? ?y] => destruct (Nat.eqb_spec x y); try lia end; reflexivity.
Qed.

(** The state after [j] of the [n] resonances of the first l-value that has some. *)
Definition after (rs : list (list Qc)) (j : nat) (s : list (list Qc) * matrix * nat) : Prop :=
  exists c, s = (map (firstn 6) (firstn j rs), ((if j <? length rs then 4 * j + 4 else 4 * j), c), 4 * j) /\ placed (firstn j rs) c.
Lemma placed_step rs j c c' : j < length rs -> placed (firstn j rs) c ->
  (forall a b, a < 4 -> b < 4 -> c' (4 * j + a) (4 * j + b) = match read_place a b with Some p => nth p (nth j rs []) 0%Qc | None => c (4 * j + a) (4 * j + b) end) ->
  (forall a b, a < 4 * j \/ 4 * j + 4 <= a \/ b < 4 * j \/ 4 * j + 4 <= b -> c' a b = c a b) -> placed (firstn (S j) rs) c'.
Proof.
  intros Hj [P1 P2] H1 H2. assert (Lj : length (firstn j rs) = j) by (rewrite firstn_length; lia).
  assert (LS : length (firstn (S j) rs) = S j) by (rewrite firstn_length; lia). rewrite Lj in P1, P2. unfold placed. rewrite LS.
  assert (Nf : forall k i, k < i -> nth k (firstn i rs) [] = nth k rs []).
  { clear. intros k i. revert k rs. induction i as [|i IH]; intros k rs Hk; [lia|]. destruct rs as [|x rs]; [reflexivity|].
    destruct k as [|k]; [reflexivity|]. cbn [firstn nth]. apply IH. lia. }
  split.
  - intros k a b Hk Ha Hb. rewrite Nf by lia. destruct (Nat.eq_dec k j) as [->|Ne].
    + rewrite H1 by lia. destruct (read_place a b); [reflexivity|]. apply P2. right. lia.
    + rewrite H2 by lia. rewrite P1 by lia. rewrite Nf by lia. reflexivity.
  - intros i i' [Hi|Hi].
    + destruct (Nat.lt_ge_cases i (4 * j)) as [?|?]; [rewrite H2 by lia; apply P2; now left|].
      destruct (Nat.lt_ge_cases i (4 * j + 4)) as [?|?]; [|rewrite H2 by lia; apply P2; now left].
      assert (Ei : i / 4 = j) by (symmetry; apply (Nat.div_unique i 4 j (i - 4 * j)); lia).
      destruct (Nat.lt_ge_cases i' (4 * j)) as [?|?]; [rewrite H2 by lia; apply P2; now left|].
      destruct (Nat.lt_ge_cases i' (4 * j + 4)) as [?|?]; [|rewrite H2 by lia; apply P2; now left].
      assert (Ei' : i' / 4 = j) by (symmetry; apply (Nat.div_unique i' 4 j (i' - 4 * j)); lia). lia.
    + rewrite H2 by lia. apply P2. right. lia.
Qed.
Lemma each_ok rs : Forall (fun r => length r = 18) rs -> forall left j s, j + left = length rs -> after rs j s ->
  exists s', each (seq j left) (one_res (concat rs) (length rs)) s = Some s' /\ after rs (length rs) s'.
Proof.
  intros H18. induction left as [|left IH]; intros j s Hj Ha.
  - exists s. split; [reflexivity|]. now replace (length rs) with j by lia.
  - cbn [seq each]. destruct Ha as (c & -> & P). rewrite (proj2 (Nat.ltb_lt j (length rs))) by lia.
    destruct (one_res_ok rs (length rs) j (map (firstn 6) (firstn j rs)) (4 * j + 4) c (4 * j) H18 ltac:(lia) ltac:(lia)) as (c' & -> & H1 & H2).
    apply (IH (S j)); [lia|]. exists c'. split; [|exact (placed_step rs j c c' ltac:(lia) P H1 H2)].
    assert (Ef : firstn (S j) rs = firstn j rs ++ [nth j rs []]).
    { clear - Hj. assert (L : j < length rs) by lia. clear Hj. revert rs L. induction j as [|j IHj]; intros [|x rs] L; cbn in L; try lia; [reflexivity|].
      cbn [firstn nth app]. f_equal. apply IHj. lia. }
    rewrite Ef, map_app. cbn [map]. replace (4 * j + 4) with (4 * S j) by lia.
    replace (j <? length rs - 1) with (S j <? length rs); [reflexivity|].
    destruct (Nat.ltb_spec (S j) (length rs)), (Nat.ltb_spec j (length rs - 1)); try reflexivity; lia.
Qed.

Definition some_res (rs : list (list Qc)) : bool := negb (length rs =? 0).
(** Once there are resonances, no more fit. *)
Lemma waves_full : forall rss ls rest recs sz c, compat_texts rss ls ->
  waves (length rss) (ls ++ rest) (recs, (sz, c), sz) = (match filter some_res rss with [] => Some ((recs, (sz, c), sz), rest) | _ => None end).
Proof.
  intros rss ls rest recs sz c H. revert rest. induction H as [|rs rss l ls i j H1 H2 H3 IH]; intros rest; [reflexivity|].
  cbn [length waves]. rewrite <- app_assoc. destruct (list_text_ok _ _ _ _ _ (ls ++ rest) H1) as (it & -> & _ & _ & ->). rewrite Nat2Z.id.
  cbn [filter]. unfold some_res at 1. destruct rs as [|r rs]; cbn [length seq each Nat.eqb negb]; [apply IH|].
  unfold one_res at 1. destruct (length (skipn 6 (firstn 18 (skipn (18 * 0) (concat (r :: rs))))) <? 7); [reflexivity|].
  unfold put_at at 1. rewrite (proj2 (Nat.ltb_ge sz sz)) by lia. reflexivity.
Qed.
Lemma waves_ok : forall rss ls rest c, compat_texts rss ls -> placed [] c ->
  match filter some_res rss with
  | [] => True
  | [rs] => exists c', waves (length rss) (ls ++ rest) ([], (4, c), 0) = Some (map (firstn 6) rs, (4 * length rs, c'), 4 * length rs, rest) /\ placed rs c'
  | _ => waves (length rss) (ls ++ rest) ([], (4, c), 0) = None
  end.
Proof.
  intros rss ls rest c H P. revert rest. induction H as [|rs rss l ls i j H1 H2 H3 IH]; intros rest; [exact I|].
  cbn [length waves]. rewrite <- app_assoc. destruct (list_text_ok _ _ _ _ _ (ls ++ rest) H1) as (it & -> & _ & _ & ->). rewrite Nat2Z.id.
  destruct rs as [|r rs].
  - cbn [filter some_res length Nat.eqb negb seq each]. apply IH.
  - destruct (each_ok (r :: rs) H2 (length (r :: rs)) 0 ([], (4, c), 0) ltac:(lia)) as (s' & -> & c' & -> & P').
    { exists c. split; [reflexivity|exact P]. }
    rewrite Nat.ltb_irrefl, firstn_all in *. cbn [filter]. unfold some_res at 1. cbn [length Nat.eqb negb].
    change (length (r :: rs)) with (S (length rs)) in *.
    pose proof (waves_full rss ls rest (map (firstn 6) (r :: rs)) (4 * S (length rs)) c' H3) as W.
    destruct (filter some_res rss) as [|rs' rest']; [|exact W]. exists c'. split; [exact W|exact P'].
Qed.
Lemma compat_18 rss ls : compat_texts rss ls -> forall rs, In rs rss -> Forall (fun r => length r = 18) rs.
Proof. induction 1 as [|rs0 rss l ls i j H1 H2 H3 IH]; intros rs H; [destruct H|]. destruct H as [<-|H]; auto. Qed.
Lemma compatible_ok fm items file2 rss ls rest : fm <> Rm -> compat_text (n1 items) rss ls ->
  (2 <= length (filter some_res rss) -> cov_from_endf fm items file2 (ls ++ rest) = None) /\
  (forall rs, filter some_res rss = [rs] -> same_energies rs file2 ->
    exists r m, cov_from_endf fm items file2 (ls ++ rest) = Some (r, rest) /\ range_of fm (c1 items) (c2 items) 0 (map (firstn 6) rs) file2 r /\
      r_cov r = (4 * length rs, m) /\ r_mpar r = 4 /\ placed rs m).
Proof.
  intros Hf (h & body & -> & Hh & Hb). rewrite <- app_assoc. rewrite (cov_head _ _ _ _ _ _ _ Hh).
  assert (Er : is_rm fm = false) by (destruct fm; [reflexivity|reflexivity|now destruct Hf]). rewrite Er.
  change (0 =? 1)%Z with false. change (0 =? 2)%Z with false. change (0 =? 0)%Z with true. cbn [negb andb]. cbv iota.
  unfold compatible. rewrite Nat2Z.id. assert (P0 : placed [] (fun _ _ => 0%Qc)) by (split; [intros k a b Hk; cbn in Hk; lia|reflexivity]).
  pose proof (waves_ok rss body rest _ Hb P0) as W. split.
  - intros L. destruct (filter some_res rss) as [|rs1 [|rs2 r]]; cbn in L; try lia.
    match goal with |- context [waves ?a ?b ?c] => assert (W' : waves a b c = None) by exact W; rewrite W' end. reflexivity.
  - intros rs E P. rewrite E in W. destruct W as (m & W & Pm).
    match goal with |- context [waves ?a ?b ?c] => assert (W' : waves a b c = Some (map (firstn 6) rs, (4 * length rs, m), 4 * length rs, rest)) by exact W; rewrite W' end.
    assert (In rs rss /\ some_res rs = true) as [Hin Hs] by (apply filter_In; rewrite E; now left).
    pose proof (compat_18 _ _ Hb rs Hin) as H18. rewrite map_length. unfold some_res in Hs. destruct (Nat.eqb_spec (length rs) 0) as [C|C]; [discriminate|].
    assert (F6 : Forall (fun r => length r = 6) (map (firstn 6) rs)).
    { apply Forall_map. apply Forall_impl with (2 := H18). intros r Hr. rewrite firstn_length. lia. }
    assert (P' : same_energies (map (firstn 6) rs) file2).
    { unfold same_energies in *. rewrite map_map. erewrite map_ext_in; [exact P|]. intros r Hr. cbn beta.
      pose proof (proj1 (Forall_forall _ _) H18 r Hr) as L. destruct r; [discriminate|reflexivity]. }
    destruct (range_made fm items 0 (map (firstn 6) rs) file2 (4 * length rs, m) (4 * length rs / length rs) F6 P') as (ps & -> & R).
    eexists. exists m. split; [reflexivity|]. split; [exact R|]. split; [reflexivity|]. split; [|exact Pm]. cbn [r_mpar fst]. now apply Nat.div_mul.
Qed.
