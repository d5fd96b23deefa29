From Verif Require Import Num Text Dec Endf_Model Endf_Spec Endf_Props Intg_Model Intg_Spec Intg_Props SampleCorr_Model SampleCorr_Proofs Rcov_Model Rcov_Spec.
From Coq Require Import Permutation Sorting.Sorted Lia.
Local Open Scope list_scope.
Local Open Scope nat_scope.

(** ** Lists *)
Lemma all_some_map : forall A B (f : A -> option B) (g : A -> B) l, (forall x, In x l -> f x = Some (g x)) ->
  all_some (map f l) = Some (map g l).
Proof.
  induction l as [|x l IH]; intros H; [reflexivity|]. cbn [map all_some]. rewrite (H x) by now left.
  rewrite IH; [reflexivity|]. intros y Hy. apply H. now right.
Qed.
Lemma all_some_none : forall A (l : list (option A)), In None l -> all_some l = None.
Proof.
  induction l as [|x l IH]; intros H; [destruct H|]. cbn [all_some]. destruct H as [->|H]; [reflexivity|].
  destruct x; [|reflexivity]. now rewrite IH.
Qed.

Lemma concat_length k : forall (rs : list (list Qc)), Forall (fun r => length r = k) rs -> length (concat rs) = k * length rs.
Proof. induction 1 as [|r rs H1 H2 IH]; cbn [concat length]; [lia|]. rewrite app_length, IH. lia. Qed.
Lemma concat_nth k : 0 < k -> forall rs, Forall (fun r => length r = k) rs -> forall i a, i < length rs -> a < k ->
  nth (a + k * i) (concat rs) 0%Qc = nth a (nth i rs []) 0%Qc.
Proof.
  intros Hk rs H. induction H as [|r rs H1 H2 IH]; intros i a Hi Ha; cbn [length] in Hi; [lia|]. cbn [concat].
  destruct i as [|i].
  - rewrite app_nth1 by lia. now rewrite Nat.mul_0_r, Nat.add_0_r.
  - rewrite app_nth2 by lia. replace (a + k * S i - length r) with (a + k * i) by lia. cbn [nth]. apply IH; lia.
Qed.
Lemma map_seq_nth : forall A B (f : A -> B) (d : A) l, map (fun i => f (nth i l d)) (seq 0 (length l)) = map f l.
Proof.
  intros A B f d l. apply nth_ext with (d := f d) (d' := f d); [now rewrite !map_length, seq_length|].
  intros i Hi. rewrite map_length, seq_length in Hi. rewrite (map_nth f).
  rewrite (nth_indep _ _ (f (nth (length l) l d))) by (rewrite map_length, seq_length; lia).
  rewrite (map_nth (fun i => f (nth i l d)) (seq 0 (length l)) (length l)). now rewrite seq_nth by lia.
Qed.
Lemma stride_concat k rs a : a < k -> Forall (fun r => length r = k) rs -> stride k a (concat rs) = map (fun r => nth a r 0%Qc) rs.
Proof.
  intros Ha H. unfold stride. rewrite (concat_length k rs H).
  assert (E : (k * length rs - a + (k - 1)) / k = length rs).
  { symmetry. destruct (length rs) as [|n] eqn:En.
    - rewrite Nat.mul_0_r. cbn [Nat.sub]. replace (0 - a + (k - 1)) with (k - 1) by lia. symmetry. apply Nat.div_small. lia.
    - apply (Nat.div_unique _ k (S n) (k - 1 - a)); lia. }
  rewrite E. rewrite <- (map_seq_nth _ _ (fun r => nth a r 0%Qc) [] rs). apply map_ext_in. intros i Hi. apply in_seq in Hi.
  apply (concat_nth k); [lia|exact H|lia|lia].
Qed.
Lemma firstn6 (r : list Qc) : 6 <= length r -> firstn 6 r = map (fun a => nth a r 0%Qc) (seq 0 6).
Proof. intros H. do 6 (destruct r as [|? r]; [cbn in H; lia|]). reflexivity. Qed.
Lemma six_ok k rs : 6 <= k -> Forall (fun r => length r = k) rs -> six k (concat rs) = Some (map (firstn 6) rs).
Proof.
  intros Hk H. unfold six. rewrite (stride_concat k rs 0) by (lia || exact H). rewrite map_length.
  rewrite (all_some_map _ _ _ (fun i => firstn 6 (nth i rs []))).
  - now rewrite (map_seq_nth _ _ (firstn 6) [] rs).
  - intros i Hi. apply in_seq in Hi. assert (Hl : length (nth i rs []) = k) by (apply (proj1 (Forall_forall _ _) H), nth_In; lia).
    rewrite (all_some_map _ _ _ (fun a => nth a (nth i rs []) 0%Qc)); [now rewrite firstn6 by lia|].
    intros a Ha. apply in_seq in Ha. rewrite (stride_concat k rs a) by (lia || exact H).
    rewrite nth_error_map, (nth_error_nth' rs []) by lia. reflexivity.
Qed.
Lemma firstn6_id (rs : list (list Qc)) : Forall (fun r => length r = 6) rs -> map (firstn 6) rs = rs.
Proof. induction 1 as [|r rs H1 H2 IH]; [reflexivity|]. cbn [map]. rewrite IH, <- H1, firstn_all. reflexivity. Qed.

(** ** Triangles *)
Lemma listing_S n m : listing (S n) m = map (m 0) (seq 0 (S n)) ++ listing n (fun i j => m (S i) (S j)).
Proof.
  unfold listing. rewrite <- (cons_seq n 0) at 1. cbn [flat_map]. f_equal. rewrite <- seq_shift.
  generalize (seq 0 n). induction l as [|i l IH]; [reflexivity|]. cbn [map flat_map]. rewrite IH. f_equal.
  cbn [Nat.sub]. rewrite <- seq_shift, map_map. reflexivity.
Qed.
Lemma listing_length n : forall m, length (listing n m) = offset n n.
Proof.
  induction n as [|n IH]; intros m; [reflexivity|]. rewrite listing_S, app_length, map_length, seq_length, IH.
  cbn [offset]. now rewrite Nat.sub_succ, Nat.sub_0_r.
Qed.
Lemma listing_nth n : forall m i j, i <= j -> j < n -> nth (offset n i + (j - i)) (listing n m) 0%Qc = m i j.
Proof.
  induction n as [|n IH]; intros m i j Hij Hj; [lia|]. rewrite listing_S. destruct i as [|i].
  - cbn [offset]. rewrite Nat.add_0_l, Nat.sub_0_r. rewrite app_nth1 by (rewrite map_length, seq_length; lia).
    rewrite (nth_indep _ _ (m 0 0)) by (rewrite map_length, seq_length; lia). rewrite (map_nth (m 0)), seq_nth by lia. reflexivity.
  - cbn [offset]. rewrite Nat.sub_succ, Nat.sub_0_r. rewrite app_nth2 by (rewrite map_length, seq_length; lia).
    rewrite map_length, seq_length. destruct j as [|j]; [lia|].
    replace (S n + offset n i + (S j - S i) - S n) with (offset n i + (j - i)) by lia.
    rewrite (IH (fun i j => m (S i) (S j)) i j) by lia. reflexivity.
Qed.
Lemma triu_ok n m : exists m', triu n (listing n m) = Some m' /\ upper_part n m m'.
Proof.
  unfold triu. rewrite listing_length, Nat.eqb_refl. eexists. split; [reflexivity|]. split.
  - intros i j Hij Hj. cbn beta. rewrite (proj2 (Nat.leb_le i j) Hij), (proj2 (Nat.ltb_lt j n) Hj). cbn [andb]. now apply listing_nth.
  - intros i j H. cbn beta. destruct (Nat.leb_spec i j), (Nat.ltb_spec j n); try reflexivity. lia.
Qed.

(** ** Text *)
Lemma list_text_ok i j n vs ls rest : list_text i j n vs ls -> exists it, get_list_record (ls ++ rest) = Some (it, vs, rest) /\
  l1 it = i /\ l2 it = j /\ n2 it = n.
Proof.
  intros (l & a & b & ls' & -> & Hc & Hr). eexists. rewrite <- app_comm_cons.
  rewrite (C36_list l a b i j n vs ls' rest Hc Hr). repeat split.
Qed.
Lemma radius_ok items ls rest : radius_text (n1 items) ls -> radius items (ls ++ rest) = Some rest.
Proof.
  intros [[E ->]|[E (l & a & b & i & j & rg & ps & lr & lp & -> & Hc & Hr & Hp)]]; unfold radius.
  - now rewrite E.
  - rewrite (proj2 (Z.eqb_neq _ _) E). rewrite <- app_comm_cons, <- app_assoc.
    now rewrite (C36_tab1 l a b i j rg ps lr lp rest Hc Hr Hp).
Qed.
Lemma head_ok items flag nls ls rest : head_text (n1 items) flag nls ls ->
  exists f it, radius items (ls ++ rest) = Some f /\ get_cont_record false f = Some (it, rest) /\ l2 it = flag /\ n1 it = nls.
Proof.
  intros (rad & l & a & b & i & n & -> & Hr & Hc). exists (l :: rest). eexists. rewrite <- app_assoc. cbn [app].
  rewrite (radius_ok items rad (l :: rest) Hr). split; [reflexivity|]. rewrite (C36_cont l a b i flag nls n rest Hc). repeat split.
Qed.

(** ** File 2 *)
Definition f2_rows (fm : form) (w : wave) : list reson := map (f2_row fm (w_l w) (w_x w)) (w_res w).
Lemma f2_levels_ok fm : forall ws ls rest, waves_text ws ls ->
  f2_levels fm (length ws) (ls ++ rest) = Some (flat_map (f2_rows fm) ws, rest).
Proof.
  intros ws ls rest H. revert rest. induction H as [|w ws l ls H1 H2 H3 IH]; intros rest; [reflexivity|].
  cbn [length f2_levels flat_map]. rewrite <- app_assoc.
  destruct (list_text_ok _ _ _ _ _ (ls ++ rest) H1) as (it & -> & E1 & E2 & _).
  rewrite (six_ok 6) by (lia || exact H2). rewrite (firstn6_id _ H2), IH, E1, E2. reflexivity.
Qed.
Lemma file2_ok fm items flag ws h ls rest : head_text (n1 items) flag (Z.of_nat (length ws)) h -> ws <> [] -> waves_text ws ls ->
  file2_from_endf fm items (h ++ ls ++ rest) = Some (labelled (flat_map (f2_rows fm) ws), rest).
Proof.
  intros H Hw Ht. unfold file2_from_endf. destruct (head_ok items flag _ h (ls ++ rest) H) as (f & it & -> & -> & _ & ->).
  destruct (Z.leb_spec (Z.of_nat (length ws)) 0) as [E|E]; [destruct ws; [now destruct Hw|cbn in E; lia]|].
  now rewrite Nat2Z.id, f2_levels_ok.
Qed.

(** ** Joining *)
Lemma labelled_fst l : map fst (labelled l) = seq 0 (length l).
Proof. unfold labelled. apply (f_equal (fun x => x)). generalize 0. induction l as [|x l IH]; intros k; [reflexivity|]. cbn. now rewrite IH. Qed.
Lemma labelled_snd l : map snd (labelled l) = l.
Proof. unfold labelled. generalize 0. induction l as [|x l IH]; intros k; [reflexivity|]. cbn. now rewrite IH. Qed.
Lemma labelled_length l : length (labelled l) = length l.
Proof. unfold labelled. rewrite combine_length, seq_length. lia. Qed.

Section Join.
Context {A : Type} (key : A -> Qc).
Lemma insert_sorted p l : StronglySorted (fun x y => (key x <= key y)%Qc) l -> StronglySorted (fun x y => (key x <= key y)%Qc) (insert key p l).
Proof.
  induction 1 as [|y l H1 IH H2]; cbn [insert]; [repeat constructor|].
  destruct (qleb (key p) (key y)) eqn:E.
  - apply qleb_le in E. constructor; [now constructor|]. constructor; [exact E|].
    apply Forall_forall. intros z Hz. apply Qcle_trans with (key y); [exact E|]. exact (proj1 (Forall_forall _ _) H2 z Hz).
  - constructor; [exact IH|]. apply Forall_forall. intros z Hz.
    assert (Hin : forall l, In z (insert key p l) -> z = p \/ In z l).
    { clear. induction l as [|w l IH]; cbn [insert]; [intros [E|[]]; now left|].
      destruct (qleb (key p) (key w)); cbn [In]; intros [E|H]; auto. destruct (IH H); auto. }
    destruct (Hin l Hz) as [->|Hz']; [|exact (proj1 (Forall_forall _ _) H2 z Hz')].
    apply Qclt_le_weak, Qcnot_le_lt. intros C. apply qleb_le in C. congruence.
Qed.
Lemma isort_sorted l : StronglySorted (fun x y => (key x <= key y)%Qc) (isort key l).
Proof. induction l as [|p l IH]; cbn [isort fold_right]; [constructor|]. now apply insert_sorted. Qed.
End Join.

(** Sorted lists with the same elements are equal. *)
Lemma sorted_unique : forall l l' : list Qc, Permutation l l' -> StronglySorted Qcle l -> StronglySorted Qcle l' -> l = l'.
Proof.
  induction l as [|x l IH]; intros l' P H H'; [apply Permutation_nil in P; now subst|].
  destruct l' as [|y l']; [apply Permutation_sym, Permutation_nil in P; discriminate|].
  inversion H as [|? ? H1 H2]; subst. inversion H' as [|? ? H3 H4]; subst.
  assert (E : x = y).
  { apply Qcle_antisym.
    - assert (Hy : In y (x :: l)) by (apply (Permutation_in _ (Permutation_sym P)); now left).
      destruct Hy as [->|Hy]; [apply Qcle_refl|exact (proj1 (Forall_forall _ _) H2 y Hy)].
    - assert (Hx : In x (y :: l')) by (apply (Permutation_in _ P); now left).
      destruct Hx as [->|Hx]; [apply Qcle_refl|exact (proj1 (Forall_forall _ _) H4 x Hx)]. }
  subst y. f_equal. apply IH; [|exact H1|exact H3]. apply (Permutation_cons_inv P).
Qed.
Lemma sorted_map {A} (key : A -> Qc) l : StronglySorted (fun x y => (key x <= key y)%Qc) l -> StronglySorted Qcle (map key l).
Proof.
  induction 1 as [|y l H1 IH H2]; cbn [map]; constructor; [exact IH|]. apply Forall_forall. intros z Hz. apply in_map_iff in Hz.
  destruct Hz as (w & <- & Hw). exact (proj1 (Forall_forall _ _) H2 w Hw).
Qed.

Lemma ranked_key (ks : list Qc) (l : list Qc) i : Permutation ks l -> StronglySorted Qcle l -> i < length ks ->
  nth (nth i (rank_col ks) 0) l 0%Qc = nth i ks 0%Qc /\ nth i (rank_col ks) 0 < length ks.
Proof.
  intros P Hs Hi. rewrite (rank_nth ks i Hi). destruct (sp_at ks i Hi) as [E L]. split; [|exact L].
  assert (El : l = map fst (isort fst (combine ks (seq 0 (length ks))))).
  { apply sorted_unique; [|exact Hs|apply sorted_map, isort_sorted].
    rewrite <- P. rewrite (isort_perm _ fst). assert (X : forall (a : list Qc) (b : list nat), length a = length b -> map fst (combine a b) = a).
    { induction a as [|x a IH]; intros [|y b] H; cbn in *; try lia; [reflexivity|]. f_equal. apply IH. lia. }
    rewrite X; [reflexivity|now rewrite seq_length]. }
  rewrite El. change 0%Qc with (fst (0%Qc, 0)) at 1. rewrite (map_nth fst). now rewrite E.
Qed.
Lemma four (r : list Qc) : length r = 6 -> [fld r 2; fld r 3; fld r 4; fld r 5] = firstn 4 (skipn 2 r).
Proof. intros H. do 7 (destruct r as [|? r]; try (cbn in H; lia)). reflexivity. Qed.
Lemma add_file2_ok fm rs file2 : Forall (fun r => length r = 6) rs -> same_energies rs file2 ->
  exists ps, add_file2 fm rs file2 = Some ps /\ Forall2 (joined fm file2) rs ps /\ length ps = length rs.
Proof.
  intros H6 P. unfold add_file2. set (ks := map (fun r => fld r 0) rs).
  assert (L : length rs = length file2) by (apply Permutation_length in P; rewrite !map_length in P; exact P).
  rewrite (proj2 (Nat.eqb_eq _ _) L). cbn [negb]. eexists. split; [reflexivity|].
  assert (Hk : length ks = length rs) by apply map_length.
  assert (P' : Permutation ks (map energy (isort energy (map snd file2)))).
  { unfold ks, fld. etransitivity; [exact P|]. apply Permutation_map. symmetry. apply isort_perm. }
  assert (Hs : StronglySorted Qcle (map energy (isort energy (map snd file2)))) by apply sorted_map, isort_sorted.
  assert (Key : forall i, i < length rs -> let k := nth i (rank_col ks) 0 in
    let q := nth k (isort energy (map snd file2)) (mkRes 0%Qc 0 0%Qc []) in In q (map snd file2) /\ energy q = nth 0 (nth i rs []) 0%Qc).
  { intros i Hi k q. destruct (ranked_key ks _ i P' Hs ltac:(lia)) as [E Lk].
    assert (Lb : length (isort energy (map snd file2)) = length rs) by (rewrite (isort_perm _ energy), map_length; lia). split.
    - apply (Permutation_in _ (isort_perm _ energy _)). apply nth_In. unfold k. rewrite Lb. lia.
    - change 0%Qc with (energy (mkRes 0%Qc 0 0%Qc [])) in E at 1. rewrite (map_nth energy) in E. unfold q, k. rewrite E. unfold ks.
      rewrite (nth_indep _ _ (fld [] 0)) by (rewrite map_length; exact Hi). rewrite (map_nth (fun r => fld r 0)). reflexivity. }
  assert (Lr : length (rank_col ks) = length rs) by (rewrite rank_length; lia). clear P P' Hs Hk L.
  revert H6 Key Lr. generalize (rank_col ks). generalize (isort energy (map snd file2)). clear ks. intros sorted ranks.
  revert ranks. induction rs as [|r rs IH]; intros ranks H6 Key Lr; [cbn [combine map]; split; [apply Forall2_nil|reflexivity]|].
  destruct ranks as [|k ranks]; [discriminate|]. cbn [combine map]. inversion H6 as [|? ? H1 H2]; subst.
  destruct (IH ranks H2) as [F E]; [|cbn in Lr; lia|split; [|cbn [length]; now rewrite E]].
  - intros i Hi. exact (Key (S i) ltac:(cbn; lia)).
  - constructor; [|exact F]. destruct (Key 0 ltac:(cbn; lia)) as [K1 K2]. cbn [nth] in K1, K2.
    eexists. split; [exact K1|]. split; [exact K2|]. rewrite <- (four r H1). destruct fm; reflexivity.
Qed.

(** ** Blocks *)
Lemma block_ok b l j rest : list_text (Z.of_nat (s_mpar b)) j (Z.of_nat (length (s_res b))) (concat (s_res b) ++ listing (s_size b) (s_cov b)) l ->
  Forall (fun r => length r = 6) (s_res b) ->
  exists m, block (l ++ rest) = Some (s_res b, (s_size b, m), rest) /\ upper_part (s_size b) (s_cov b) m.
Proof.
  intros Ht H6. unfold block. destruct (list_text_ok _ _ _ _ _ rest Ht) as (it & -> & E1 & _ & E3). rewrite E1, E3.
  destruct (Z.ltb_spec (Z.of_nat (length (s_res b))) 0) as [C|_]; [lia|].
  destruct (Z.ltb_spec (Z.of_nat (s_mpar b) * Z.of_nat (length (s_res b))) 0) as [C|_]; [lia|]. cbn [orb].
  rewrite Nat2Z.id. rewrite <- (concat_length 6 _ H6). rewrite firstn_app, firstn_all, Nat.sub_diag, firstn_O, app_nil_r.
  rewrite skipn_app, skipn_all, Nat.sub_diag, skipn_O. cbn [app]. rewrite (six_ok 6) by (lia || exact H6). rewrite (firstn6_id _ H6).
  replace (Z.to_nat (Z.of_nat (s_mpar b) * Z.of_nat (length (s_res b)))) with (s_size b) by (unfold s_size; lia).
  destruct (triu_ok (s_size b) (s_cov b)) as (m & -> & U). now exists m.
Qed.
Lemma blocks_ok : forall bs ls rest, shorts_text bs ls ->
  exists o, blocks (length bs) (ls ++ rest) = Some (flat_map s_res bs, o, rest) /\
    match rev bs with [] => o = None | b :: _ => exists m, o = Some (s_size b, m) /\ upper_part (s_size b) (s_cov b) m end.
Proof.
  intros bs ls rest H. revert rest. induction H as [|b bs l ls j H1 H2 H3 IH]; intros rest; [now exists None|].
  cbn [length blocks flat_map]. rewrite <- app_assoc. destruct (block_ok b l j (ls ++ rest) H1 H2) as (m & -> & U).
  destruct (IH rest) as (o & -> & Ho). eexists. split; [reflexivity|]. cbn [rev]. destruct (rev bs) as [|b' r'] eqn:Er; cbn [app].
  - subst o. exists m. now split.
  - destruct Ho as (m' & -> & U'). exists m'. now split.
Qed.
Lemma shorts_six bs ls : shorts_text bs ls -> Forall (fun r => length r = 6) (flat_map s_res bs).
Proof. induction 1 as [|b bs l ls j H1 H2 H3 IH]; [constructor|]. cbn [flat_map]. now apply Forall_app. Qed.

Lemma cov_head fm items file2 flag nls h rest : head_text (n1 items) flag nls h ->
  cov_from_endf fm items file2 (h ++ rest) =
  match (if (flag =? 1)%Z then general rest else if (flag =? 2)%Z then compact fm rest
         else if (flag =? 0)%Z && negb (is_rm fm) then compatible (Z.to_nat nls) rest else None) with
  | Some (recs, m, f3) => if length recs =? 0 then None else
      match add_file2 fm recs file2 with
      | Some ps => Some (mkRange fm (c1 items) (c2 items) (labelled ps) m (fst m / length recs) flag file2, f3)
      | None => None
      end
  | None => None
  end.
Proof. intros H. unfold cov_from_endf. destruct (head_ok items flag nls h rest H) as (f & it & -> & -> & -> & ->). reflexivity. Qed.

Lemma range_made fm items lcomp rs file2 (m : matrix) mpar : Forall (fun r => length r = 6) rs -> same_energies rs file2 ->
  exists ps, add_file2 fm rs file2 = Some ps /\ range_of fm (c1 items) (c2 items) lcomp rs file2 (mkRange fm (c1 items) (c2 items) (labelled ps) m mpar lcomp file2).
Proof.
  intros H6 P. destruct (add_file2_ok fm rs file2 H6 P) as (ps & E & F & L). exists ps. split; [exact E|].
  repeat split; cbn [r_params]; [now rewrite labelled_fst, L|now rewrite labelled_snd].
Qed.

Lemma general_ok fm items file2 nlong bs b ls rest : general_text (n1 items) nlong (bs ++ [b]) ls ->
  same_energies (flat_map s_res (bs ++ [b])) file2 -> flat_map s_res (bs ++ [b]) <> [] ->
  exists r m, cov_from_endf fm items file2 (ls ++ rest) = Some (r, rest) /\ range_of fm (c1 items) (c2 items) 1 (flat_map s_res (bs ++ [b])) file2 r /\
    r_cov r = (s_size b, m) /\ upper_part (s_size b) (s_cov b) m /\ r_mpar r = s_size b / length (flat_map s_res (bs ++ [b])).
Proof.
  intros (nls & h & l & a & a' & i & j & body & -> & Hh & Hc & Hs) P N. rewrite <- app_assoc. rewrite (cov_head _ _ _ _ _ _ _ Hh).
  cbn [app]. change (1 =? 1)%Z with true. cbv iota. unfold general. rewrite (C36_cont _ _ _ _ _ _ _ _ Hc). cbn [n1]. rewrite Nat2Z.id.
  destruct (blocks_ok _ _ rest Hs) as (o & -> & Ho). rewrite rev_app_distr in Ho. cbn [rev app] in Ho. destruct Ho as (m & -> & U). cbv beta iota.
  destruct (Nat.eqb_spec (length (flat_map s_res (bs ++ [b]))) 0) as [C|_]; [destruct (flat_map s_res (bs ++ [b])); [now destruct N|discriminate]|].
  destruct (range_made fm items 1 (flat_map s_res (bs ++ [b])) file2 (s_size b, m) (s_size b / length (flat_map s_res (bs ++ [b]))) (shorts_six _ _ Hs) P) as (ps & -> & R).
  eexists. exists m. split; [reflexivity|]. split; [exact R|]. repeat split; apply U.
Qed.
