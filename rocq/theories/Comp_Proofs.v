(** Functions made of functions, proofs. *)
From Coq Require Import ZArith QArith Qcanon List Bool Sorted Arith Lia.
From Verif Require Import Num Comp_Model Comp_Spec.
Import ListNotations.
Local Open Scope nat_scope.
Local Open Scope list_scope.

Lemma sorted_nth bs : ascending bs -> forall i j a b, i <= j -> nth_error bs i = Some a -> nth_error bs j = Some b -> (a <= b)%Qc.
Proof.
  induction 1 as [|c bs S IH F]; intros i j a b L Ei Ej; [destruct i; discriminate|]. destruct i as [|i], j as [|j]; cbn in Ei, Ej; [assert (a = b) as -> by congruence; apply Qcle_refl| |lia|apply (IH i j); [lia|assumption|assumption]].
  assert (c = a) as -> by congruence. rewrite Forall_forall in F. apply F. now apply nth_error_In in Ej.
Qed.
Lemma search_ok bs x : ascending bs -> forall k lo hi, hi - lo <= k -> lo <= hi -> hi <= length bs ->
  (forall j b, j < lo -> nth_error bs j = Some b -> (b < x)%Qc) -> (forall j b, hi <= j -> nth_error bs j = Some b -> (x <= b)%Qc) -> region bs (search k bs x lo hi) x.
Proof.
  intros S. induction k as [|k IH]; intros lo hi K L H A B; cbn [search].
  - assert (hi = lo) by lia. subst hi. repeat split; assumption.
  - destruct (Nat.ltb_spec lo hi) as [L'|L']; [|assert (hi = lo) by lia; subst hi; repeat split; assumption].
    assert (D : (hi - lo) / 2 < hi - lo) by (apply Nat.div_lt; lia). set (mid := lo + (hi - lo) / 2) in *. assert (M : lo <= mid < hi) by (unfold mid; lia). clearbody mid.
    assert (E : nth_error bs mid = Some (nth mid bs 0%Qc)) by (apply nth_error_nth'; lia). destruct (qltb (nth mid bs 0%Qc) x) eqn:Q.
    + apply qltb_lt in Q. apply IH; [lia|lia|exact H| |exact B]. intros j b J Ej. eapply Qcle_lt_trans; [apply (sorted_nth bs S j mid b _ ltac:(lia) Ej E)|exact Q].
    + apply qltb_nlt in Q. apply IH; [lia|lia|lia|exact A|]. intros j b J Ej. eapply Qcle_trans; [exact Q|apply (sorted_nth bs S mid j _ b J E Ej)].
Qed.
Lemma search_region bs x : ascending bs -> region bs (searchsorted bs x) x.
Proof.
  intros S. apply search_ok; [exact S|lia|lia|lia|intros j b J; lia|]. intros j b J E. exfalso. assert (j < length bs) by (apply nth_error_Some; congruence). lia.
Qed.
Lemma region_unique bs x i i' : region bs i x -> region bs i' x -> i = i'.
Proof.
  intros (L & A & B) (L' & A' & B'). destruct (Nat.lt_trichotomy i i') as [H|[H|H]]; [exfalso| exact H|exfalso].
  - destruct (nth_error bs i) as [b|] eqn:E; [|apply nth_error_None in E; lia]. apply (Qclt_not_le b x (A' i b H E)), (B i b (le_n i) E).
  - destruct (nth_error bs i') as [b|] eqn:E; [|apply nth_error_None in E; lia]. apply (Qclt_not_le b x (A i' b H E)), (B' i' b (le_n i') E).
Qed.
Lemma search_iff bs x i : ascending bs -> searchsorted bs x = i <-> region bs i x.
Proof. intros S. split; [intros <-; now apply search_region|intros R; exact (region_unique bs x _ _ (search_region bs x S) R)]. Qed.
Lemma documented_region bs i x : ascending bs -> documented bs i x -> region bs (i + 1) x.
Proof.
  intros S (a & b & E1 & E2 & H1 & H2). assert (i + 1 < length bs) by (apply nth_error_Some; congruence). split; [lia|]. split.
  - intros j c J Ej. eapply Qcle_lt_trans; [apply (sorted_nth bs S j i c a ltac:(lia) Ej E1)|exact H1].
  - intros j c J Ej. eapply Qcle_trans; [exact H2|apply (sorted_nth bs S (i + 1) j b c J E2 Ej)].
Qed.

(** ** Combinations *)
Lemma apply_snoc fs os o : forall i x a, apply_ops fs i (os ++ [o]) x a = match apply_ops fs i os x a, nth_error fs (i + length os + 1) with Some v, Some f => Some (o v (f x)) | _, _ => None end.
Proof.
  induction os as [|p os IH]; intros i x a; cbn [app apply_ops length]; [now rewrite Nat.add_0_r|]. destruct (nth_error fs (i + 1)) as [f|]; [|reflexivity]. rewrite IH. now replace (S i + length os + 1) with (i + S (length os) + 1) by lia.
Qed.
Lemma apply_more fs gs os : forall i x a, i + length os + 1 <= length fs -> apply_ops (fs ++ gs) i os x a = apply_ops fs i os x a.
Proof.
  induction os as [|p os IH]; intros i x a L; cbn [apply_ops]; [reflexivity|]. cbn [length] in L. rewrite nth_error_app1 by lia. destruct (nth_error fs (i + 1)); [apply IH; lia|reflexivity].
Qed.
Lemma call_more fs gs os x : length os + 1 <= length fs -> call_combination (mkComb (fs ++ gs) os) x = call_combination (mkComb fs os) x.
Proof.
  intros L. unfold call_combination. cbn [c_fns c_ops]. destruct fs as [|f fs]; [cbn in L; lia|]. cbn [app nth_error]. change (f :: fs ++ gs) with ((f :: fs) ++ gs). apply apply_more. lia.
Qed.
Lemma call_combined x : forall os fs, length fs = length os + 1 -> exists v, combined x fs os v /\ call_combination (mkComb fs os) x = Some v.
Proof.
  induction os as [|o os IH] using rev_ind; intros fs L.
  - destruct fs as [|f [|g fs]]; try (cbn in L; lia). exists (f x). split; [constructor|reflexivity].
  - rewrite app_length in L. cbn in L. destruct fs as [|f fs _] using rev_ind; [cbn in L; lia|]. rewrite app_length in L. cbn in L. destruct (IH fs ltac:(lia)) as (v & C & E). exists (o v (f x)). split; [now constructor|].
    rewrite <- (call_more fs [f] os x ltac:(lia)) in E. unfold call_combination in *. cbn [c_fns c_ops] in *. destruct (nth_error (fs ++ [f]) 0); [|discriminate]. rewrite apply_snoc, E. rewrite nth_error_app2 by lia. replace (0 + length os + 1 - length fs) with 0 by lia. reflexivity.
Qed.
Lemma combined_unique x fs os v : combined x fs os v -> forall w, combined x fs os w -> v = w.
Proof.
  induction 1 as [f|fs os f o v C IH]; intros w W; inversion W; subst; try reflexivity.
  - destruct os; discriminate.
  - destruct os; discriminate.
  - apply app_inj_tail in H as [-> ->]. apply app_inj_tail in H0 as [-> ->]. now rewrite (IH v0).
Qed.
Lemma apply_none fs os : forall i x a, length fs <= i + length os -> os <> [] -> apply_ops fs i os x a = None.
Proof.
  induction os as [|o os IH]; intros i x a L N; [contradiction|]. cbn [apply_ops length] in *. destruct (nth_error fs (i + 1)) as [f|] eqn:E; [|reflexivity]. assert (i + 1 < length fs) by (apply nth_error_Some; congruence). destruct os as [|p os]; [cbn in L; lia|]. apply IH; [lia|discriminate].
Qed.

(** ** Sums *)
Lemma sum_acc fs x : forall a, fold_left (fun a f => (a + f x)%Qc) fs a = (a + qsum (map (fun f : fn => f x) fs))%Qc.
Proof. induction fs as [|f fs IH]; intros a; cbn [fold_left map]; [cbn; ring|]. rewrite IH, qsum_cons. ring. Qed.
Lemma sums_acc fs xs : forall l, length l = length xs -> fold_left (fun r f => plus r (map f xs)) fs (Array l) = Array (map (fun p => (snd p + qsum (map (fun f : fn => f (fst p)) fs))%Qc) (combine xs l)).
Proof.
  induction fs as [|f fs IH]; intros l L; cbn [fold_left].
  - f_equal. revert l L. induction xs as [|x xs IH]; intros [|a l] L; try discriminate; [reflexivity|]. cbn. cbn in L. rewrite <- IH by lia. f_equal. ring.
  - cbn [plus]. rewrite IH; [|rewrite map_length, combine_length, map_length; lia]. f_equal. clear IH. revert l L. induction xs as [|x xs IH]; intros [|a l] L; try discriminate; [reflexivity|]. cbn [combine map fst snd] in *. cbn in L. rewrite IH by lia. f_equal. rewrite qsum_cons. ring.
Qed.
Lemma sums_ok fs xs : fs <> [] -> call_sums fs xs = Array (map (call_sum fs) xs).
Proof.
  destruct fs as [|f fs]; [contradiction|]. intros _. unfold call_sums. cbn [fold_left plus]. rewrite sums_acc; [|now rewrite !map_length]. f_equal. induction xs as [|x xs IH]; [reflexivity|]. cbn [map combine fst snd]. rewrite IH. f_equal. unfold call_sum. cbn [fold_left]. rewrite sum_acc. reflexivity.
Qed.

(** ** Arrays *)
Lemma trunc_whole q : whole_number q -> trunc q = q.
Proof. intros (z & ->). unfold trunc. assert (E : this (qz z) = (z # 1)%Q) by (apply Qred_identity; cbn [Qnum Qden]; apply Z.gcd_1_r). rewrite E. cbn [Qnum Qden]. now rewrite Z.quot_1_r. Qed.
Lemma trunc_whole' q : trunc q = q -> whole_number q.
Proof. intros <-. eexists. reflexivity. Qed.
