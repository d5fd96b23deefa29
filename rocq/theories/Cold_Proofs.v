(** Elastic scattering at 0 K, proofs. *)
From Coq Require Import ZArith QArith Qcanon List Bool String Sorted Lia Lqa.
From Verif Require Import Num Hdf_Model Hdf_Proofs Neut_Model Nuc_Model Nuc_Proofs Thin_Spec Thin_Proofs Linz_Spec Linz_Proofs Temp_Model Temp_Proofs Cold_Model Cold_Spec.
From Verif Require Sab_Model Sab_Proofs Thin_Model Thin_Props Linz_Model Linz_Props.
Import ListNotations.
Local Open Scope string_scope.
Local Open Scope list_scope.

Local Notation insert := Neut_Model.insert.
(** ** Sorted unions *)
Lemma insert_in v l x : In x (insert v l) <-> x = v \/ In x l.
Proof.
  induction l as [|w r IH]; cbn [insert In]; [intuition|]. destruct (qeqb_spec v w) as [->|N]; [cbn [In]; intuition|]. destruct (qltb_spec v w); cbn [In]; [intuition|]. rewrite IH. intuition.
Qed.
Lemma insert_asc v l : StronglySorted Qclt l -> StronglySorted Qclt (insert v l).
Proof.
  induction 1 as [|w r S IH F]; cbn [insert]; [repeat constructor|]. destruct (qeqb_spec v w) as [->|N]; [now constructor|]. destruct (qltb_spec v w) as [L|L].
  - constructor; [now constructor|]. constructor; [exact L|]. eapply Forall_impl; [|exact F]. intros a H. cbn beta in H. qclra.
  - constructor; [exact IH|]. apply Forall_forall. intros x I0. apply insert_in in I0 as [->|I0]; [|rewrite Forall_forall in F; now apply F].
    destruct (Qclt_le_dec w v) as [H|H]; [exact H|]. exfalso. apply N. apply Qcle_antisym; [exact H|]. now apply Qcnot_lt_le.
Qed.
Lemma union_in a b x : In x (union1d a b) <-> In x a \/ In x b.
Proof. unfold union1d. rewrite <- in_app_iff. induction (a ++ b) as [|v l IH]; [reflexivity|]. cbn [fold_right]. rewrite insert_in, IH. cbn [In]. intuition. Qed.
Lemma union_asc a b : StronglySorted Qclt (union1d a b).
Proof. unfold union1d. induction (a ++ b) as [|v l IH]; [constructor|]. cbn [fold_right]. now apply insert_asc. Qed.
Lemma asc_ends l lo hi : StronglySorted Qclt l -> In lo l -> In hi l -> (forall e, In e l -> (lo <= e <= hi)%Qc) -> hd_error l = Some lo /\ last l 0%Qc = hi.
Proof.
  intros S Il Ih H. split.
  - destruct l as [|x l]; [destruct Il|]. cbn. f_equal. inversion S as [|? ? S1 F]; subst. destruct Il as [E|Il]; [exact E|]. rewrite Forall_forall in F. specialize (F _ Il). destruct (H x (or_introl eq_refl)). qclra.
  - assert (G : forall e, In e l -> (e <= hi)%Qc) by (intros e I0; now apply H). clear - S Ih G.
    revert Ih G. induction S as [|x m S IH F]; intros I0 G; [destruct I0|]. destruct m as [|y m]; [destruct I0 as [E|[]]; exact E|]. change (last (x :: y :: m) 0%Qc) with (last (y :: m) 0%Qc). apply IH; [|intros e I1; apply G; now right].
    destruct I0 as [->|I0]; [|exact I0]. exfalso. inversion F as [|? ? F1 F2]; subst. specialize (G y (or_intror (or_introl eq_refl))). qclra.
Qed.

(** ** Resonances and their cells *)
Lemma peaks_has k l : peaks k = Some l <-> has k l.
Proof.
  destruct k as [rows|rows| | |]; cbn [peaks has]; try (split; [discriminate|intros []]).
  - split; congruence.
  - split.
    + intros E. assert (l = map (fun r : Qc * (Qc * Qc * (Qc * Qc)) => let '(e, (n, c, (a, b))) := r in (e, n + c + qabs a + qabs b)%Qc) rows) as -> by congruence.
      clear E. induction rows as [|[e [[n c] [a b]]] rows IH]; constructor; [|exact IH]. exists (qabs a), (qabs b).
      assert (M : forall v, magnitude v (qabs v)). { intros v. destruct (qabs_spec v) as [[H ->]|[H ->]]; split; auto; qclra. }
      repeat split; apply M.
    + intros F. f_equal. induction F as [|[e [[n c] [a b]]] p rows l (ma & mb & Ha & Hb & ->) F IH]; [reflexivity|]. cbn [map]. f_equal; [|exact IH]. f_equal.
      assert (M : forall v m, magnitude v m -> m = qabs v). { intros v m [[->| ->] H]; destruct (qabs_spec v) as [[H1 ->]|[H1 ->]]; try reflexivity; qclra. }
      now rewrite (M _ _ Ha), (M _ _ Hb).
Qed.
Lemma kept_iff r l l' : in_range r l = l' <-> kept r l l'.
Proof.
  split.
  - intros <-. induction l as [|p l IH]; cbn [in_range filter]; [constructor|]. destruct (qltb_spec (b_lo r) (fst p)) as [A|A]; cbn [andb]; [destruct (qltb_spec (fst p) (b_hi r)) as [B|B]|]; [constructor; [now split|exact IH]| |];
      (apply k_out; [intros [C1 C2]; tauto|exact IH]).
  - induction 1 as [|p l l' [A B] K IH|p l l' N K IH]; [reflexivity| |]; cbn [in_range filter]; unfold in_range in IH.
    + apply qltb_lt in A, B. now rewrite A, B, <- IH.
    + rewrite <- IH. destruct (qltb_spec (b_lo r) (fst p)) as [A|A]; cbn [andb]; [destruct (qltb_spec (fst p) (b_hi r)) as [B|B]|]; [exfalso; apply N; now split|reflexivity|reflexivity].
Qed.
Lemma kept_inside r l l' p : kept r l l' -> In p l' -> inside r p /\ In p l.
Proof. induction 1 as [|q l l' H K IH|q l l' H K IH]; [intros []| |]; intros I0; [destruct I0 as [->|I0]; [now split; [|left]|]|]; destruct (IH I0); (split; [assumption|now right]). Qed.
Lemma half a b : ((b + a) / qz 2)%Qc = middle a b.
Proof. unfold middle. f_equal. ring. Qed.

Section Points.
Context (fs : list Qc).
Lemma around_in e g a b p : In p (around fs e g a b) <-> exists f, (In f fs /\ p = e - g * f /\ a < p)%Qc \/ (In f (tl fs) /\ p = e + g * f /\ p < b)%Qc.
Proof.
  unfold around. rewrite in_app_iff, <- in_rev, !filter_In, !in_map_iff. split.
  - intros [((f & <- & I0) & L)|((f & <- & I0) & L)]; exists f; [left|right]; apply qltb_lt in L; auto.
  - intros (f & [(I0 & -> & L)|(I0 & -> & L)]); [left|right]; (split; [now exists f|now apply qltb_lt]).
Qed.
(** The clusters of [l] when the resonance before it is at [e0] (or nothing). *)
Lemma clusters_in l : forall e0 hi p, (exists c, In c (clusters fs l (e0 :: between (map fst l) ++ [hi])) /\ In p c) <->
  exists l1 e g l2 a b, l = l1 ++ (e, g) :: l2 /\ match rev l1 with [] => a = e0 | (e1, _) :: _ => a = middle e1 e end /\ match l2 with [] => b = hi | (e2, _) :: _ => b = middle e e2 end /\ In p (around fs e g a b).
Proof.
  induction l as [|[e g] l IH]; intros e0 hi p.
  - cbn. split; [intros (c & [] & _)|intros (l1 & e & g & l2 & a & b & E & _); now destruct l1].
  - destruct l as [|[e2 g2] l].
    + cbn [map fst between app clusters]. split.
      * intros (c & [<-|[]] & I0). exists [], e, g, [], e0, hi. cbn. auto.
      * intros (l1 & e' & g' & l2 & a & b & E & A & B & I0). destruct l1 as [|x l1]; [|destruct l1; discriminate]. cbn in E. injection E as <- <- <-. cbn in A. subst. eexists. split; [now left|exact I0].
    + cbn [map fst] in *. change (between (e :: e2 :: map fst l)) with (((e2 + e) / qz 2)%Qc :: between (e2 :: map fst l)). rewrite half. cbn [app clusters].
      assert (C : clusters fs ((e2, g2) :: l) (middle e e2 :: between (e2 :: map fst l) ++ [hi]) = clusters fs ((e2, g2) :: l) (middle e e2 :: between (map fst ((e2, g2) :: l)) ++ [hi])) by reflexivity.
      specialize (IH (middle e e2) hi p). cbn [map fst] in IH. split.
      * intros (c & [<-|I1] & I0).
        -- exists [], e, g, ((e2, g2) :: l), e0, (middle e e2). cbn. auto.
        -- destruct (proj1 IH (ex_intro _ c (conj I1 I0))) as (l1 & e' & g' & l2 & a & b & E & A & B & I2). exists ((e, g) :: l1), e', g', l2, a, b. split; [cbn; now f_equal|]. split; [|auto].
           cbn [rev]. destruct (rev l1) as [|[e1 g1] m] eqn:R; cbn [app]; [|exact A]. assert (l1 = []) as -> by (rewrite <- (rev_involutive l1), R; reflexivity). cbn in E. now injection E as -> -> ->.
      * intros (l1 & e' & g' & l2 & a & b & E & A & B & I0). destruct l1 as [|x l1].
        -- cbn in E. injection E as <- <- <-. cbn in A, B. subst. eexists. split; [now left|exact I0].
        -- cbn [app] in E. injection E as <- E. destruct (proj2 IH) as (c & I1 & I2).
           { exists l1, e', g', l2, a, b. split; [exact E|]. split; [|auto]. cbn [rev] in A. destruct (rev l1) as [|[e1 g1] m] eqn:R; cbn [app] in A; [|exact A].
             assert (l1 = []) as -> by (rewrite <- (rev_involutive l1), R; reflexivity). cbn in E. now injection E as -> -> ->. }
           exists c. split; [now right|exact I2].
Qed.
Lemma next_iff r l p : (exists c, In c (clusters fs l (mids r l)) /\ In p c) <-> next_to fs r l p.
Proof.
  unfold mids. rewrite clusters_in. unfold next_to, cell, beside. split.
  - intros (l1 & e & g & l2 & a & b & E & A & B & I0). apply around_in in I0 as (f & [H|(I0 & H)]); exists e, g, a, b; (split; [now exists l1, l2|]); exists f; [now left|right]. destruct fs as [|f0 fs']; [destruct I0|]. exists f0, fs'. auto.
  - intros (e & g & a & b & (l1 & l2 & E & A & B) & f & H). exists l1, e, g, l2, a, b. repeat (split; [assumption|]). apply around_in. exists f. destruct H as [H|(f0 & fs' & -> & H)]; [now left|now right].
Qed.
Lemma clusters_nil r l : clusters fs l (mids r l) = [] <-> l = [].
Proof.
  unfold mids. destruct l as [|[e g] l]; [split; reflexivity|]. split; [|discriminate]. cbn [map fst]. destruct l as [|[e2 g2] l]; [discriminate|].
  change (between (map fst ((e, g) :: (e2, g2) :: l))) with (((e2 + e) / qz 2)%Qc :: between (map fst ((e2, g2) :: l))). discriminate.
Qed.
Context (logs : Qc -> Qc -> list Qc).
Lemma energies_iff r g : energies fs logs r = Some g <-> exists l l', has (b_kind r) l /\ kept r l l' /\ l' <> [] /\ g = union1d (logs (b_lo r) (b_hi r)) (concat (clusters fs l' (mids r l'))).
Proof.
  unfold energies. split.
  - destruct (peaks (b_kind r)) as [l|] eqn:P; [|discriminate]. intros E. exists l, (in_range r l). split; [now apply peaks_has|]. split; [now apply kept_iff|].
    destruct (clusters fs (in_range r l) (mids r (in_range r l))) as [|c cs] eqn:C; [discriminate|]. split; [intros N; apply (clusters_nil r) in N; congruence|]. congruence.
  - intros (l & l' & H & K & N & ->). apply peaks_has in H. rewrite H. apply kept_iff in K. rewrite K. destruct (clusters fs l' (mids r l')) as [|c cs] eqn:C; [apply clusters_nil in C; contradiction|reflexivity].
Qed.
Lemma energies_none r : energies fs logs r = None <-> (forall l, has (b_kind r) l -> kept r l []).
Proof.
  unfold energies. destruct (peaks (b_kind r)) as [l|] eqn:P.
  - split.
    + intros E l0 H. apply peaks_has in H. assert (l0 = l) as -> by congruence. apply kept_iff. apply (clusters_nil r). destruct (clusters fs _ _); [reflexivity|discriminate].
    + intros H. apply peaks_has in P. specialize (H _ P). apply kept_iff in H. rewrite H. reflexivity.
  - split; [|reflexivity]. intros _ l H. apply peaks_has in H. congruence.
Qed.
End Points.

(** ** Bounds *)
Lemma middle_in a b lo hi : (lo < a < hi -> lo < b < hi -> lo < middle a b < hi)%Qc.
Proof.
  intros [A1 A2] [B1 B2]. assert (E : (middle a b * qz 2 = a + b)%Qc) by (unfold middle; field; discriminate). split; apply Qcnot_le_lt; intros H; qcnra.
Qed.
Lemma cell_in r l l' e g a b : kept r l l' -> cell r l' e g a b -> (inside r (e, g) /\ In (e, g) l /\ b_lo r <= a /\ b <= b_hi r)%Qc.
Proof.
  intros K (l1 & l2 & -> & A & B). destruct (kept_inside r l _ (e, g) K) as [I0 I1]; [apply in_elt|]. split; [exact I0|]. split; [exact I1|]. unfold inside in I0. cbn [fst] in I0. split.
  - destruct (rev l1) as [|[e1 g1] m] eqn:R; [subst; apply Qcle_refl|]. subst a. destruct (kept_inside r l _ (e1, g1) K) as [J _]; [apply in_or_app; left; apply in_rev; rewrite R; now left|].
    unfold inside in J. cbn [fst] in J. apply Qclt_le_weak. now apply (middle_in e1 e (b_lo r) (b_hi r)).
  - destruct l2 as [|[e2 g2] l2]; [subst; apply Qcle_refl|]. subst b. destruct (kept_inside r l _ (e2, g2) K) as [J _]; [apply in_or_app; right; right; now left|].
    unfold inside in J. cbn [fst] in J. apply Qclt_le_weak. now apply (middle_in e e2 (b_lo r) (b_hi r)).
Qed.
Lemma next_in fs r l l' p : factors fs -> (forall q, In q l -> (0 <= snd q)%Qc) -> kept r l l' -> next_to fs r l' p -> (b_lo r < p < b_hi r)%Qc.
Proof.
  intros [_ Fp] W K (e & g & a & b & C & f & H). destruct (cell_in r l l' e g a b K C) as (I0 & I1 & A & B). unfold inside in I0. cbn [fst] in I0. destruct I0 as [I2 I3]. specialize (W _ I1). cbn [snd] in W.
  destruct H as [(If & -> & L)|(f0 & fs' & E & If & -> & L)].
  - specialize (Fp f If). assert (0 <= g * f)%Qc by qcnra. split; qclra.
  - specialize (Fp f). rewrite E in Fp. specialize (Fp (or_intror If)). assert (0 <= g * f)%Qc by qcnra. split; qclra.
Qed.
(** The grid of a range. *)
Lemma grid_ok fs logs r es : energies fs logs r = Some es -> StronglySorted Qclt es /\ exists l l', has (b_kind r) l /\ kept r l l' /\ l' <> [] /\ (forall p, In p es <-> In p (logs (b_lo r) (b_hi r)) \/ next_to fs r l' p).
Proof.
  intros E. apply energies_iff in E as (l & l' & H & K & N & ->). split; [apply union_asc|]. exists l, l'. repeat (split; [assumption|]). intros p. rewrite union_in, in_concat, <- next_iff. reflexivity.
Qed.
Lemma has_unique k l m : has k l -> has k m -> l = m.
Proof. intros A B. apply peaks_has in A, B. congruence. Qed.
Lemma kept_unique r l a b : kept r l a -> kept r l b -> a = b.
Proof. intros A B. apply kept_iff in A, B. congruence. Qed.
(** Cells are apart. *)
Lemma asc_le l : ascending l -> forall l1 x l2 y l3, l = l1 ++ x :: l2 ++ y :: l3 -> (fst x <= fst y)%Qc.
Proof.
  intros S l1. revert l S. induction l1 as [|z l1 IH]; intros l S x l2 y l3 ->; cbn [app] in S; inversion S as [|? ? S1 F]; subst.
  - rewrite Forall_forall in F. apply F. apply in_elt.
  - now apply (IH _ S1 x l2 y l3).
Qed.
Lemma middle_le a b c d : (a <= c -> b <= d -> middle a b <= middle c d)%Qc.
Proof.
  intros A B. assert (E : (middle a b * qz 2 = a + b)%Qc) by (unfold middle; field; discriminate). assert (E' : (middle c d * qz 2 = c + d)%Qc) by (unfold middle; field; discriminate). apply Qcnot_lt_le. intros H. qcnra.
Qed.
Lemma cells_apart r l l1 p l2 q l3 b a' : l = l1 ++ p :: l2 ++ q :: l3 -> ascending l ->
  match p with (e, g) => match l2 ++ q :: l3 with (e2, _) :: _ => b = middle e e2 | [] => b = b_hi r end end ->
  match q with (e, g) => match rev (l1 ++ p :: l2) with (e1, _) :: _ => a' = middle e1 e | [] => a' = b_lo r end end -> (b <= a')%Qc.
Proof.
  intros E S B A. destruct p as [e g], q as [e' g'].
  assert (R : exists e1 g1 m, rev (l1 ++ (e, g) :: l2) = (e1, g1) :: m /\ (e <= e1)%Qc).
  { rewrite rev_app_distr. cbn [rev]. destruct l2 as [|x l2] using rev_ind; [cbn; exists e, g, (rev l1); split; [reflexivity|apply Qcle_refl]|].
    rewrite rev_app_distr. cbn [rev app]. destruct x as [e1 g1]. exists e1, g1. eexists. split; [reflexivity|]. apply (asc_le l S l1 (e, g) l2 (e1, g1) ((e', g') :: l3)). rewrite E, <- app_assoc. reflexivity. }
  destruct R as (e1 & g1 & m & R & L). rewrite R in A. subst a'.
  destruct l2 as [|[e2 g2] l2]; cbn [app] in B; subst b; apply middle_le; try exact L; [apply Qcle_refl|].
  apply (asc_le l S (l1 ++ [(e, g)]) (e2, g2) l2 (e', g') l3). rewrite E, <- app_assoc. reflexivity.
Qed.

(** ** Tables *)
Lemma nth_map_sorted (o : list Qc) : StronglySorted Qclt o -> forall ks, StronglySorted lt ks -> (forall k, In k ks -> (k < List.length o)%nat) -> StronglySorted Qclt (map (fun i => nth i o 0%Qc) ks).
Proof.
  intros So. assert (M : forall j i, (i < j)%nat -> (j < List.length o)%nat -> (nth i o 0%Qc < nth j o 0%Qc)%Qc).
  { induction So as [|x o S IH F]; intros j i L1 L2; [cbn in L2; lia|]. destruct j as [|j]; [lia|]. cbn [nth List.length] in *. destruct i as [|i].
    - rewrite Forall_forall in F. apply F. apply nth_In. lia.
    - apply IH; lia. }
  induction 1 as [|k ks S IH F]; intros H; [constructor|]. cbn [map]. constructor; [apply IH; intros j I0; apply H; now right|]. apply Forall_forall. intros x I0. apply in_map_iff in I0 as (j & <- & I0). rewrite Forall_forall in F. apply M; [now apply F|apply H; now right].
Qed.
Lemma sorted_last_le ks : StronglySorted lt ks -> forall k, In k ks -> (k <= last ks 0)%nat.
Proof.
  induction 1 as [|x ks S IH F]; intros k I0; [destruct I0|]. destruct ks as [|y ks]; [destruct I0 as [->|[]]; reflexivity|]. change (last (x :: y :: ks) 0%nat) with (last (y :: ks) 0%nat). destruct I0 as [->|I0]; [|now apply IH].
  inversion F as [|? ? F1 F2]; subst. specialize (IH y (or_introl eq_refl)). lia.
Qed.
Lemma last_nth (o : list Qc) : nth (List.length o - 1) o 0%Qc = last o 0%Qc.
Proof. induction o as [|x [|y o] IH]; try reflexivity. change (last (x :: y :: o) 0%Qc) with (last (y :: o) 0%Qc). rewrite <- IH. cbn [List.length]. replace (S (S (List.length o)) - 1)%nat with (S (S (List.length o) - 1)) by lia. reflexivity. Qed.
Lemma last_map (h : nat -> Qc) ks : ks <> [] -> last (map h ks) 0%Qc = h (last ks 0%nat).
Proof. induction ks as [|x [|y ks] IH]; [congruence|reflexivity|]. intros _. change (last (map h (x :: y :: ks)) 0%Qc) with (last (map h (y :: ks)) 0%Qc). rewrite IH; [reflexivity|discriminate]. Qed.
Lemma pairs_fst (f : Qc -> Qc) o : map fst (map (fun x => (x, f x)) o) = o /\ map snd (map (fun x => (x, f x)) o) = map f o.
Proof. rewrite !map_map. cbn [fst snd]. split; [apply map_id|reflexivity]. Qed.
Lemma thinned_ok f es o : (exists fuel, Linz_Model.linearize fuel f tolerance es = Some (map (fun x => (x, f x)) o)) -> es <> [] -> StronglySorted Qclt es -> filled f tolerance es o ->
  exists x, Thin_Model.thin tolerance o (map f o) = (x, map f x) /\ tabulates f es x (map f x).
Proof.
  intros (fuel & E) N S Fo. assert (T : (0 < tolerance)%Qc) by reflexivity. destruct (Linz_Props.C46_sound f tolerance es fuel _ (Qclt_le_weak _ _ T) S E) as [L1 _ _ L4 L5 _]. destruct (pairs_fst f o) as [P1 P2]. rewrite P1 in *.
  assert (No : o <> []) by (intros ->; destruct es; [congruence|discriminate L4]).
  destruct (Thin_Props.C45_tolerance tolerance o (map f o) T No L1) as (ks & Th & Et). pose proof Th as [T1 T2 T3 _].
  assert (B : forall k, In k ks -> (k < List.length o)%nat). { intros k I0. pose proof (sorted_last_le ks T1 k I0). rewrite T3 in H. destruct o; [congruence|]. cbn in *. lia. }
  assert (Ev : map (fun i => nth i (map f o) 0%Qc) ks = map f (map (fun i => nth i o 0%Qc) ks)).
  { rewrite map_map. apply map_ext_in. intros i I0. rewrite (nth_indep _ 0%Qc (f 0%Qc)) by (rewrite map_length; now apply B). apply map_nth. }
  exists (map (fun i => nth i o 0%Qc) ks). split; [rewrite Et; now f_equal|]. split; [reflexivity|]. split; [now apply nth_map_sorted|]. split; [|split].
  - rewrite <- L4. destruct ks as [|k ks]; [discriminate|]. cbn in T2 |- *. injection T2 as ->. destruct o; [congruence|reflexivity].
  - rewrite last_map by (intros ->; discriminate). rewrite T3, last_nth. exact L5.
  - exists o, ks. split; [exact Fo|]. split; [exact Th|reflexivity].
Qed.
Lemma tabulate_sound fuel f es x y : es <> [] -> StronglySorted Qclt es -> tabulate fuel f es = Some (x, y) -> tabulates f es x y.
Proof.
  intros N S. unfold tabulate. destruct (Linz_Model.linearize fuel f tolerance es) as [o|] eqn:E; [|discriminate]. assert (T : (0 <= tolerance)%Qc) by discriminate.
  destruct (proj1 (Linz_Props.C46_exact f tolerance es o T S) (ex_intro _ fuel E)) as (o' & Fo & ->). destruct (pairs_fst f o') as [P1 P2]. rewrite P1, P2. destruct (thinned_ok f es o' (ex_intro _ fuel E) N S Fo) as (x' & Et & Ht). rewrite Et. intros H. assert (x' = x /\ map f x' = y) as [<- <-] by (split; congruence). exact Ht.
Qed.
Lemma tabulate_complete f es o : es <> [] -> StronglySorted Qclt es -> filled f tolerance es o -> exists fuel x, tabulate fuel f es = Some (x, map f x).
Proof.
  intros N S Fo. assert (T : (0 <= tolerance)%Qc) by discriminate. destruct (proj2 (Linz_Props.C46_exact f tolerance es (map (fun x => (x, f x)) o) T S)) as (fuel & E); [now exists o|].
  destruct (thinned_ok f es o (ex_intro _ fuel E) N S Fo) as (x & Et & _). exists fuel, x. unfold tabulate. rewrite E. destruct (pairs_fst f o) as [P1 P2]. now rewrite P1, P2, Et.
Qed.

(** ** Cross sections with resonances *)
Lemma counts_dec x r : (if resolved r then within r x else false) = true <-> counts x r.
Proof.
  unfold resolved, within, counts. destruct (b_kind r); try (split; [discriminate|intros [_ []]]); (rewrite andb_true_iff, !qleb_le; tauto).
Qed.
Lemma at_counted recon x rs : forall v m, counted x rs m -> at_energy recon rs v x = (v + qsum (map (fun r => recon r x) m))%Qc.
Proof.
  induction rs as [|r rs IH]; intros v m C; inversion C as [|? ? m' H C'|? ? ? H C']; subst; cbn [at_energy fold_left].
  - cbn. ring.
  - apply counts_dec in H. destruct (resolved r); [|discriminate]. rewrite H. change (at_energy recon rs (v + recon r x)%Qc x = (v + qsum (map (fun r => recon r x) (r :: m')))%Qc). rewrite (IH _ m' C'). cbn [map qsum fold_right]. unfold qsum. ring.
  - assert (E : (if resolved r then if within r x then (v + recon r x)%Qc else v else v) = v). { rewrite <- counts_dec in H. destruct (resolved r); [|reflexivity]. destruct (within r x); [now destruct H|reflexivity]. }
    rewrite E. now apply IH.
Qed.
Lemma counted_some x rs : exists m, counted x rs m.
Proof.
  induction rs as [|r rs (m & IH)]; [exists []; constructor|]. destruct (if resolved r then within r x else false) eqn:E.
  - apply counts_dec in E. exists (r :: m). now constructor.
  - exists m. apply c_out; [|exact IH]. rewrite <- counts_dec. congruence.
Qed.
Lemma add_where_map recon r : forall xs v, List.length v = List.length xs ->
  add_where (map (within r) xs) v (map (recon r) (filter (within r) xs)) = Some (map (fun p => if within r (snd p) then (fst p + recon r (snd p))%Qc else fst p) (combine v xs)).
Proof.
  induction xs as [|x xs IH]; intros [|a v] L; try discriminate; [reflexivity|]. cbn [map filter combine fst snd]. destruct (within r x); cbn [map add_where]; rewrite (IH v) by (cbn in L; lia); reflexivity.
Qed.
Lemma arrays recon recons rs : (forall r xs, recons r xs = map (recon r) xs) -> forall xs v, List.length v = List.length xs ->
  at_energies recons rs v xs = Some (map (fun p => at_energy recon rs (fst p) (snd p)) (combine v xs)).
Proof.
  intros R. induction rs as [|r rs IH]; intros xs v L; cbn [at_energies].
  - f_equal. unfold at_energy. cbn [fold_left]. symmetry. revert v L. induction xs as [|x xs IH]; intros [|a v] L; try discriminate; [reflexivity|]. cbn [combine map fst]. f_equal. apply IH. cbn in L. lia.
  - destruct (resolved r) eqn:E.
    + rewrite R, (add_where_map recon r xs v L). rewrite IH by (rewrite map_length, combine_length; lia). f_equal. clear IH. revert v L. induction xs as [|x xs IH]; intros [|a v] L; try discriminate; [reflexivity|].
      cbn [combine map fst snd]. f_equal; [|apply IH; cbn in L; lia]. unfold at_energy at 2. cbn [fold_left]. now rewrite E.
    + rewrite IH by exact L. f_equal. apply map_ext. intros p. unfold at_energy. cbn [fold_left]. now rewrite E.
Qed.
Lemma elastic_some recon rs bg f : elastic_of recon rs bg = Some f -> exists l, rs = Some l /\ forall x m, counted x l m -> f x = (bg x + qsum (map (fun r => recon r x) m))%Qc.
Proof.
  unfold elastic_of. destruct rs as [l|]; [|discriminate]. intros E. exists l. split; [reflexivity|]. intros x m C. destruct (existsb resolved l) eqn:X.
  - assert (f = (fun x => at_energy recon l (bg x) x)) as -> by congruence. now apply at_counted.
  - assert (f = bg) as -> by congruence. assert (m = []) as ->.
    { clear - X C. induction C as [|r l l' H C IH|r l l' H C IH]; [reflexivity| |]; cbn [existsb] in X; apply orb_false_iff in X as [X1 X2]; [|now apply IH]. apply counts_dec in H. rewrite X1 in H. discriminate. }
    cbn. ring.
Qed.
Lemma elastic_total recon l bg : exists f, elastic_of recon (Some l) bg = Some f.
Proof. unfold elastic_of. eexists. reflexivity. Qed.

(** ** All ranges *)
Lemma over_inv fs logs fuel f rs : forall x0 y0 x y, over_ranges fs logs fuel f rs x0 y0 = Some (x, y) ->
  exists parts, Forall2 (fun r p => exists es, energies fs logs r = Some es /\ tabulate fuel f es = Some p) (covered rs) parts /\ x = x0 ++ concat (map fst parts) /\ y = y0 ++ concat (map snd parts).
Proof.
  induction rs as [|r rs IH]; intros x0 y0 x y; cbn [over_ranges].
  - intros E. exists []. cbn. rewrite !app_nil_r. split; [constructor|]. split; congruence.
  - unfold covered. cbn [filter]. destruct (b_kind r) eqn:K;
      try (destruct (energies fs logs r) as [es|] eqn:Ee; [|discriminate]; destruct (tabulate fuel f es) as [[xi yi]|] eqn:Et; [|discriminate]; intros E; destruct (IH _ _ _ _ E) as (parts & F & -> & ->); exists ((xi, yi) :: parts);
        (split; [constructor; [now exists es|exact F]|]); cbn [map fst snd concat]; rewrite !app_assoc; now split).
    apply IH.
Qed.
Lemma over_one fs logs fuel f r rs es x y : covered rs = [r] -> energies fs logs r = Some es -> tabulate fuel f es = Some (x, y) -> over_ranges fs logs fuel f rs [] [] = Some (x, y).
Proof.
  intros P Ee Et. assert (G : forall rs x0 y0, covered rs = [] -> over_ranges fs logs fuel f rs x0 y0 = Some (x0, y0)).
  { clear. induction rs as [|r rs IH]; intros x0 y0 H; [reflexivity|]. cbn [over_ranges]. unfold covered in H. cbn [filter] in H. destruct (b_kind r); try discriminate. now apply IH. }
  induction rs as [|r0 rs IH]; [discriminate|]. unfold covered in P. cbn [filter] in P. cbn [over_ranges]. destruct (b_kind r0) eqn:K;
    try (injection P as -> P; rewrite Ee, Et; cbn [app]; now apply G). now apply IH.
Qed.
Lemma over_none fs logs fuel f rs : covered rs = [] -> over_ranges fs logs fuel f rs [] [] = Some ([], []).
Proof. induction rs as [|r rs IH]; intros H; [reflexivity|]. cbn [over_ranges]. unfold covered in H. cbn [filter] in H. destruct (b_kind r); try discriminate. now apply IH. Qed.
Lemma over_fails fs logs fuel f rs r x0 y0 : In r rs -> b_kind r <> Unresolved -> energies fs logs r = None -> over_ranges fs logs fuel f rs x0 y0 = None.
Proof.
  intros I0 U E. destruct (over_ranges fs logs fuel f rs x0 y0) as [[x y]|] eqn:O; [|reflexivity]. exfalso. destruct (over_inv _ _ _ _ _ _ _ _ _ O) as (parts & F & _).
  assert (I1 : In r (covered rs)) by (apply filter_In; split; [exact I0|now destruct (b_kind r)]). clear - F I1 E. induction F as [|r' p l ps (es & Ee & _) F IH]; [destruct I1|]. destruct I1 as [->|I1]; [congruence|now apply IH].
Qed.

(** ** The nuclide *)
Lemma assign_at k (v : nrx) l m : In k (map fst l) -> reaction_at (assign k v l) m = if (m =? k)%Z then Some v else reaction_at l m.
Proof.
  unfold reaction_at. induction l as [|[k' v'] l IH]; intros I0; [destruct I0|]. cbn [assign]. destruct (Z.eqb_spec k k') as [<-|N].
  - cbn [find fst]. rewrite (Z.eqb_sym k m). destruct (m =? k)%Z; reflexivity.
  - cbn [map fst In] in I0. destruct I0 as [E|I0]; [congruence|]. cbn [find fst]. destruct (Z.eqb_spec k' m) as [<-|N']; [destruct (Z.eqb_spec k' k); [congruence|reflexivity]|now apply IH].
Qed.
Lemma set_cold x y self r : reaction_at (d_rx self) 2%Z = Some r ->
  with_cold x y self (mkNuclide (d_endf self) (d_name self) (d_z self) (d_a self) (d_m self) (d_awr self) (d_kts self)
            (Sab_Model.set_at "0K" x (d_energy self)) (assign 2%Z (put_xs "0K" (Table (linear x y) None) r) (d_rx self)) (d_urr self)).
Proof.
  intros R. assert (I0 : In 2%Z (map fst (d_rx self))) by (apply reaction_In in R; now apply (in_map fst) in R). unfold with_cold. cbn [d_endf d_name d_z d_a d_m d_awr d_kts d_urr d_energy d_rx]. do 8 (split; [reflexivity|]).
  split; [now rewrite Sab_Proofs.look_set, String.eqb_refl|]. split; [intros k Hk; rewrite Sab_Proofs.look_set; apply String.eqb_neq in Hk; now rewrite Hk|]. split; [now apply assign_keys|].
  split; [intros mt Hm; rewrite assign_at by exact I0; apply Z.eqb_neq in Hm; now rewrite Hm|]. exists r, (put_xs "0K" (Table (linear x y) None) r). split; [exact R|]. split; [now rewrite assign_at, Z.eqb_refl by exact I0|].
  cbn [put_xs x_xs x_mt x_q x_cm x_redundant x_products x_derived]. split; [now rewrite Sab_Proofs.look_set, String.eqb_refl|]. split; [intros k Hk; rewrite Sab_Proofs.look_set; apply String.eqb_neq in Hk; now rewrite Hk|]. repeat split.
Qed.
Lemma add_inv fs logs fuel recon ow rs bg self d : add_elastic_0K fs logs fuel recon ow rs bg self = Some d ->
  (look "0K" (d_energy self) = None \/ ow = true) /\ exists l f x y, rs = Some l /\ elastic_of recon rs bg = Some f /\ over_ranges fs logs fuel f l [] [] = Some (x, y) /\ with_cold x y self d.
Proof.
  unfold add_elastic_0K. destruct ((match look "0K" (d_energy self) with Some _ => true | None => false end) && negb ow) eqn:G; [discriminate|].
  destruct (elastic_of recon rs bg) as [f|] eqn:Ef; [|discriminate]. destruct rs as [l|]; [|discriminate]. destruct (over_ranges fs logs fuel f l [] []) as [[x y]|] eqn:O; [|discriminate]. destruct (reaction_at (d_rx self) 2%Z) as [r|] eqn:R; [|discriminate].
  intros E. split; [destruct (look "0K" (d_energy self)), ow; try discriminate; auto|]. exists l, f, x, y. split; [reflexivity|]. split; [reflexivity|]. split; [exact O|]. assert (d = mkNuclide (d_endf self) (d_name self) (d_z self) (d_a self) (d_m self) (d_awr self) (d_kts self)
            (Sab_Model.set_at "0K" x (d_energy self)) (assign 2%Z (put_xs "0K" (Table (linear x y) None) r) (d_rx self)) (d_urr self)) as -> by congruence. now apply set_cold.
Qed.
Lemma add_some fs logs fuel recon ow l bg self f x y : look "0K" (d_energy self) = None \/ ow = true -> elastic_of recon (Some l) bg = Some f -> over_ranges fs logs fuel f l [] [] = Some (x, y) -> reaction_at (d_rx self) 2%Z <> None ->
  exists d, add_elastic_0K fs logs fuel recon ow (Some l) bg self = Some d /\ with_cold x y self d.
Proof.
  intros H Ef O R. unfold add_elastic_0K. destruct (reaction_at (d_rx self) 2%Z) as [r|] eqn:Er; [|congruence]. assert ((match look "0K" (d_energy self) with Some _ => true | None => false end) && negb ow = false) as ->.
  { destruct H as [->| ->]; [reflexivity|apply andb_false_r]. }
  rewrite Ef, O. eexists. split; [reflexivity|]. now apply set_cold.
Qed.

(** ** Resonances apart *)
Lemma distinct_ascending l : distinct l -> ascending l.
Proof. induction 1 as [|p l S IH F]; constructor; [exact IH|]. eapply Forall_impl; [|exact F]. intros a. apply Qclt_le_weak. Qed.
Lemma middle_between a b : (a <= b -> a <= middle a b <= b)%Qc.
Proof. intros A. assert (E : (middle a b * qz 2 = a + b)%Qc) by (unfold middle; field; discriminate). split; apply Qcnot_lt_le; intros H; qcnra. Qed.
Lemma beside_low fs e g a b p : factors fs -> (0 < g)%Qc -> beside fs e g a b p -> (p < e \/ p < b)%Qc.
Proof.
  intros [_ Fp] G (f & [(I0 & -> & _)|(f0 & fs' & _ & _ & _ & H)]); [left|now right]. specialize (Fp f I0). assert (0 < g * f)%Qc by qcnra. qclra.
Qed.
Lemma beside_high fs e g a b p : factors fs -> (0 < g)%Qc -> beside fs e g a b p -> (e < p \/ a < p)%Qc.
Proof.
  intros [_ Fp] G (f & [(_ & _ & H)|(f0 & fs' & E & I0 & -> & _)]); [now right|left]. specialize (Fp f). rewrite E in Fp. specialize (Fp (or_intror I0)). assert (0 < g * f)%Qc by qcnra. qclra.
Qed.
Lemma beside_not fs e g a b : factors fs -> (0 < g)%Qc -> ~ beside fs e g a b e.
Proof.
  intros [_ Fp] G (f & [(I0 & E & _)|(f0 & fs' & X & I0 & E & _)]); [specialize (Fp f I0)|rewrite X in Fp; specialize (Fp f (or_intror I0))]; assert (0 < g * f)%Qc by qcnra; qclra.
Qed.
Lemma upper_ge r l l1 e g l2 q l3 a b : l = l1 ++ (e, g) :: l2 ++ q :: l3 -> ascending l -> bounds r l1 (l2 ++ q :: l3) e a b -> (e <= b)%Qc.
Proof.
  intros E S [_ B]. destruct l2 as [|[e2 g2] l2]; [destruct q as [e2 g2]|]; cbn [app] in B; subst b; apply middle_between; [apply (asc_le l S l1 (e, g) [] (e2, g2) l3 E)|]. apply (asc_le l S l1 (e, g) [] (e2, g2) (l2 ++ q :: l3) E).
Qed.
Lemma lower_le r l l1 p l2 e g l3 a b : l = l1 ++ p :: l2 ++ (e, g) :: l3 -> ascending l -> bounds r (l1 ++ p :: l2) l3 e a b -> (a <= e)%Qc.
Proof.
  intros E S [A _]. destruct p as [e0 g0]. rewrite rev_app_distr in A. cbn [rev] in A. destruct l2 as [|[e1 g1] l2] using rev_ind.
  - cbn in A. subst a. apply middle_between. apply (asc_le l S l1 (e0, g0) [] (e, g) l3 E).
  - rewrite rev_app_distr in A. cbn [rev app] in A. subst a. apply middle_between. apply (asc_le l S (l1 ++ (e0, g0) :: l2) (e1, g1) [] (e, g) l3). rewrite E, <- !app_assoc. reflexivity.
Qed.
Lemma apart fs r l l1 e g l2 e' g' l3 a b a' b' p q : factors fs -> l = l1 ++ (e, g) :: l2 ++ (e', g') :: l3 -> ascending l -> (0 < g)%Qc -> (0 < g')%Qc ->
  bounds r l1 (l2 ++ (e', g') :: l3) e a b -> bounds r (l1 ++ (e, g) :: l2) l3 e' a' b' -> beside fs e g a b p -> beside fs e' g' a' b' q -> (p < q)%Qc.
Proof.
  intros F E S G G' B B' P Q. pose proof (upper_ge r l _ _ _ _ _ _ _ _ E S B). pose proof (lower_le r l _ _ _ _ _ _ _ _ E S B'). assert (b <= a')%Qc.
  { apply (cells_apart r l l1 (e, g) l2 (e', g') l3 b a' E S); [apply B|apply B']. }
  destruct (beside_low fs e g a b p F G P), (beside_high fs e' g' a' b' q F G' Q); qclra.
Qed.
Lemma two_places {A} (l1 m1 : list A) x l2 y m2 : l1 ++ x :: l2 = m1 ++ y :: m2 -> (l1 = m1 /\ x = y /\ l2 = m2) \/ (exists k, m1 = l1 ++ x :: k /\ l2 = k ++ y :: m2) \/ (exists k, l1 = m1 ++ y :: k /\ m2 = k ++ x :: l2).
Proof.
  revert m1. induction l1 as [|z l1 IH]; intros [|w m1] E; cbn [app] in E; injection E as -> E.
  - left. subst. auto.
  - right. left. exists m1. subst. auto.
  - right. right. exists l1. subst. auto.
  - destruct (IH _ E) as [(-> & -> & ->)|[(k & -> & ->)|(k & -> & ->)]]; [now left|right; left; now exists k|right; right; now exists k].
Qed.
Lemma distinct_lt l l1 x l2 y l3 : distinct l -> l = l1 ++ x :: l2 ++ y :: l3 -> (fst x < fst y)%Qc.
Proof.
  intros S. revert l S. induction l1 as [|z l1 IH]; intros l S ->; cbn [app] in S; inversion S as [|? ? S1 F]; subst.
  - rewrite Forall_forall in F. apply F. apply in_elt.
  - now apply (IH _ S1).
Qed.
Lemma middle_strict a b : (a < b -> a < middle a b < b)%Qc.
Proof. intros A. assert (E : (middle a b * qz 2 = a + b)%Qc) by (unfold middle; field; discriminate). split; apply Qcnot_le_lt; intros H; qcnra. Qed.
Lemma peak_alone fs r l e g : factors fs -> distinct l -> (forall q, In q l -> (0 < snd q)%Qc) -> In (e, g) l -> ~ next_to fs r l e.
Proof.
  intros F D W I0 (e' & g' & a & b & (m1 & m2 & E & B) & N). apply in_split in I0 as (l1 & l2 & E0). pose proof (distinct_ascending l D) as As.
  assert (G' : (0 < g')%Qc) by (apply (W (e', g')); rewrite E; apply in_elt).
  rewrite E0 in E. destruct (two_places _ _ _ _ _ _ E) as [(-> & X & ->)|[(k & -> & ->)|(k & -> & ->)]].
  - injection X as <- <-. exact (beside_not fs e g a b F G' N).
  - assert (L : l = l1 ++ (e, g) :: k ++ (e', g') :: m2) by exact E0. pose proof (distinct_lt _ _ _ _ _ _ D L) as Lt. cbn [fst] in Lt.
    destruct (beside_high fs e' g' a b e F G' N) as [H|H]; [qclra|]. destruct B as [B _].
    rewrite rev_app_distr in B. cbn [rev] in B. destruct k as [|[e1 g1] k] using rev_ind; [cbn in B; subst a; destruct (middle_strict e e' Lt); qclra|]. rewrite rev_app_distr in B. cbn [rev app] in B. subst a.
    assert (L1 : l = l1 ++ (e, g) :: k ++ (e1, g1) :: (e', g') :: m2) by (rewrite L, <- app_assoc; reflexivity). assert (L2 : l = (l1 ++ (e, g) :: k) ++ (e1, g1) :: [] ++ (e', g') :: m2) by (rewrite L1, <- app_assoc; reflexivity).
    pose proof (distinct_lt _ _ _ _ _ _ D L1) as T1. pose proof (distinct_lt _ _ _ _ _ _ D L2) as T2. cbn [fst] in T1, T2. destruct (middle_strict e1 e' T2). qclra.
  - assert (L : l = m1 ++ (e', g') :: k ++ (e, g) :: l2) by (rewrite E0, <- app_assoc; reflexivity). pose proof (distinct_lt _ _ _ _ _ _ D L) as Lt. cbn [fst] in Lt.
    destruct (beside_low fs e' g' a b e F G' N) as [H|H]; [qclra|]. destruct B as [_ B]. destruct k as [|[e2 g2] k]; cbn [app] in B; subst b; [destruct (middle_strict e' e Lt); qclra|].
    assert (L1 : l = (m1 ++ [(e', g')]) ++ (e2, g2) :: k ++ (e, g) :: l2) by (rewrite L, <- app_assoc; reflexivity). assert (L2 : l = m1 ++ (e', g') :: [] ++ (e2, g2) :: k ++ (e, g) :: l2) by exact L.
    pose proof (distinct_lt _ _ _ _ _ _ D L1) as T1. pose proof (distinct_lt _ _ _ _ _ _ D L2) as T2. cbn [fst] in T1, T2. destruct (middle_strict e' e2 T2). qclra.
Qed.

(** ** Functions with the same values *)
Section Same.
Context (f f' : Qc -> Qc) (tol : Qc) (X : forall x, f' x = f x).
Lemma good_ext a b : good f tol a b -> good f' tol a b.
Proof. intros (d & m & A & B & C). exists d, m. rewrite !X. auto. Qed.
Lemma good_ext' a b : good f' tol a b -> good f tol a b.
Proof. intros (d & m & A & B & C). exists d, m. rewrite !X in A. rewrite X in B. auto. Qed.
Lemma bisect_ext a b l : bisect f tol a b l -> bisect f' tol a b l.
Proof.
  induction 1 as [a b G|a b l r N _ IH1 _ IH2]; [apply b_stop, good_ext, G|]. apply b_split; [intros G; apply N, good_ext', G|exact IH1|exact IH2].
Qed.
Lemma filled_ext es o : filled f tol es o -> filled f' tol es o.
Proof. induction 1 as [x|x y r l o B F IH]; [apply f_one|]. apply f_more; [apply bisect_ext, B|exact IH]. Qed.
End Same.

(** ** A jump at the end *)
Lemma steps_end (R : Qc -> Qc -> Prop) (o : list Qc) : Sorted R o -> (2 <= List.length o)%nat -> exists l p, o = l ++ [p; last o 0%Qc] /\ R p (last o 0%Qc).
Proof.
  induction o as [|a o IH]; intros S L; [cbn in L; lia|]. inversion S as [|? ? S' H]; subst. destruct o as [|b o]; [cbn in L; lia|]. destruct o as [|c o].
  - exists [], a. split; [reflexivity|]. now inversion H.
  - destruct (IH S') as (l & p & E & Rp); [cbn; lia|]. exists (a :: l), p. change (last (a :: b :: c :: o) 0%Qc) with (last (b :: c :: o) 0%Qc). split; [now rewrite E at 1|exact Rp].
Qed.
Lemma jump_bad f tol es o lo hi : filled f tol es o -> StronglySorted Qclt es -> hd_error es = Some lo -> last es 0%Qc = hi -> (lo < hi)%Qc -> (forall x, (lo <= x)%Qc -> (x < hi)%Qc -> ~ good f tol x hi) -> False.
Proof.
  intros F S A B L N. pose proof (Linz_Proofs.filled_steps f tol es o F S) as St. destruct (Linz_Proofs.filled_in f tol es o F) as (_ & H1 & H2). rewrite A in H1. rewrite B in H2.
  assert (Lo : (2 <= List.length o)%nat). { destruct o as [|a [|b o]]; [discriminate|cbn in H1, H2; exfalso; assert (lo = hi) by congruence; subst hi; rewrite H in L; exact (Qclt_not_eq _ _ L eq_refl)|cbn; lia]. }
  destruct (steps_end _ o St Lo) as (l & p & E & Lp & Gp). rewrite H2 in *. apply (N p); [|exact Lp|exact Gp].
  destruct l as [|a l]; [rewrite E in H1; cbn in H1; assert (p = lo) as -> by congruence; apply Qcle_refl|].
  assert (SS : StronglySorted Qclt o). { apply Sorted_StronglySorted; [intros x y z; apply Qclt_trans|]. clear - St. induction St as [|x o St IH H]; constructor; [exact IH|]. destruct H as [|y o [Y _]]; constructor. exact Y. }
  rewrite E in H1, SS. cbn in H1. assert (a = lo) as -> by congruence. cbn in SS. inversion SS as [|? ? _ Fa]; subst. rewrite Forall_forall in Fa. apply Qclt_le_weak, Fa, in_or_app. right. now left.
Qed.
Lemma jump_arith m M y x b c : (0 < m -> m <= y -> y <= M -> m <= x -> m <= b -> qz 2 * (M * qc 1001 1000 - m) < c -> qabs (middle x (b + c) - y) <= qc 1 1000 * qabs y -> False)%Qc.
Proof.
  intros P Y1 Y2 X B J G. assert (H : (middle x (b + c) + middle x (b + c) = x + (b + c))%Qc) by (apply Linz_Proofs.half_sum). set (v := middle x (b + c)) in *. clearbody v.
  assert (G' : (v - y <= qc 1 1000 * y)%Qc) by (destruct (qabs_spec (v - y)) as [[_ E]|[N E]]; destruct (qabs_spec y) as [[Z E']|[Z E']]; rewrite E' in G; rewrite E in G; qclra). clear G. qclra.
Qed.
