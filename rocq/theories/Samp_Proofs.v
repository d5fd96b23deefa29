From Verif Require Import Num Chi_Model Chi_Spec Chi_Proofs AceEdit_Model AceEdit_Spec AceEdit_Proofs AceEdit2_Proofs MapGroups_Model MapGroups_Spec MapGroups_Proofs Samp_Model Samp_Spec.
From Coq Require Import ZArith Permutation.
Local Open Scope Z_scope.

(** The calls made. *)
Definition hist (vs : list (Z * value)) : list call := flat_map (fun p => [SetSigma (fst p) (snd p); SumRules]) vs.
Lemma hist_app a b : hist (a ++ b) = hist a ++ hist b.
Proof. unfold hist. now rewrite flat_map_app. Qed.
Lemma edits_hist : forall vs, edits (hist vs) = vs.
Proof. induction vs as [|[m v] vs IH]; [reflexivity|]. change (edits (hist ((m, v) :: vs))) with ((m, v) :: edits (hist vs)). now rewrite IH. Qed.
Lemma run_app s a b : run s (a ++ b) = run (run s a) b.
Proof. unfold run. apply fold_left_app. Qed.
Lemma in_hist m v : forall vs, In (SetSigma m v) (hist vs) -> In (m, v) vs.
Proof. induction vs as [|[a b] vs IH]; intros H; [destruct H|]. cbn in H. destruct H as [H|[H|H]]; [injection H as <- <-; now left | discriminate | right; auto]. Qed.
Lemma touched_above t vs m : touched t (hist vs) m -> exists m', In m' (map fst vs) /\ above t m' m.
Proof.
  induction 1 as [m v H|sm m P K _ (m' & I & A)].
  - apply in_hist in H. exists m. split; [apply in_map_iff; now exists (m, v) | constructor].
  - exists m'. split; [exact I|]. now apply (above_sum t m' sm m).
Qed.
Lemma run_one s m v : run s (hist [(m, v)]) = fst (apply_sum_rules (fst (set_sigma s m v))).
Proof. reflexivity. Qed.
(** Redundant reactions are above their parts, never below. *)
Definition level (m : Z) : Z := if (m =? 1) || (m =? 3) then 2 else if (m =? 4) || (m =? 16) || (m =? 18) || (m =? 27) || (m =? 101) || ((103 <=? m) && (m <=? 107)) then 1 else 0.
Lemma level0 m : 19 <= m -> m <> 27 -> m <> 101 -> ~ 103 <= m <= 107 -> level m = 0.
Proof. intros. unfold level. rewrite !(proj2 (Z.eqb_neq m _)) by lia. cbn [orb]. destruct (Z.leb_spec 103 m), (Z.leb_spec m 107); cbn [andb]; lia. Qed.
Lemma level1 m : m <> 1 -> m <> 3 -> level m <= 1.
Proof. intros. unfold level. rewrite (proj2 (Z.eqb_neq m 1)), (proj2 (Z.eqb_neq m 3)) by lia. cbn [orb]. match goal with |- (if ?b then _ else _) <= _ => destruct b end; lia. Qed.
Lemma part_level sm m : part_of sm m -> level m < level sm.
Proof.
  intros H. unfold part_of in H.
  repeat match type of H with _ \/ _ => destruct H as [H|H] end; destruct H as [E H];
  repeat match type of E with _ \/ _ => destruct E as [E|E] end; subst sm; cbn;
  first [ rewrite level0 by lia; lia | pose proof (level1 m ltac:(lia) ltac:(lia)); lia ].
Qed.
Lemma above_level t m p : above t m p -> level m <= level p.
Proof. induction 1 as [|sm p P _ _ IH]; [lia|]. apply part_level in P. lia. Qed.
Lemma above_acyclic t m p : above t m p -> ~ part_of m p.
Proof. intros A P. apply above_level in A. apply part_level in P. lia. Qed.

Lemma sampled_same t vs r : wf_table t -> (forall m', In m' (map fst vs) -> ~ above t m' (rq_mt r)) ->
  sampled (run (open_editor t) (hist vs)) r = sampled (open_editor t) r.
Proof.
  intros W N. assert (NT : ~ touched t (hist vs) (rq_mt r)) by (intros T; apply touched_above in T; destruct T as (m' & I & A); exact (N m' I A)).
  destruct (untouched_keeps t (hist vs) (rq_mt r) W NT) as [K1 K2]. unfold sampled. destruct (Z.eqb_spec (rq_mt r) 1018) as [E|_].
  - rewrite (K2 E). unfold chi_energies. rewrite (inv_all _ _ (Inv_reach t (hist vs) W)), (chi_untouched t); auto using Inv_open. intros v Hin. apply NT. rewrite E. now apply (touched_set t (hist vs) 1018 v).
  - now rewrite (all_grids_unchanged t (hist vs) (rq_mt r) W), K1.
Qed.
(** The value set is of the right kind and length. *)
Definition accepted (t : table) (p : Z * value) : Prop :=
  fst p <> 452 -> fst p <> 1018 -> exists ys r0, snd p = VFlat ys /\ lookup (fst p) (reactions t) = Some r0 /\ length ys = length (tx r0).
Lemma sample_mt_run t vs r s : wf_table t -> sample_mt (run (open_editor t) (hist vs)) r = Some s ->
  exists v, s = run (open_editor t) (hist (vs ++ [(rq_mt r, v)])) /\ accepted t (rq_mt r, v) /\
    ((forall m', In m' (map fst vs) -> ~ above t m' (rq_mt r)) -> sampled (open_editor t) r = Some v).
Proof.
  intros W H. unfold sample_mt in H. destruct (sampled (run (open_editor t) (hist vs)) r) as [v|] eqn:V; [|discriminate]. exists v.
  destruct (set_sigma (run (open_editor t) (hist vs)) (rq_mt r) v) as [s1 ok] eqn:E1. destruct ok; [|discriminate]. destruct (apply_sum_rules s1) as [s2 ok2] eqn:E2. destruct ok2; [|discriminate]. injection H as <-.
  split; [|split].
  - rewrite hist_app, run_app, run_one, E1. cbn [fst]. now rewrite E2.
  - intros N1 N2. cbn [fst snd] in *. unfold sampled in V. apply Z.eqb_neq in N2. rewrite N2 in V. destruct (get_energy _ _) as [es|]; [|discriminate]. destruct (get_sigma _ _ _ _) as [ys0|]; [|discriminate]. destruct (scale _ _ _) as [ys|]; [|discriminate]. cbn in V. injection V as <-.
    destruct (set_sigma_flat_cases (run (open_editor t) (hist vs)) (rq_mt r) ys) as [K|[(K & _)|(_ & _ & rx & X & L & _)]]; [rewrite K in E1; discriminate | contradiction|].
    destruct (inv_shape _ _ (Inv_reach t (hist vs) W) _ _ X) as (r0 & R & TX & _). exists ys, r0. split; [reflexivity|]. split; [exact R | congruence].
  - intros N. now rewrite <- (sampled_same t vs r W N).
Qed.
Definition got (t : table) (ms : list Z) (r : request) (p : Z * value) : Prop :=
  fst p = rq_mt r /\ accepted t p /\ ((forall m', In m' ms -> m' <> rq_mt r -> ~ above t m' (rq_mt r)) -> sampled (open_editor t) r = Some (snd p)).
Lemma sample_mts_run t ms : wf_table t -> NoDup ms -> forall rs vs s, map fst vs ++ map rq_mt rs = ms ->
  sample_mts (run (open_editor t) (hist vs)) rs = Some s ->
  exists ws, Forall2 (got t ms) rs ws /\ s = run (open_editor t) (hist (vs ++ ws)).
Proof.
  intros W ND. induction rs as [|r rs IH]; intros vs s EM H; cbn [sample_mts] in H.
  - injection H as <-. exists []. split; [constructor | now rewrite app_nil_r].
  - destruct (sample_mt (run (open_editor t) (hist vs)) r) as [s'|] eqn:E; [|discriminate].
    destruct (sample_mt_run t vs r s' W E) as (v & -> & AC & V).
    destruct (IH (vs ++ [(rq_mt r, v)]) s) as (ws & F & ->).
    + rewrite map_app, <- app_assoc. exact EM.
    + exact H.
    + exists ((rq_mt r, v) :: ws). split; [|now rewrite <- app_assoc]. constructor; [|exact F]. split; [reflexivity|]. split; [exact AC|]. intros N. apply V. intros m' I.
      apply N; [rewrite <- EM; apply in_or_app; now left|]. intros ->. rewrite <- EM in ND. cbn [map] in ND. apply NoDup_remove_2 in ND. apply ND. apply in_or_app. now left.
Qed.
Lemma hist_pass t vs : vs <> [] -> exists h, run (open_editor t) (hist vs) = after_pass t h /\ edits h = vs.
Proof.
  intros N. destruct (exists_last N) as (vs' & [m v] & ->). exists (hist vs' ++ [SetSigma m v]). split.
  - rewrite hist_app, run_app. unfold after_pass. rewrite run_app. reflexivity.
  - assert (EA : forall a b, edits (a ++ b) = edits a ++ edits b) by (clear; induction a as [|[m v|] a IH]; intros b; cbn; [reflexivity | now rewrite IH | apply IH]).
    rewrite EA, edits_hist. reflexivity.
Qed.
Lemma file_run t rs s : wf_table t -> NoDup (map rq_mt rs) -> sample_file t rs = Some s ->
  exists ws, Forall2 (got t (map rq_mt rs)) rs ws /\ s = run (open_editor t) (hist ws).
Proof. intros W ND H. apply (sample_mts_run t (map rq_mt rs) W ND rs [] s); auto. Qed.
Lemma ws_fst rs ws : forall t ms, Forall2 (got t ms) rs ws -> map fst ws = map rq_mt rs.
Proof. intros t ms. induction 1 as [|r p rs ws [H _] _ IH]; [reflexivity|]. cbn. now rewrite H, IH. Qed.
Lemma alone_got t rs r p : alone t rs r -> got t (map rq_mt rs) r p -> sampled (open_editor t) r = Some (snd p).
Proof. intros A (_ & _ & H). apply H. intros m' I D. apply in_map_iff in I. destruct I as (r' & <- & I). exact (A r' I D). Qed.

(** ** The values *)
Lemma list_min_is lo l : In lo l -> (forall x, In x l -> (lo <= x)%Qc) -> list_min l = Some lo.
Proof.
  assert (G : forall l m, list_min l = Some m -> In m l /\ forall x, In x l -> (m <= x)%Qc).
  { clear. induction l as [|a l IH]; intros m H; [discriminate|]. cbn in H. destruct (list_min l) as [k|] eqn:E.
    - destruct (IH k eq_refl) as [I L]. injection H as <-. destruct (qltb k a) eqn:Q.
      + apply qltb_lt in Q. split; [now right|]. intros x [<-|X]; [apply Qclt_le_weak; exact Q | auto].
      + apply qltb_nlt in Q. split; [now left|]. intros x [<-|X]; [apply Qcle_refl|]. eapply Qcle_trans; [exact Q | auto].
    - injection H as <-. apply list_min_nil in E. subst. split; [now left|]. intros x [<-|[]]. apply Qcle_refl. }
  intros I L. destruct (list_min l) as [m|] eqn:E.
  - destruct (G l m E) as [I' L']. f_equal. apply Qcle_antisym; auto.
  - apply list_min_nil in E. subst. destruct I.
Qed.
Lemma map2_length {A B C} (f : A -> B -> C) : forall l m, length l = length m -> length (map2 f l m) = length l.
Proof. induction l as [|a l IH]; intros [|b m] H; try discriminate; [reflexivity|]. cbn in *. now rewrite IH by lia. Qed.
Lemma scale_values r lo v es ys : good_groups r lo v -> ~ In lo es -> length ys = length es ->
  exists zs, scale r es (no_zero ys) = Some zs /\ length zs = length es /\
    forall i, (i < length es)%nat -> scaled_value r lo v (nth i es 0%Qc) (nth i ys 0%Qc) (nth i zs 0%Qc).
Proof.
  intros (H1 & H2 & H3 & (L1 & L2) & H4) N L. unfold scale. rewrite (list_min_is lo _ L1 L2).
  destruct (map_groups_values es (rq_high r) (rq_col r) v None (Some lo) 1%Qc H1 H2 H3 (Qcle_refl _) H4 N) as (fs & -> & F). cbn [eff_min eff_max] in F.
  eexists. split; [reflexivity|]. clear - F L. revert ys L. induction F as [|e f es fs R F IH]; intros [|y ys] L; try discriminate; [split; [reflexivity | intros i Hi; cbn in Hi; lia]|].
  cbn in L. destruct (IH ys ltac:(lia)) as [IL IV]. cbn [no_zero map map2 length]. split; [f_equal; exact IL|]. intros [|i] Hi; cbn [nth].
  - exists f. split; [exact R|]. destruct (qeqb_spec y 0%Qc) as [E|E]; split; intros K; try contradiction; [ring | reflexivity].
  - apply IV. cbn in Hi. lia.
Qed.
Lemma sampled_some t r r0 lo v : rq_mt r <> 1018 -> rdata t (rq_mt r) = Some r0 -> length (ty r0) = length (tx r0) -> good_groups r lo v -> ~ In lo (tx r0) ->
  exists zs, sampled (open_editor t) r = Some (VFlat zs) /\ length zs = length (tx r0) /\
    forall i, (i < length (tx r0))%nat -> scaled_value r lo v (nth i (tx r0) 0%Qc) (nth i (ty r0) 0%Qc) (nth i zs 0%Qc).
Proof.
  intros N D L G NI. destruct (scale_values r lo v (tx r0) (ty r0) G NI L) as (zs & S1 & S2 & S3). exists zs. split; [|auto].
  unfold sampled. apply Z.eqb_neq in N. rewrite N. unfold get_energy, get_sigma. cbn [open_editor cur]. unfold rdata in D. destruct (rq_mt r =? 452); rewrite D; cbn [option_map]; now rewrite S1.
Qed.
Lemma Forall2_In_l {A B} (P : A -> B -> Prop) l r x : Forall2 P l r -> In x l -> exists y, In y r /\ P x y.
Proof. induction 1 as [|a b l r H _ IH]; intros I; [destruct I|]. destruct I as [<-|I]; [exists b; split; [now left | exact H]|]. destruct (IH I) as (y & Y & HP). exists y. split; [now right | exact HP]. Qed.
Lemma lookup_nodup {A} : forall (E : list (Z * A)) m v, NoDup (map fst E) -> In (m, v) E -> lookup m E = Some v.
Proof.
  induction E as [|[k w] E IH]; intros m v ND I; [destruct I|]. cbn [map fst] in ND. inversion ND as [|? ? NI ND']; subst. cbn [lookup]. destruct I as [I|I].
  - injection I as -> ->. now rewrite Z.eqb_refl.
  - destruct (Z.eqb_spec m k) as [->|_]; [|auto]. destruct NI. apply in_map_iff. now exists (k, v).
Qed.
Lemma file_values t rs s r r0 lo v : wf_table t -> NoDup (map rq_mt rs) -> sample_file t rs = Some s ->
  In r rs -> alone t rs r -> rq_mt r <> 1018 -> rdata t (rq_mt r) = Some r0 -> length (ty r0) = length (tx r0) -> good_groups r lo v -> ~ In lo (tx r0) ->
  exists ys, get_energy s (rq_mt r) = Some (tx r0) /\ get_sigma s (rq_mt r) None false = Some ys /\ length ys = length (tx r0) /\
    forall i, (i < length (tx r0))%nat -> scaled_value r lo v (nth i (tx r0) 0%Qc) (nth i (ty r0) 0%Qc) (nth i ys 0%Qc).
Proof.
  intros W ND H I AL N D L G NI. destruct (file_run t rs s W ND H) as (ws & F & E). pose proof (ws_fst rs ws t _ F) as MF.
  destruct (sampled_some t r r0 lo v N D L G NI) as (zs & V & LZ & VZ). exists zs.
  destruct (Forall2_In_l _ _ _ _ F I) as ([m w] & IW & GT). pose proof (alone_got t rs r _ AL GT) as M2. destruct GT as (M1 & _). cbn [fst snd] in M1, M2. rewrite V in M2. injection M2 as <-.
  assert (LK : lookup (rq_mt r) ws = Some (VFlat zs)) by (apply lookup_nodup; [now rewrite MF | now rewrite <- M1]).
  assert (NW : ws <> []) by (intros ->; destruct IW).
  destruct (hist_pass t ws NW) as (h & HP & HE). rewrite HP in E. subst s.
  destruct (after_pass_final t h W) as [HI _]; [rewrite HE, MF; exact ND|]. rewrite HE in HI.
  split; [|split; [|split; [exact LZ | exact VZ]]].
  - rewrite <- HP, (all_grids_unchanged t (hist ws) (rq_mt r) W). unfold get_energy. cbn [open_editor cur]. unfold rdata in D. destruct (rq_mt r =? 452); now rewrite D.
  - unfold get_sigma. unfold rdata in D. destruct (Z.eqb_spec (rq_mt r) 452) as [E4|E4].
    + rewrite (h_nu _ _ _ HI). unfold nuE. rewrite E4 in LK. rewrite LK, D, LZ, Nat.eqb_refl. reflexivity.
    + assert (K : In (rq_mt r) (map fst (reactions t))) by (now apply lookup_Some_key in D).
      destruct (h_base _ _ _ HI (rq_mt r) K) as [T _].
      * intros p P KP AD. rewrite <- HP in AD.
        assert (T : touched t (hist ws) p).
        { revert AD. apply (adjusted_touched t (hist ws) (touched t (hist ws))); auto using Inv_open.
          - intros sm q Q1 Q2 HT. now apply (touched_sum t (hist ws) sm q).
          - intros m0 v0 Hin. now apply (touched_set t (hist ws) m0 v0).
          - cbn. tauto. }
        apply touched_above in T. destruct T as (m' & I' & A). rewrite MF in I'. apply in_map_iff in I'. destruct I' as (r' & <- & I'). destruct (Z.eq_dec (rq_mt r') (rq_mt r)) as [DM|DM].
        -- rewrite DM in A. exact (above_acyclic t _ _ A P).
        -- apply (AL r' I' DM). now apply (above_sum t (rq_mt r') (rq_mt r) p).
      * unfold tabm in T. rewrite T, (base_edited t ws (rq_mt r) zs r0 LK D LZ). reflexivity.
Qed.
Lemma file_succeeds t rs : wf_table t -> NoDup (map rq_mt rs) ->
  (forall r, In r rs -> rq_mt r <> 1018 /\ exists r0 lo v, rdata t (rq_mt r) = Some r0 /\ length (ty r0) = length (tx r0) /\ good_groups r lo v /\ ~ In lo (tx r0)) ->
  exists s, sample_file t rs = Some s.
Proof.
  intros W ND H. unfold sample_file. change (open_editor t) with (run (open_editor t) (hist [])).
  change (map rq_mt rs) with (map (@fst Z value) [] ++ map rq_mt rs) in ND. revert ND H. generalize (@nil (Z * value)) as vs. induction rs as [|r rs IH]; intros vs ND H; cbn [sample_mts]; [eauto|].
  destruct (H r (or_introl eq_refl)) as (N8 & r0 & lo & v & D & L & G & NI).
  assert (GE : get_energy (run (open_editor t) (hist vs)) (rq_mt r) = Some (tx r0)).
  { rewrite (all_grids_unchanged t (hist vs) (rq_mt r) W). unfold get_energy. cbn [open_editor cur]. unfold rdata in D. destruct (rq_mt r =? 452); now rewrite D. }
  assert (GS : exists ys, get_sigma (run (open_editor t) (hist vs)) (rq_mt r) None false = Some ys /\ length ys = length (tx r0)).
  { destruct (Z.eqb_spec (rq_mt r) 452) as [E4|E4].
    - assert (NT : ~ touched t (hist vs) (rq_mt r)).
      { intros T. apply touched_above in T. destruct T as (m' & I & A). rewrite E4 in A. inversion A as [|? p P]; subst; [|unfold part_of in P; lia]. cbn [map] in ND. rewrite E4 in ND. apply NoDup_remove_2 in ND. apply ND. apply in_or_app. now left. }
      destruct (untouched_keeps t (hist vs) (rq_mt r) W NT) as [K1 _]. rewrite K1. unfold rdata in D. unfold get_sigma. cbn [open_editor cur]. rewrite E4 in D |- *. cbn [Z.eqb Pos.eqb] in D |- *. rewrite D. exists (ty r0). split; [reflexivity | exact L].
    - unfold get_sigma, get_energy in *. apply Z.eqb_neq in E4. rewrite E4 in *. unfold tabm in *. destruct (lookup (rq_mt r) (reactions (cur (run (open_editor t) (hist vs))))) as [rx|] eqn:X; [|discriminate]. cbn in GE. injection GE as GE.
      destruct (inv_shape _ _ (Inv_reach t (hist vs) W) _ _ X) as (r1 & _ & _ & L1). exists (ty rx). split; [reflexivity | congruence]. }
  destruct GS as (ys & GS & LS). destruct (scale_values r lo v (tx r0) ys G NI LS) as (zs & SC & LZ & _).
  assert (E : sample_mt (run (open_editor t) (hist vs)) r = Some (run (open_editor t) (hist (vs ++ [(rq_mt r, VFlat zs)])))).
  { unfold sample_mt, sampled. rewrite (proj2 (Z.eqb_neq _ _) N8), GE, GS, SC. cbn [option_map].
    destruct (set_sigma_accepts _ (rq_mt r) zs (tx r0) N8 GE LZ) as (A & _).
    pose proof (pass_never_raises t (hist vs ++ [SetSigma (rq_mt r) (VFlat zs)]) W) as P. rewrite run_app in P. unfold run at 1 in P. cbn [fold_left do_call] in P.
    rewrite hist_app, run_app, run_one.
    destruct (set_sigma (run (open_editor t) (hist vs)) (rq_mt r) (VFlat zs)) as [s1 ok]. cbn [fst snd] in A, P |- *. subst ok. destruct (apply_sum_rules s1) as [s2 ok2]. cbn [fst snd] in P |- *. now subst ok2. }
  rewrite E. apply IH.
  - rewrite map_app, <- app_assoc. exact ND.
  - intros r' I'. apply H. now right.
Qed.
(** Adjustments reach up. *)
Lemma above_adjusted t s m p : wf_table t -> Inv t s -> rested t s -> In m (adjusted s) -> above t m p -> In p (map fst (reactions t)) -> In p (adjusted s).
Proof.
  intros W I R A. induction 1 as [|sm p P K _ IH]; intros KS; [exact A|]. specialize (IH K). destruct (part_of_rule _ _ P) as (parts & HR).
  assert (AO : In p (adj_of s parts)).
  { apply adj_of_In. split; [exact IH|]. split; [now apply (rule_parts _ _ HR)|]. rewrite (inv_all _ _ I). now apply keys_in_all. }
  destruct (R sm parts HR) as [X|[X|(X & _)]]; [rewrite X in AO; destruct AO | contradiction | exact X].
Qed.
Lemma ws_edited t rs ws m : Forall2 (got t (map rq_mt rs)) rs ws -> NoDup (map rq_mt rs) -> In m (map rq_mt rs) -> m <> 452 -> m <> 1018 -> edited t ws m.
Proof.
  intros F ND I N1 N2. pose proof (ws_fst rs ws t _ F) as MF. apply in_map_iff in I. destruct I as (r & <- & I). destruct (Forall2_In_l _ _ _ _ F I) as ([m w] & IW & M1 & AC & _). cbn [fst] in M1. subst m.
  destruct (AC N1 N2) as (ys & r0 & E & R & L). cbn [snd] in E. subst w. exists ys, r0. split; [|auto]. apply lookup_nodup; [now rewrite MF | exact IW].
Qed.
Lemma above_plain t m p : above t m p -> p = m \/ exists q, part_of p q /\ In q (map fst (reactions t)) /\ above t m q.
Proof. intros A. inversion A as [|sm q P K AQ]; subst; [now left|]. right. exists q. auto. Qed.
Lemma above_ordinary t m p : above t m p -> p <> m -> m <> 452 /\ m <> 1018.
Proof. induction 1 as [|sm p P K A IH]; intros D; [congruence|]. destruct (Z.eq_dec p m) as [->|E]; [unfold part_of in P; lia | now apply IH]. Qed.
Lemma plain_alone t rs ws h m : wf_table t -> NoDup (map rq_mt rs) -> Forall2 (got t (map rq_mt rs)) rs ws -> edits h = ws -> plain t (after_pass t h) m ->
  forall m', In m' (map rq_mt rs) -> m' <> m -> ~ above t m' m.
Proof.
  intros W ND F HE PL m' I D A. pose proof (ws_fst rs ws t _ F) as MF.
  destruct (after_pass_final t h W) as [HI R]; [rewrite HE, MF; exact ND|]. rewrite HE in HI.
  destruct (above_ordinary t m' m A) as [O1 O2]; [congruence|]. destruct (above_plain t m' m A) as [X|(q & P & K & AQ)]; [congruence|].
  apply (PL q P K). apply (above_adjusted t _ m' q W (h_inv _ _ _ HI) R); auto. apply (h_mono _ _ _ HI). now apply (ws_edited t rs).
Qed.
Lemma file_determined t rs rs' s s' : wf_table t -> NoDup (map rq_mt rs) -> Permutation (map rq_mt rs) (map rq_mt rs') ->
  (forall r, In r rs -> alone t rs r -> In r rs') ->
  sample_file t rs = Some s -> sample_file t rs' = Some s' -> cur s = cur s' /\ forall m, In m (map fst (reactions t)) -> (In m (adjusted s) <-> In m (adjusted s')).
Proof.
  intros W ND PM SA H H'.
  assert (ND' : NoDup (map rq_mt rs')) by (eapply Permutation_NoDup; [exact PM | exact ND]).
  destruct (file_run t rs s W ND H) as (ws & F & E). destruct (file_run t rs' s' W ND' H') as (ws' & F' & E').
  pose proof (ws_fst rs ws t _ F) as MF. pose proof (ws_fst rs' ws' t _ F') as MF'.
  destruct rs as [|r0 rs0] eqn:ER.
  - apply Permutation_nil in PM. apply map_eq_nil in PM. subst rs'. inversion F; inversion F'; subst. cbn. split; [reflexivity | tauto].
  - rewrite <- ER in *. assert (NW : ws <> []) by (intros ->; rewrite ER in F; inversion F).
    assert (NW' : ws' <> []) by (intros ->; inversion F'; subst rs'; apply Permutation_sym, Permutation_nil in PM; rewrite ER in PM; discriminate).
    destruct (hist_pass t ws NW) as (h & HP & HE). destruct (hist_pass t ws' NW') as (h' & HP' & HE'). rewrite E, E', HP, HP'.
    assert (G : forall m, (forall m', In m' (map rq_mt rs) -> m' <> m -> ~ above t m' m) -> lookup m ws = lookup m ws').
    { intros m AL. destruct (in_dec Z.eq_dec m (map rq_mt rs)) as [I|I].
      - apply in_map_iff in I. destruct I as (r & <- & I). assert (I' : In r rs') by (apply SA; [exact I|]; intros r' IR D; apply AL; [now apply in_map | exact D]).
        destruct (Forall2_In_l _ _ _ _ F I) as ([m1 w1] & I1 & M1 & _ & V1). destruct (Forall2_In_l _ _ _ _ F' I') as ([m2 w2] & I2 & M2 & _ & V2). cbn [fst snd] in *. subst m1 m2.
        specialize (V1 AL). rewrite V1 in V2. specialize (V2 ltac:(intros m' IM; apply AL; eapply Permutation_in; [apply Permutation_sym; exact PM | exact IM])). injection V2 as <-.
        rewrite (lookup_nodup ws (rq_mt r) w1), (lookup_nodup ws' (rq_mt r) w1); auto; [now rewrite MF' | now rewrite MF].
      - rewrite !(proj2 (lookup_None _ _)); [reflexivity | rewrite MF' | now rewrite MF]. intros I'. apply I. eapply Permutation_in; [apply Permutation_sym; exact PM | exact I']. }
    apply edit_order_gen; rewrite ?HE, ?HE', ?MF, ?MF'; auto.
    + intros m K P1 _. apply G. exact (plain_alone t rs ws h m W ND F HE P1).
    + apply G. intros m' _ D A. destruct (above_plain _ _ _ A) as [X|(q & Q & _)]; [congruence | unfold part_of in Q; lia].
    + apply G. intros m' _ D A. destruct (above_plain _ _ _ A) as [X|(q & Q & _)]; [congruence | unfold part_of in Q; lia].
Qed.
Lemma file_order t rs rs' s s' : wf_table t -> NoDup (map rq_mt rs) -> Permutation rs rs' ->
  sample_file t rs = Some s -> sample_file t rs' = Some s' -> cur s = cur s' /\ forall m, In m (map fst (reactions t)) -> (In m (adjusted s) <-> In m (adjusted s')).
Proof. intros W ND P. apply file_determined; auto; [now apply Permutation_map|]. intros r I _. eapply Permutation_in; eauto. Qed.
(** Redundant reactions. *)
Lemma file_redundant t rs s sm r : wf_table t -> NoDup (map rq_mt rs) -> sample_file t rs = Some s -> In sm (map fst (reactions t)) ->
  In r rs -> rq_mt r <> sm -> above t (rq_mt r) sm ->
  exists es ys, get_energy s sm = Some es /\ get_sigma s sm None false = Some ys /\
    ys = map (fun e => reading s true sm e + qsum (map (change s e) (constituents t sm)))%Qc es.
Proof.
  intros W ND H K I D A. destruct (file_run t rs s W ND H) as (ws & F & E). pose proof (ws_fst rs ws t _ F) as MF.
  assert (NW : ws <> []) by (intros ->; inversion F; subst; destruct I). destruct (hist_pass t ws NW) as (h & HP & HE). rewrite HP in E. subst s.
  apply redundant_balanced; auto. destruct (above_ordinary t _ _ A) as [O1 O2]; [congruence|]. destruct (above_plain _ _ _ A) as [X|(q & P & KQ & AQ)]; [congruence|].
  destruct (after_pass_final t h W) as [HI R]; [rewrite HE, MF; exact ND|]. rewrite HE in HI. exists q. split; [exact P|]. split; [exact KQ|].
  apply (above_adjusted t _ (rq_mt r) q W (h_inv _ _ _ HI) R); auto. apply (h_mono _ _ _ HI). apply (ws_edited t rs); auto. now apply in_map.
Qed.
(** What is marked. *)
Lemma file_marked t rs s m : wf_table t -> NoDup (map rq_mt rs) -> sample_file t rs = Some s -> In m (map fst (reactions t)) ->
  (In m (adjusted s) <-> exists r, In r rs /\ above t (rq_mt r) m).
Proof.
  intros W ND H K. destruct (file_run t rs s W ND H) as (ws & F & E). pose proof (ws_fst rs ws t _ F) as MF. split.
  - intros A. subst s. assert (T : touched t (hist ws) m).
    { revert A. apply (adjusted_touched t (hist ws) (touched t (hist ws))); auto using Inv_open.
      - intros sm q Q1 Q2 HT. now apply (touched_sum t (hist ws) sm q).
      - intros m0 v0 Hin. now apply (touched_set t (hist ws) m0 v0).
      - cbn. tauto. }
    apply touched_above in T. destruct T as (m' & I & A'). rewrite MF in I. apply in_map_iff in I. destruct I as (r & <- & I). eauto.
  - intros (r & I & A). assert (NW : ws <> []) by (intros ->; inversion F; subst; destruct I). destruct (hist_pass t ws NW) as (h & HP & HE). rewrite HP in E. subst s.
    destruct (after_pass_final t h W) as [HI R]; [rewrite HE, MF; exact ND|]. rewrite HE in HI. apply (above_adjusted t _ (rq_mt r) m W (h_inv _ _ _ HI) R); auto. apply (h_mono _ _ _ HI). apply (ws_edited t rs); auto; [now apply in_map | |].
    + intros X. destruct (Z.eq_dec m (rq_mt r)) as [->|D]; [|destruct (above_ordinary t _ _ A D); congruence]. destruct (wf_lookup t (rq_mt r) (match lookup (rq_mt r) (reactions t) with Some x => x | None => mkTab [] [] end) W) as (N & _); [|congruence]. destruct (lookup (rq_mt r) (reactions t)) eqn:L; [reflexivity|]. apply lookup_None in L. contradiction.
    + intros X. destruct (Z.eq_dec m (rq_mt r)) as [->|D]; [|destruct (above_ordinary t _ _ A D); congruence]. destruct (wf_lookup t (rq_mt r) (match lookup (rq_mt r) (reactions t) with Some x => x | None => mkTab [] [] end) W) as (_ & N & _); [|congruence]. destruct (lookup (rq_mt r) (reactions t)) eqn:L; [reflexivity|]. apply lookup_None in L. contradiction.
Qed.
Lemma file_untouched t rs s m : wf_table t -> NoDup (map rq_mt rs) -> sample_file t rs = Some s -> (forall r, In r rs -> ~ above t (rq_mt r) m) ->
  (forall at_e, get_sigma s m at_e false = get_sigma (open_editor t) m at_e false) /\ (m = 1018 -> get_sigma_chi s false = get_sigma_chi (open_editor t) false).
Proof.
  intros W ND H N. destruct (file_run t rs s W ND H) as (ws & F & ->). apply untouched_keeps; [exact W|]. intros T. apply touched_above in T. destruct T as (m' & I & A). rewrite (ws_fst rs ws t _ F) in I. apply in_map_iff in I. destruct I as (r & <- & I). exact (N r I A).
Qed.
(** ** The spectrum *)
Lemma scale_pdf r lo v d : good_groups r lo v -> ~ In lo (dx d) -> length (dp d) = length (dx d) ->
  exists pdf, scale r (dx d) (dp d) = Some pdf /\ scaled_pdf r lo v d pdf.
Proof.
  intros (H1 & H2 & H3 & (L1 & L2) & H4) N L. unfold scale. rewrite (list_min_is lo _ L1 L2).
  destruct (map_groups_values (dx d) (rq_high r) (rq_col r) v None (Some lo) 1%Qc H1 H2 H3 (Qcle_refl _) H4 N) as (fs & -> & F). cbn [eff_min eff_max] in F.
  eexists. split; [reflexivity|]. unfold scaled_pdf. destruct d as [xs ps cs]. cbn [dx dp] in *. clear - F L. revert ps L. induction F as [|e f es fs R F IH]; intros [|y ys] L; try discriminate; [split; [reflexivity | intros i Hi; cbn in Hi; lia]|].
  cbn in L. destruct (IH ys ltac:(lia)) as [IL IV]. cbn [map2 length]. split; [f_equal; exact IL|]. intros [|i] Hi; cbn [nth].
  - exists f. split; [exact R | reflexivity].
  - apply IV. cbn in Hi. lia.
Qed.
Lemma scale_pdfs r lo v : good_groups r lo v -> forall ds, (forall d, In d ds -> ~ In lo (dx d) /\ length (dp d) = length (dx d)) ->
  exists pdfs, all_some (map2 (fun p e => scale r e p) (map dp ds) (map dx ds)) = Some pdfs /\ Forall2 (scaled_pdf r lo v) ds pdfs.
Proof.
  intros G. induction ds as [|d ds IH]; intros H; [exists []; split; [reflexivity | constructor]|].
  destruct IH as (pdfs & E & F); [intros d' I; apply H; now right|]. destruct (H d (or_introl eq_refl)) as [N L]. destruct (scale_pdf r lo v d G N L) as (pdf & S1 & S2).
  exists (pdf :: pdfs). split; [|now constructor]. cbn [map map2 all_some]. now rewrite S1, E.
Qed.
Lemma file_spectrum t rs s r lo v ds : wf_table t -> NoDup (map rq_mt rs) -> sample_file t rs = Some s -> In r rs -> rq_mt r = 1018 ->
  chi t = Some ds -> In 18 (map fst (reactions t)) -> (forall d, In d ds -> ~ In lo (dx d) /\ length (dp d) = length (dx d)) -> good_groups r lo v ->
  exists pdfs, Forall2 (scaled_pdf r lo v) ds pdfs /\ chi (cur s) = Some (fst (set_chi ds pdfs)) /\ snd (set_chi ds pdfs) = true.
Proof.
  intros W ND H I E8 C K18 HD G. destruct (file_run t rs s W ND H) as (ws & F & E). pose proof (ws_fst rs ws t _ F) as MF.
  destruct (scale_pdfs r lo v G ds HD) as (pdfs & PE & PF). exists pdfs. split; [exact PF|].
  assert (M18 : mem 18 (all_mts (open_editor t)) = true) by (apply mem_In; now apply keys_in_all).
  assert (V : sampled (open_editor t) r = Some (VChi pdfs)).
  { unfold sampled. rewrite E8. cbn [Z.eqb Pos.eqb]. unfold chi_energies, get_sigma_chi. rewrite M18. cbn [open_editor cur]. rewrite C. cbn [option_map]. now rewrite PE. }
  assert (AL : alone t rs r).
  { intros r' _ D A. rewrite E8 in A. destruct (above_plain _ _ _ A) as [X|(q & Q & _)]; [congruence | unfold part_of in Q; lia]. }
  destruct (Forall2_In_l _ _ _ _ F I) as ([m w] & IW & GT). pose proof (alone_got t rs r _ AL GT) as M2. destruct GT as (M1 & _). cbn [fst snd] in M1, M2. rewrite V in M2. injection M2 as <-.
  assert (LK : lookup 1018 ws = Some (VChi pdfs)) by (apply lookup_nodup; [now rewrite MF | now rewrite <- E8, <- M1]).
  assert (NW : ws <> []) by (intros ->; destruct IW).
  destruct (hist_pass t ws NW) as (h & HP & HE). rewrite HP in E. subst s.
  destruct (after_pass_final t h W) as [HI _]; [rewrite HE, MF; exact ND|]. rewrite HE in HI.
  assert (LL : length pdfs = length ds) by (clear - PF; induction PF; cbn; congruence).
  split.
  - rewrite (h_chi _ _ _ HI). unfold chiE. rewrite LK, C, M18, LL, Nat.eqb_refl. reflexivity.
  - (* the run succeeded *)
    clear HI HE HP. unfold sample_file in H. apply in_split in I. destruct I as (pre & post & ->).
    assert (SP : forall a s0 s1, sample_mts s0 (a ++ r :: post) = Some s1 -> exists sa, sample_mts s0 a = Some sa /\ exists sb, sample_mt sa r = Some sb).
    { clear. induction a as [|x a IH]; intros s0 s1 HS; cbn [app sample_mts] in HS.
      - exists s0. split; [reflexivity|]. destruct (sample_mt s0 r) as [sb|]; [eauto | discriminate].
      - cbn [sample_mts]. destruct (sample_mt s0 x) as [s'|]; [|discriminate]. now apply (IH s' s1). }
    destruct (SP _ _ _ H) as (sa & HA & sb & HB).
    rewrite map_app in ND. assert (NDp : NoDup (map rq_mt pre)) by (clear - ND; induction (map rq_mt pre) as [|x l IHl]; [constructor|]; cbn [app] in ND; inversion ND as [|? ? NI ND']; subst; constructor; [intros X; apply NI; apply in_or_app; now left | now apply IHl]).
    destruct (file_run t pre sa W NDp HA) as (wp & FP & ->). pose proof (ws_fst pre wp t _ FP) as MP.
    assert (NT : ~ touched t (hist wp) 1018).
    { intros T. apply touched_above in T. destruct T as (m' & I' & A). destruct (above_plain _ _ _ A) as [X|(q & Q & _)]; [|unfold part_of in Q; lia]. subst m'. rewrite MP in I'. cbn [map] in ND. rewrite E8 in ND. apply NoDup_remove_2 in ND. apply ND. apply in_or_app. now left. }
    unfold sample_mt in HB. rewrite (sampled_same t wp r W) in HB.
    2:{ intros m' IM A. rewrite E8 in A. destruct (above_plain _ _ _ A) as [X|(q & Q & _)]; [|unfold part_of in Q; lia]. subst m'. rewrite MP in IM. cbn [map] in ND. rewrite E8 in ND. apply NoDup_remove_2 in ND. apply ND. apply in_or_app. now left. }
    rewrite V, E8 in HB. destruct (set_sigma_chi_cases (run (open_editor t) (hist wp)) 1018 pdfs) as [K|(_ & _ & ds1 & C1 & _ & K)]; rewrite K in HB; [discriminate|].
    assert (C2 : chi (cur (run (open_editor t) (hist wp))) = Some ds).
    { rewrite (chi_untouched t); auto using Inv_open. intros v0 Hin. apply NT. now apply (touched_set t (hist wp) 1018 v0). }
    rewrite C2 in C1. injection C1 as <-. destruct (snd (set_chi ds pdfs)); [reflexivity | discriminate].
Qed.
Lemma file_spectrum_norm t rs s r lo v ds : wf_table t -> NoDup (map rq_mt rs) -> sample_file t rs = Some s -> In r rs -> rq_mt r = 1018 ->
  chi t = Some ds -> In 18 (map fst (reactions t)) -> (forall d, In d ds -> ~ In lo (dx d) /\ length (dp d) = length (dx d)) -> good_groups r lo v ->
  exists pdfs ds', Forall2 (scaled_pdf r lo v) ds pdfs /\ chi (cur s) = Some ds' /\
    (all_fit ds pdfs -> length ds' = length ds /\ forall i d pdf, nth_error ds i = Some d -> nth_error pdfs i = Some pdf ->
       exists d', nth_error ds' i = Some d' /\ renormalised d pdf d').
Proof.
  intros W ND H I E8 C K18 HD G. destruct (file_spectrum t rs s r lo v ds W ND H I E8 C K18 HD G) as (pdfs & F & CS & OK).
  exists pdfs, (fst (set_chi ds pdfs)). split; [exact F|]. split; [exact CS|]. intros A. destruct (set_chi ds pdfs) as [ds' ok] eqn:E. cbn [fst snd] in *. subst ok.
  destruct (set_chi_ok ds pdfs ds' A E) as (_ & L & R). split; [exact L|]. intros i d pdf N1 N2. destruct (R i d pdf N1 N2) as (d' & X & _ & Y). eauto.
Qed.
