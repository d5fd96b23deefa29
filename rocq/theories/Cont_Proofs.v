From Coq Require Import ZArith QArith Qcanon List Bool Arith Lia.
From Verif Require Import Num Cont_Model Cont_Spec.
Import ListNotations.
Local Open Scope nat_scope.

Definition as_plain (i : scheme) : scheme := match i with Histogram => Histogram | _ => LinLin end.
Definition as_read (d : dist) : dist :=
  match d with
  | Tab i l => Tab (as_plain i) l
  | Disc l => Disc l
  | Mix _ a i c => let p := pc (last a (0, 0, 0)%Qc) in Mix [p; (1 - p)%Qc] a (as_plain i) c
  end.
Lemma scheme_code i : scheme_at (code i) = Some (as_plain i). Proof. destruct i; reflexivity. Qed.
Lemma nonneg_ok l : nonneg l = true <-> nonnegative l.
Proof.
  unfold nonneg, nonnegative. rewrite forallb_forall, Forall_forall. split; intros H t T; specialize (H t T); [destruct (qleb_spec 0 (pp t)); [assumption | discriminate]|].
  destruct (qleb_spec 0 (pp t)) as [_|N]; [reflexivity|]. now destruct (N H).
Qed.
Lemma size_columns d : length (columns d) = size d.
Proof. destruct d; cbn; [reflexivity|reflexivity|apply app_length]. Qed.
Definition sizes (ds : list dist) : nat := length (flat_map columns ds).
Lemma sizes_cons d ds : sizes (d :: ds) = size d + sizes ds.
Proof. unfold sizes. cbn. now rewrite app_length, size_columns. Qed.
Lemma sizes_app a b : sizes (a ++ b) = sizes a + sizes b.
Proof. unfold sizes. rewrite flat_map_app. apply app_length. Qed.
Lemma offsets_nth : forall pre j d post, nth_error (offsets_from j (pre ++ d :: post)) (length pre) = Some (j + sizes pre).
Proof.
  induction pre as [|x pre IH]; intros j d post; cbn [app offsets_from length nth_error]; [unfold sizes; cbn; f_equal; lia|].
  rewrite IH, sizes_cons. f_equal. lia.
Qed.
Lemma nth_mid {A B} (f : A -> B) pre d post : nth_error (map f (pre ++ d :: post)) (length pre) = Some (f d).
Proof. induction pre as [|x pre IH]; [reflexivity | exact IH]. Qed.
Lemma slice_mid (a b c : list point) : slice (a ++ b ++ c) (length a) (length a + length b) = b.
Proof. unfold slice. replace (length a + length b - length a) with (length b) by lia. rewrite skipn_app, skipn_all, Nat.sub_diag. cbn [app]. rewrite skipn_O, firstn_app, Nat.sub_diag, firstn_all, firstn_O. apply app_nil_r. Qed.
Lemma turn_ok es ip pre d post v : length es = length (pre ++ d :: post) -> fit d ->
  exists v', turn (to_hdf5 es ip (pre ++ d :: post)) v (length pre) (length es) = Some (as_read d, v').
Proof.
  intros L F. set (f := to_hdf5 es ip (pre ++ d :: post)). unfold turn.
  assert (O : nth_error (f_offsets f) (length pre) = Some (sizes pre)) by exact (offsets_nth pre 0 d post).
  assert (M : nth_error (f_discrete f) (length pre) = Some (lines_of d)) by apply nth_mid.
  assert (S1 : nth_error (f_schemes f) (length pre) = Some (scheme_of d)) by apply nth_mid.
  assert (PL : f_pairs f = flat_map columns pre ++ columns d ++ flat_map columns post) by (unfold f, to_hdf5; cbn [f_pairs]; now rewrite flat_map_app).
  assert (NX : (if length pre <? length es - 1 then nth_error (f_offsets f) (length pre + 1) else Some (length (f_pairs f))) = Some (sizes pre + size d)).
  { rewrite L, app_length. cbn [length]. destruct post as [|e post].
    - cbn [length]. destruct (Nat.ltb_spec (length pre) (length pre + 1 - 1)) as [H|_]; [lia|]. rewrite PL. cbn [flat_map]. rewrite app_nil_r, app_length, size_columns. reflexivity.
    - destruct (Nat.ltb_spec (length pre) (length pre + S (length (e :: post)) - 1)) as [_|H]; [|cbn in H; lia].
      pose proof (offsets_nth (pre ++ [d]) 0 e post) as K. rewrite app_length, <- app_assoc in K. cbn [length app] in K. unfold f, to_hdf5. cbn [f_offsets]. rewrite K, sizes_app, sizes_cons. f_equal. unfold sizes at 2. cbn. lia. }
  rewrite O, M, NX. cbn zeta. replace (sizes pre + size d - sizes pre) with (size d) by lia. rewrite S1.
  assert (SP : sizes pre = length (flat_map columns pre)) by reflexivity.
  destruct d as [i l|l|w a i c]; cbn [fit lines_of size columns scheme_of as_read] in *.
  - destruct F as [N P]. destruct l as [|t l]; [congruence|]. change (0 <? 0) with false. change (0 <? length (t :: l)) with true. cbn iota. rewrite scheme_code, Nat.add_0_r, PL, SP, slice_mid.
    apply nonneg_ok in P. rewrite P. cbn. eauto.
  - destruct F as [N P]. destruct l as [|t l]; [congruence|]. rewrite Nat.ltb_irrefl. change (0 <? length (t :: l)) with true. cbn iota. rewrite PL, SP, slice_mid. apply nonneg_ok in P. rewrite P.
    rewrite Nat.eqb_refl. cbn. eauto.
  - destruct F as (PA & PC & NC & w0 & (t & r & -> & ->) & W0 & W1). apply nonneg_ok in PA, PC.
    destruct (Nat.ltb_spec 0 (length (r ++ [t]))) as [_|H]; [|rewrite app_length in H; cbn in H; lia].
    assert (LC : 0 < length c) by (destruct c; [congruence | cbn; lia]).
    destruct (Nat.ltb_spec (length (r ++ [t])) (length (r ++ [t]) + length c)) as [_|H]; [|lia].
    rewrite scheme_code, PL, SP. rewrite <- (app_assoc (r ++ [t]) c), slice_mid, PA.
    replace (length (flat_map columns pre) + length (r ++ [t])) with (length (flat_map columns pre ++ (r ++ [t]))) by apply app_length.
    replace (length (flat_map columns pre) + (length (r ++ [t]) + length c)) with (length (flat_map columns pre ++ (r ++ [t])) + length c) by (rewrite app_length; lia).
    rewrite (app_assoc (flat_map columns pre) (r ++ [t])), slice_mid, PC.
    destruct (Nat.eqb_spec (length (r ++ [t])) 0) as [H|_]; [rewrite app_length in H; cbn in H; lia|].
    destruct (Nat.eqb_spec (length (r ++ [t])) (length (r ++ [t]) + length c)) as [H|_]; [lia|].
    rewrite !last_last. destruct (qleb_spec 0 (pc t)) as [_|H]; [|now destruct (H W0)]. destruct (qleb_spec 0 (1 - pc t)) as [_|H]; [|exfalso; qclra]. cbn. eauto.
Qed.
Lemma turns_ok es ip : forall post pre v, length es = length (pre ++ post) -> Forall fit post ->
  turns (to_hdf5 es ip (pre ++ post)) v (seq (length pre) (length post)) (length es) = Some (map as_read post).
Proof.
  induction post as [|d post IH]; intros pre v L F; [reflexivity|]. inversion F as [|? ? F1 F2]; subst. cbn [length seq turns].
  destruct (turn_ok es ip pre d post v L F1) as (v' & T). rewrite T. specialize (IH (pre ++ [d]) v'). rewrite <- app_assoc in IH. cbn [app] in IH. assert (EL : length (pre ++ [d]) = S (length pre)) by (rewrite app_length; cbn; lia).
  rewrite EL in IH. rewrite IH; [reflexivity | exact L | exact F2].
Qed.
Lemma reads es ip ds : length es = length ds -> Forall fit ds -> from_hdf5 (to_hdf5 es ip ds) = Some (es, ip, map as_read ds).
Proof. intros L F. unfold from_hdf5. cbn [f_energy to_hdf5]. rewrite L at 1. pose proof (turns_ok es ip ds [] (mkVars None None) L F) as H. cbn [app length] in H. now rewrite H. Qed.
Lemma last_weight a p : lines_weight a p -> pc (last a (0, 0, 0)%Qc) = p.
Proof. intros (t & r & -> & ->). now rewrite last_last. Qed.
Lemma plainly_read d : plainly d -> as_read d = d.
Proof.
  destruct d as [i l|l|w a i c]; cbn; [intros [->| ->]; reflexivity|reflexivity|].
  intros ([->| ->] & p & W & ->); rewrite (last_weight _ _ W); reflexivity.
Qed.
Lemma round_trip es ip ds : length es = length ds -> Forall fit ds -> Forall plainly ds -> from_hdf5 (to_hdf5 es ip ds) = Some (es, ip, ds).
Proof. intros L F P. rewrite reads by assumption. f_equal. f_equal. clear -P. induction P as [|d ds H P IH]; [reflexivity|]. cbn. now rewrite IH, plainly_read. Qed.
Lemma read_points es ip ds : length es = length ds -> Forall fit ds -> exists ds', from_hdf5 (to_hdf5 es ip ds) = Some (es, ip, ds') /\ Forall2 same_points ds ds'.
Proof.
  intros L F. exists (map as_read ds). split; [now apply reads|]. clear. induction ds as [|d ds IH]; constructor; [|exact IH]. destruct d; cbn; auto.
Qed.
(** ** ACE *)
Lemma ace_kept ev inttp data d : (0 < ev)%Qc -> data <> [] -> inttp mod 10 = 1 \/ inttp mod 10 = 2 -> inttp / 10 <= length data ->
  nonnegative data -> (0 < inttp / 10 < length data -> lines_weight (firstn (inttp / 10) data) (qsum (map pp (firstn (inttp / 10) data))) /\ (qsum (map pp (firstn (inttp / 10) data)) <= 1)%Qc) ->
  from_ace_one ev inttp data = Some d -> fit d /\ plainly d.
Proof.
  intros EV N I LE P W H. unfold from_ace_one in H.
  assert (Q : (inttp - inttp mod 10) / 10 = inttp / 10).
  { pose proof (Nat.div_mod_eq inttp 10) as E. replace (inttp - inttp mod 10) with (inttp / 10 * 10) by lia. now apply Nat.div_mul. }
  rewrite Q in H. set (n := inttp / 10) in *. set (D := map (fun t => (px t * ev, pp t, pc t)%Qc) data) in *.
  set (s := match inttp mod 10 with 1 => Histogram | _ => LinLin end) in *. assert (PS : plain s) by (destruct I as [E|E]; unfold s; rewrite E; [left | right]; reflexivity).
  assert (LD : length D = length data) by apply map_length.
  assert (FD : firstn n D = map (fun t => (px t * ev, pp t, pc t)%Qc) (firstn n data)) by (unfold D; now rewrite firstn_map).
  assert (MP : map pp (firstn n D) = map pp (firstn n data)) by (rewrite FD, map_map; reflexivity).
  destruct (nonneg (map (fun t => (px t, pp t / ev, pc t)%Qc) (skipn n D))) eqn:E1; [|discriminate]. apply nonneg_ok in E1.
  destruct (Nat.ltb_spec 0 n) as [N0|N0].
  - destruct (nonneg (firstn n D)) eqn:E2; [|discriminate]. apply nonneg_ok in E2.
    assert (NE : firstn n D <> []) by (intros E; apply (f_equal (@length point)) in E; rewrite firstn_length, LD in E; destruct data; [congruence|]; cbn in *; lia).
    destruct (Nat.eqb_spec n (length D)) as [E3|E3].
    + injection H as <-. split; [split; assumption | exact Logic.I].
    + injection H as <-. assert (LT : 0 < n < length data) by lia. destruct (W LT) as [(t & r & Er & Ew) W1]. rewrite MP. destruct (qleb_spec (qsum (map pp (firstn n data))) 1) as [_|X]; [|now destruct (X W1)].
      assert (LWD : lines_weight (firstn n D) (qsum (map pp (firstn n data)))).
      { rewrite FD, Er, map_app. exists (px t * ev, pp t, pc t)%Qc, (map (fun t => (px t * ev, pp t, pc t)%Qc) r). split; [reflexivity|]. rewrite <- Er. exact Ew. }
      split; [|split; [exact PS | eauto]]. split; [exact E2|]. split; [exact E1|]. split.
      * intros E. apply (f_equal (@length point)) in E. rewrite map_length, skipn_length, LD in E. cbn [length] in E. lia.
      * exists (qsum (map pp (firstn n data))). split; [exact LWD|]. split; [|exact W1]. assert (PF : nonnegative (firstn n data)). { unfold nonnegative in *. rewrite Forall_forall in *. intros x X. apply P. rewrite <- (firstn_skipn n data). apply in_app_iff. now left. }
        clear -PF. induction PF as [|x l Hx Hl IH]; [apply Qcle_refl|]. cbn [map]. rewrite qsum_cons. qclra.
  - injection H as <-. split; [|exact PS]. split; [|exact E1]. assert (Z0 : n = 0) by lia. rewrite Z0. change (skipn 0 D) with D. intros E. apply (f_equal (@length point)) in E. unfold D in E. rewrite !map_length in E. destruct data; [congruence | discriminate].
Qed.
Lemma ace_some ev inttp data : (0 < ev)%Qc -> nonnegative data -> exists d, from_ace_one ev inttp data = Some d.
Proof.
  intros EV P. unfold from_ace_one. set (D := map (fun t => (px t * ev, pp t, pc t)%Qc) data). set (n := (inttp - inttp mod 10) / 10).
  assert (PD : nonnegative D) by (unfold D, nonnegative in *; rewrite Forall_forall in *; intros x X; apply in_map_iff in X; destruct X as (t & <- & T); exact (P t T)).
  assert (PC : nonneg (map (fun t => (px t, pp t / ev, pc t)%Qc) (skipn n D)) = true).
  { apply nonneg_ok. unfold nonnegative in *. rewrite Forall_forall in *. intros x X. apply in_map_iff in X. destruct X as (t & <- & T). cbn. assert (Q : (0 <= pp t)%Qc) by (apply PD; rewrite <- (firstn_skipn n D); apply in_app_iff; now right).
    unfold pp in *. cbn. change (0 <= pp t / ev)%Qc. apply Qcnot_lt_le. intros H. apply (Qcmult_lt_compat_r _ _ ev EV) in H. rewrite Qcmult_0_l in H. unfold pp in H. replace (snd (fst t) / ev * ev)%Qc with (snd (fst t)) in H by (field; intros E; subst; discriminate). apply (Qclt_not_le _ _ H Q). }
  assert (PF : nonneg (firstn n D) = true).
  { apply nonneg_ok. unfold nonnegative in *. rewrite Forall_forall in *. intros x X. apply PD. rewrite <- (firstn_skipn n D). apply in_app_iff. now left. }
  cbn zeta. rewrite PC, PF. destruct (0 <? n); [destruct (n =? length D)|]; eauto.
Qed.
Lemma ace_values ev i ls cs inttp d : (0 < ev)%Qc -> inttp = 10 * length ls + i -> i < 10 ->
  from_ace_one ev inttp (ls ++ cs) = Some d -> ace_dist ev (if i =? 1 then Histogram else LinLin) ls cs d.
Proof.
  intros EV E I H. unfold from_ace_one in H.
  assert (M : inttp mod 10 = i) by (rewrite E, Nat.add_comm, Nat.mul_comm, Nat.mod_add by discriminate; now apply Nat.mod_small).
  rewrite M in H. replace (inttp - i) with (length ls * 10) in H by lia. rewrite Nat.div_mul in H by discriminate.
  replace (match i with 1 => Histogram | _ => LinLin end) with (if i =? 1 then Histogram else LinLin) in H by (destruct i as [|[|i]]; reflexivity).
  set (s := if i =? 1 then _ else _) in *. set (g := fun t => (px t * ev, pp t, pc t)%Qc) in *. set (h := fun t : point => (px t, pp t / ev, pc t)%Qc) in *.
  rewrite map_app in H. assert (LL : length (map g ls) = length ls) by apply map_length.
  assert (F1 : firstn (length ls) (map g ls ++ map g cs) = map g ls) by (rewrite <- LL; apply firstn_app_exact || (rewrite firstn_app, firstn_all, Nat.sub_diag; apply app_nil_r)).
  assert (F2 : skipn (length ls) (map g ls ++ map g cs) = map g cs) by (rewrite <- LL; rewrite skipn_app, skipn_all, Nat.sub_diag; reflexivity).
  rewrite F1, F2, app_length, !map_length in H.
  assert (A : Forall2 (in_ev ev) ls (map g ls)) by (clear; induction ls; cbn; constructor; [repeat split | assumption]).
  assert (C : Forall2 (per_ev ev) cs (map h (map g cs))).
  { clear -EV. induction cs as [|t cs IH]; cbn; constructor; [|exact IH]. unfold per_ev, h, g, px, pp, pc. cbn. split; [reflexivity|]. split; [|reflexivity]. field. intros X. rewrite X in EV. discriminate. }
  destruct (nonneg (map h (map g cs))); [|discriminate]. destruct (Nat.ltb_spec 0 (length ls)) as [N|N].
  - assert (LN : ls <> []) by (intros ->; cbn in N; lia). destruct (nonneg (map g ls)); [|discriminate]. destruct (Nat.eqb_spec (length ls) (length ls + length cs)) as [X|X]; injection H as <-; cbn [ace_dist].
    + split; [exact LN|]. split; [destruct cs; [reflexivity | cbn in X; lia] | exact A].
    + split; [exact LN|]. split; [intros ->; cbn in X; lia|]. split; [reflexivity|]. split; [exact A|]. split; [exact C|]. eexists. split; [reflexivity|]. cbn zeta. rewrite map_map. change (fun x => pp (g x)) with pp.
      destruct (qleb_spec (qsum (map pp ls)) 1) as [Y|Y]; [left; auto | right; split; [now apply Qcnot_le_lt | reflexivity]].
  - injection H as <-. assert (L0 : ls = []) by (destruct ls; [reflexivity | cbn in N; lia]). cbn [ace_dist]. auto.
Qed.
