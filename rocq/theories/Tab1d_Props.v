(** C39: tabulated functions, their values and sums; C40: their integrals. *)
From Coq Require Import Reals ZArith List Lia Lra Bool.
From Coquelicot Require Import Coquelicot.
From Verif Require Import Tab1d_Model Tab1d_Spec Tab1d_Proofs Tab1dSum_Proofs Tab1dInt_Proofs.
Import ListNotations.
Local Open Scope R_scope.

(** An example table with two regions: histogram up to 2, then linear. *)
Definition demo : tab1 := {| xs := [1; 2; 4; 6]; ys := [3; 5; 7; 6]; bps := [2; 4]%Z; schemes := [1; 2]%Z |}.
Lemma demo_table : table demo.
Proof.
  repeat split; cbn [demo xs ys bps schemes length last nth]; try lia.
  - intros [|[|[|i]]] Hi; cbn in *; try lia; lra.
  - intros [|[|k]] Hk; cbn in *; lia.
  - intros [|k] Hk; cbn in *; lia.
Qed.
Lemma demo_follows0 : follows demo 0 1.
Proof. exists 0%nat. cbn. repeat split; try lia. Qed.
Lemma demo_follows1 : follows demo 1 2.
Proof. exists 1%nat. cbn. repeat split; try lia. intros [|k]; cbn; lia. Qed.
Ltac absl := unfold close; cbn [pow]; unfold Rabs; repeat destruct (Rcase_abs _); lra.

(** Between two points the value satisfies the law of the segment's region. *)
Theorem C39_law : forall t i s e, table t -> (S i < length (xs t))%nat -> follows t i s ->
  let xi := nth i (xs t) 0 in let xi1 := nth (S i) (xs t) 0 in let yi := nth i (ys t) 0 in let yi1 := nth (S i) (ys t) 0 in
  loggable s xi yi yi1 -> xi <= e < xi1 -> ~ close e (nth 0 (xs t) 0) -> ~ close e (last (xs t) 0) ->
  exists y, call_at t e = Some y /\ law xi yi xi1 yi1 e y s.
Proof.
  intros t i s e Ht Hi Hf xi xi1 yi yi1 Hl He C1 C2. eexists. split; [exact (call_mid t Ht i s e Hi Hf He)|].
  rewrite (near_not _ _ C1), (near_not _ _ C2). now apply segment_law.
Qed.
Print Assumptions C39_law.
Example C39_law_hypotheses_met : table demo /\ follows demo 1 2 /\ loggable 2 2 5 7 /\ ~ close 3 1 /\ ~ close 3 6 /\
  call_at demo 3 = Some 6.
Proof.
  assert (L : loggable 2 2 5 7) by (repeat split; [lia|lia|intros [?|?]; lia|intros; lra|intros; lra]).
  assert (N1 : ~ close 3 1) by absl. assert (N2 : ~ close 3 6) by absl.
  split; [exact demo_table|]. split; [exact demo_follows1|]. do 3 (split; [assumption|]).
  rewrite (call_mid demo demo_table 1 2 3); [|cbn; lia|exact demo_follows1|cbn; lra]. cbn [demo xs ys nth last].
  rewrite (near_not _ _ N1), (near_not _ _ N2). cbn. f_equal. lra.
Qed.

(** Tabulated points read their ordinates, ends included. *)
Theorem C39_grid : forall t i s, table t -> (S i < length (xs t))%nat -> follows t i s ->
  let xi := nth i (xs t) 0 in
  loggable s xi (nth i (ys t) 0) (nth (S i) (ys t) 0) -> ~ close xi (last (xs t) 0) ->
  i = 0%nat \/ ~ close xi (nth 0 (xs t) 0) ->
  call_at t xi = Some (nth i (ys t) 0).
Proof.
  intros t i s Ht Hi Hf xi Hl C2 C1. pose proof Ht as (_ & _ & Hx & _). pose proof (Hx i Hi) as Hlt.
  rewrite (call_mid t Ht i s xi Hi Hf) by (unfold xi; lra). rewrite (near_not _ _ C2).
  destruct C1 as [->|C1].
  - unfold xi. now rewrite (proj2 (near_close _ _)) by apply close_refl.
  - rewrite (near_not _ _ C1). f_equal. unfold xi. now apply segment_at_left.
Qed.
Print Assumptions C39_grid.
Theorem C39_last : forall t, table t -> call_at t (last (xs t) 0) = Some (last (ys t) 0).
Proof. intros t Ht. rewrite (call_out t Ht) by (right; lra). now rewrite (proj2 (near_close _ _)) by apply close_refl. Qed.
Print Assumptions C39_last.
Example C39_grid_hypotheses_met : call_at demo 2 = Some 5 /\ call_at demo 1 = Some 3 /\ call_at demo 6 = Some 6.
Proof.
  split; [|split].
  - apply (C39_grid demo 1 2 demo_table ltac:(cbn; lia) demo_follows1); cbn [demo xs ys nth last].
    + repeat split; [lia|lia|intros [?|?]; lia|intros; lra|intros; lra].
    + absl.
    + right. absl.
  - apply (C39_grid demo 0 1 demo_table ltac:(cbn; lia) demo_follows0); cbn [demo xs ys nth last].
    + repeat split; [lia|lia|intros [?|?]; lia|intros; lra|intros; lra].
    + absl.
    + now left.
  - exact (C39_last demo demo_table).
Qed.

(** Every value inside the grid lies between the neighbouring ordinates, for all
    five schemes. *)
Theorem C39_between : forall t i s e y, table t -> (S i < length (xs t))%nat -> follows t i s ->
  let yi := nth i (ys t) 0 in let yi1 := nth (S i) (ys t) 0 in
  loggable s (nth i (xs t) 0) yi yi1 -> nth i (xs t) 0 <= e < nth (S i) (xs t) 0 ->
  ~ close e (nth 0 (xs t) 0) -> ~ close e (last (xs t) 0) -> call_at t e = Some y -> Rmin yi yi1 <= y <= Rmax yi yi1.
Proof.
  intros t i s e y Ht Hi Hf yi yi1 Hl He C1 C2 Hy.
  destruct (C39_law t i s e Ht Hi Hf Hl He C1 C2) as (y' & Hy' & HL). assert (y' = y) as -> by congruence.
  exact (law_between s _ _ _ _ e y Hl He HL).
Qed.
Print Assumptions C39_between.
Example C39_between_hypotheses_met : call_at demo 3 = Some 6 /\ Rmin 5 7 <= 6 <= Rmax 5 7.
Proof. split; [apply C39_law_hypotheses_met|]. rewrite Rmin_left, Rmax_right by lra. lra. Qed.

(** Outside the grid, and not close to its ends, the value is zero. *)
Theorem C39_outside : forall t e, table t -> e < nth 0 (xs t) 0 \/ last (xs t) 0 < e ->
  ~ close e (nth 0 (xs t) 0) -> ~ close e (last (xs t) 0) -> call_at t e = Some 0.
Proof.
  intros t e Ht He C1 C2. rewrite (call_out t Ht) by (destruct He; [left|right]; lra). now rewrite (near_not _ _ C1), (near_not _ _ C2).
Qed.
Print Assumptions C39_outside.
Example C39_outside_hypotheses_met : call_at demo 7 = Some 0 /\ call_at demo (-1) = Some 0.
Proof. split; apply C39_outside; try exact demo_table; cbn [demo xs nth last]; first [absl|right; lra|left; lra]. Qed.

(** Close to an end (five digits) the value is the end's ordinate, whatever the
    law says; so neither the law nor the zero outside is exact. *)
Theorem C39_near_ends : forall t e, table t ->
  (close e (last (xs t) 0) -> call_at t e = Some (last (ys t) 0)) /\
  (~ close e (last (xs t) 0) -> close e (nth 0 (xs t) 0) -> call_at t e = Some (nth 0 (ys t) 0)).
Proof.
  intros t e Ht.
  assert (H : call_at t e = Some (if near e (last (xs t) 0) then last (ys t) 0 else if near e (nth 0 (xs t) 0) then nth 0 (ys t) 0 else val t e)).
  { destruct (Rlt_dec e (nth 0 (xs t) 0)) as [L|L]; [|destruct (Rle_dec (last (xs t) 0) e) as [M|M]].
    - rewrite (val_call t e Ht). unfold val. rewrite (call_out t Ht) by auto. now destruct (near e (last (xs t) 0)), (near e (nth 0 (xs t) 0)).
    - rewrite (val_call t e Ht). unfold val. rewrite (call_out t Ht) by auto. now destruct (near e (last (xs t) 0)), (near e (nth 0 (xs t) 0)).
    - destruct (locate (xs t) e) as (i & Hi & He); [apply Ht|lra|]. destruct (follows_exists t Ht i Hi) as (s & Hs).
      rewrite (val_call t e Ht). unfold val. rewrite (call_mid t Ht i s e Hi Hs He). now destruct (near e (last (xs t) 0)), (near e (nth 0 (xs t) 0)). }
  split.
  - intros C. now rewrite H, (proj2 (near_close _ _) C).
  - intros C2 C1. now rewrite H, (near_not _ _ C2), (proj2 (near_close _ _) C1).
Qed.
Print Assumptions C39_near_ends.
Theorem C39_exact_refuted : exists t e e', table t /\
  (1 < e < 2 /\ nth 0 (xs t) 0 = 1 /\ nth 1 (xs t) 0 = 2 /\ follows t 0 2 /\ exists y, call_at t e = Some y /\ ~ law 1 (nth 0 (ys t) 0) 2 (nth 1 (ys t) 0) e y 2) /\
  (last (xs t) 0 < e' /\ call_at t e' = Some 1).
Proof.
  set (t := tabulated [1; 2] [0; 1]).
  assert (T : table t) by (apply tabulated_table; cbn; try lia; intros [|[|i]] Hi; cbn in *; try lia; lra).
  exists t, (1 + / 1000000), (2 + / 1000000). split; [exact T|]. split.
  - split; [lra|]. split; [reflexivity|]. split; [reflexivity|]. split; [exists 0%nat; cbn; repeat split; try lia; intros; lia|].
    exists 0. split.
    + apply (proj2 (C39_near_ends t _ T)); cbn [t tabulated xs nth last]; absl.
    + cbn [t tabulated ys nth]. intros L. inversion L. lra.
  - split; [cbn [t tabulated xs last]; lra|]. apply (proj1 (C39_near_ends t _ T)). cbn [t tabulated xs last]. absl.
Qed.
Print Assumptions C39_exact_refuted.

(** Arrays of floats are evaluated entry by entry, but arrays of integers give
    truncated values. *)
Theorem C39_arrays : forall t es, table t -> exists vs, call t (Floats es) = Some vs /\ length vs = length es /\
  forall i, (i < length es)%nat -> call_at t (nth i es 0) = Some (nth i vs 0).
Proof.
  intros t es Ht. destruct (all_some_ok (call_at t) es) as (vs & Ev). { intros e _. now apply table_call. }
  exists vs. split; [exact Ev|]. destruct (all_some_map _ 0 _ _ Ev) as [L V]. split; [exact L|]. intros i Hi. now apply V.
Qed.
Print Assumptions C39_arrays.
Theorem C39_integer_arrays_refuted : exists t n, table t /\ call t (Ints [n]) = Some [0] /\
  call t (Scalar (IZR n)) = Some [1 / 2] /\ call t (Floats [IZR n]) = Some [1 / 2].
Proof.
  set (t := tabulated [0; 2] [0; 1]).
  assert (T : table t) by (apply tabulated_table; cbn; try lia; intros [|[|i]] Hi; cbn in *; try lia; lra).
  assert (V : call_at t 1 = Some (1 / 2)).
  { rewrite (call_mid t T 0 2 1); [|cbn; lia|exists 0%nat; cbn; repeat split; try lia; intros; lia|cbn; lra]. cbn [t tabulated xs ys nth last].
    rewrite !near_not by absl. cbn. f_equal. lra. }
  exists t, 1%Z. split; [exact T|]. cbn [call map all_some option_map]. rewrite V. split; [|split; reflexivity]. cbn [option_map all_some map].
  do 2 f_equal. unfold trunc. destruct (Rle_dec 0 (1 / 2)); [|lra].
  assert (E : Int_part (1 / 2) = 0%Z); [|now rewrite E].
  destruct (base_Int_part (1 / 2)) as [B1 B2]. assert (L1 : IZR (Int_part (1 / 2)) < IZR 1) by lra. assert (L2 : IZR (-1) < IZR (Int_part (1 / 2))) by lra.
  apply lt_IZR in L1. apply lt_IZR in L2. lia.
Qed.
Print Assumptions C39_integer_arrays_refuted.

(** The sum of linear tables over the same range is pointwise at every abscissa,
    outside the range and close to its ends included. *)
Theorem C39_sum_pointwise : forall a b ts, ts <> [] ->
  (forall t, In t ts -> table t /\ (forall s, In s (schemes t) -> s = 2%Z) /\ nth 0 (xs t) 0 = a /\ last (xs t) 0 = b) ->
  ~ close a b -> (forall t u, In t ts -> In u (xs t) -> u = a \/ u = b \/ (~ close u a /\ ~ close u b)) ->
  exists g, sum_functions (map Tab ts) = Some (Tab g) /\
    forall e, exists vs, Forall2 (fun t v => call_at t e = Some v) ts vs /\ call_at g e = Some (fold_right Rplus 0 vs).
Proof.
  intros a b ts Hne H Hab Hpts.
  destruct (sum_between a b ts) as (g & Eg & _ & V); try assumption.
  - intros t Ht. destruct (H t Ht) as (T & L & _). now split.
  - intros t Ht. apply (H t Ht).
  - exists g. split; [exact Eg|]. intros e. exists (map (fun t => val t e) ts). split.
    + clear - H. induction ts as [|t ts IH]; constructor; [apply val_call, H; now left|]. apply IH. intros u Hu. apply H. now right.
    + rewrite V. apply sum_at_tabs. intros t Ht. apply (H t Ht).
Qed.
Print Assumptions C39_sum_pointwise.
Example C39_sum_pointwise_hypotheses_met :
  let t1 := tabulated [1; 3] [0; 4] in let t2 := tabulated [1; 2; 3] [5; 1; 1] in
  exists g, sum_functions [Tab t1; Tab t2] = Some (Tab g) /\ call_at g (5 / 2) = Some (3 + 1).
Proof.
  cbv zeta. set (t1 := tabulated [1; 3] [0; 4]). set (t2 := tabulated [1; 2; 3] [5; 1; 1]).
  assert (T1 : table t1) by (apply tabulated_table; cbn; try lia; intros [|[|i]] Hi; cbn in *; try lia; lra).
  assert (T2 : table t2) by (apply tabulated_table; cbn; try lia; intros [|[|[|i]]] Hi; cbn in *; try lia; lra).
  destruct (C39_sum_pointwise 1 3 [t1; t2]) as (g & Eg & V).
  - discriminate.
  - intros t [<-|[<-|[]]]; (split; [assumption|]); (split; [intros s [<-|[]]; reflexivity|]); split; reflexivity.
  - absl.
  - intros t u [<-|[<-|[]]]; cbn [t1 t2 tabulated xs In].
    + intros [<-|[<-|[]]]; auto.
    + intros [<-|[<-|[<-|[]]]]; auto. right. right. split; absl.
  - exists g. split; [exact Eg|]. destruct (V (5 / 2)) as (vs & F & E). rewrite E. f_equal.
    assert (V1 : call_at t1 (5 / 2) = Some 3).
    { rewrite (call_mid t1 T1 0 2); [|cbn; lia|exists 0%nat; cbn; repeat split; try lia; intros; lia|cbn; lra].
      cbn [t1 tabulated xs ys nth last]. rewrite !near_not by absl. cbn. f_equal. lra. }
    assert (V2 : call_at t2 (5 / 2) = Some 1).
    { rewrite (call_mid t2 T2 1 2); [|cbn; lia|exists 0%nat; cbn; repeat split; try lia; intros; lia|cbn; lra].
      cbn [t2 tabulated xs ys nth last]. rewrite !near_not by absl. cbn. f_equal. lra. }
    inversion F as [|? v1 ? vs1 F1 F' E1 E2]. subst. inversion F' as [|? v2 ? vs2 F2 F'' E1 E2]. subst. inversion F''. subst.
    cbn. assert (v1 = 3) as -> by congruence. assert (v2 = 1) as -> by congruence. ring.
Qed.

(** With any ranges, and polynomials among the summands, the sum is tabulated on
    all grid points and exact there. *)
Theorem C39_sum_grid : forall fs g, (forall t, In (Tab t) fs -> table t) -> sum_functions fs = Some (Tab g) ->
  (forall u, In u (xs g) <-> exists t, In (Tab t) fs /\ In u (xs t)) /\ increasing (xs g) /\ length (ys g) = length (xs g) /\
  (forall i, (i < length (xs g))%nat -> sum_at fs (nth i (xs g) 0) = Some (nth i (ys g) 0)) /\
  (~ close (nth 0 (xs g) 0) (last (xs g) 0) -> forall u, In u (xs g) ->
    u = nth 0 (xs g) 0 \/ u = last (xs g) 0 \/ (~ close u (nth 0 (xs g) 0) /\ ~ close u (last (xs g) 0)) ->
    call_at g u = sum_at fs u).
Proof. exact sum_grid. Qed.
Print Assumptions C39_sum_grid.
(** Sums of polynomials only are polynomials, pointwise. *)
Theorem C39_sum_polynomials : forall cs x, cs <> [] -> exists c, sum_functions (map Poly cs) = Some (Poly c) /\
  horner c x = total (map (fun c => horner c x) cs) /\ sum_at (map Poly cs) x = Some (horner c x).
Proof. exact sum_polys. Qed.
Print Assumptions C39_sum_polynomials.
Example C39_sum_polynomials_hypotheses_met : exists c, sum_functions [Poly [1; 2]; Poly [3]] = Some (Poly c) /\ horner c 5 = 14.
Proof. exists [1 + (3 + 0); 2]. split; [cbn; repeat f_equal; lra|cbn; lra]. Qed.

(** Two linear tables with different first points: the sum already rises below
    the second table's first point, where that table is zero. *)
Definition t_low := tabulated [1; 3; 5] [1; 1; 1].
Definition t_high := tabulated [3; 5] [1; 1].
Theorem C39_sum_pointwise_refuted : exists t t' g e, table t /\ table t' /\
  sum_functions [Tab t; Tab t'] = Some (Tab g) /\ call_at t e = Some 1 /\ call_at t' e = Some 0 /\ call_at g e = Some (3 / 2).
Proof.
  assert (T1 : table t_low) by (apply tabulated_table; cbn; try lia; intros [|[|[|i]]] Hi; cbn in *; try lia; lra).
  assert (T2 : table t_high) by (apply tabulated_table; cbn; try lia; intros [|[|i]] Hi; cbn in *; try lia; lra).
  assert (C : forall e, call_at t_low e = Some (val t_low e) /\ call_at t_high e = Some (val t_high e)) by (intros; split; now apply val_call).
  assert (A1 : call_at t_low 1 = Some 1) by (apply (C39_near_ends t_low 1 T1); cbn [t_low tabulated xs nth last]; absl).
  assert (A3 : call_at t_low 3 = Some 1).
  { rewrite (call_mid t_low T1 1 2); [|cbn; lia|exists 0%nat; cbn; repeat split; try lia; intros; lia|cbn; lra].
    cbn [t_low tabulated xs ys nth last]. rewrite !near_not by absl. cbn. f_equal. lra. }
  assert (A5 : call_at t_low 5 = Some 1) by exact (C39_last t_low T1).
  assert (B1 : call_at t_high 1 = Some 0) by (apply (C39_outside t_high 1 T2); cbn [t_high tabulated xs nth last]; [left; lra|absl|absl]).
  assert (B3 : call_at t_high 3 = Some 1) by (apply (C39_near_ends t_high 3 T2); cbn [t_high tabulated xs nth last]; absl).
  assert (B5 : call_at t_high 5 = Some 1) by exact (C39_last t_high T2).
  assert (G : union1d [1; 3; 5] [3; 5] = [1; 3; 5]).
  { unfold union1d. cbn [app fold_right ins].
    repeat (match goal with
            | |- context [Req_EM_T ?a ?b] => destruct (Req_EM_T a b); try (exfalso; lra)
            | |- context [Rlt_dec ?a ?b] => destruct (Rlt_dec a b); try (exfalso; lra)
            end; cbn [ins]). reflexivity. }
  set (g := tabulated [1; 3; 5] [1; 2; 2]).
  assert (TG : table g) by (apply tabulated_table; cbn; try lia; intros [|[|[|i]]] Hi; cbn in *; try lia; lra).
  exists t_low, t_high, g, 2. split; [exact T1|]. split; [exact T2|]. split.
  { unfold sum_functions. cbn [grids t_low t_high tabulated schemes forallb Z.eqb Pos.eqb andb option_map xs fold_left]. rewrite G.
    unfold sum_at. fold t_low t_high. cbn [map func_at]. rewrite A1, A3, A5, B1, B3, B5. cbn. unfold g. repeat f_equal; lra. }
  split; [|split].
  - rewrite (call_mid t_low T1 0 2); [|cbn; lia|exists 0%nat; cbn; repeat split; try lia; intros; lia|cbn; lra].
    cbn [t_low tabulated xs ys nth last]. rewrite !near_not by absl. cbn. f_equal. lra.
  - apply (C39_outside t_high 2 T2); cbn [t_high tabulated xs nth last]; [left; lra|absl|absl].
  - rewrite (call_mid g TG 0 2); [|cbn; lia|exists 0%nat; cbn; repeat split; try lia; intros; lia|cbn; lra].
    cbn [g tabulated xs ys nth last]. rewrite !near_not by absl. cbn. f_equal. lra.
Qed.
Print Assumptions C39_sum_pointwise_refuted.

(** ** C40 *)
(** The cumulative integral has one entry per point and starts at 0; while no NaN
    has appeared, each increment is the Riemann integral of every function that
    follows the segment's law - for every scheme but linear-log. *)
Theorem C40_increments : forall t, table t -> exists I, integral t = Some I /\ length I = length (xs t) /\ nth 0 I None = Some 0 /\
  forall i s u v f, (S i < length (xs t))%nat -> follows t i s -> s <> 3%Z ->
    let x0 := nth i (xs t) 0 in let x1 := nth (S i) (xs t) 0 in let y0 := nth i (ys t) 0 in let y1 := nth (S i) (ys t) 0 in
    loggable s x0 y0 y1 -> (forall x, x0 < x < x1 -> law x0 y0 x1 y1 x (f x) s) ->
    nth i I None = Some u -> nth (S i) I None = Some v -> is_RInt f x0 x1 (v - u).
Proof.
  intros t Ht. destruct (integral_steps t Ht) as (I & E & L & Z0 & V). exists I. do 3 (split; [assumption|]).
  intros i s u v f Hi Hf Hs x0 x1 y0 y1 Hl Hlaw Hu Hv. pose proof (V i s Hi Hf) as Q. rewrite Hu, Hv in Q.
  destruct (area s _ _ _ _) as [a|] eqn:Ea; [|discriminate]. cbn [nadd] in Q. injection Q as ->.
  replace (u + a - u) with a by ring. destruct Ht as (_ & _ & Hx & _). exact (area_integral s f x0 x1 y0 y1 a Hl Hs (Hx i Hi) Hlaw Ea).
Qed.
Print Assumptions C40_increments.
(** NaN appears exactly at a constant log-linear segment, or a log-log segment on
    which x*y is constant, and then stays. *)
Theorem C40_nan : forall t I i s, table t -> integral t = Some I -> (S i < length (xs t))%nat -> follows t i s ->
  let x0 := nth i (xs t) 0 in let x1 := nth (S i) (xs t) 0 in let y0 := nth i (ys t) 0 in let y1 := nth (S i) (ys t) 0 in
  loggable s x0 y0 y1 ->
  (nth (S i) I None = None <-> nth i I None = None \/ (s = 4%Z /\ y1 = y0) \/ (s = 5%Z /\ y1 * x1 = y0 * x0)).
Proof.
  intros t I i s Ht E Hi Hf x0 x1 y0 y1 Hl. destruct (integral_steps t Ht) as (I' & E' & _ & _ & V).
  assert (I' = I) as -> by congruence. rewrite (V i s Hi Hf). destruct Ht as (_ & _ & Hx & _).
  fold x0 x1 y0 y1. rewrite <- (area_nan s x0 x1 y0 y1 Hl (Hx i Hi)).
  destruct (nth i I None), (area s x0 x1 y0 y1); cbn; split; intros H; try discriminate; auto; destruct H; discriminate.
Qed.
Print Assumptions C40_nan.
(** Non-negative data without linear-log regions: the integral never decreases. *)
Theorem C40_monotone : forall t I i s u v, table t -> integral t = Some I -> (S i < length (xs t))%nat -> follows t i s -> s <> 3%Z ->
  loggable s (nth i (xs t) 0) (nth i (ys t) 0) (nth (S i) (ys t) 0) -> 0 <= nth i (ys t) 0 -> 0 <= nth (S i) (ys t) 0 ->
  nth i I None = Some u -> nth (S i) I None = Some v -> u <= v.
Proof.
  intros t I i s u v Ht E Hi Hf Hs Hl P0 P1 Hu Hv. destruct (C40_increments t Ht) as (I' & E' & _ & _ & V).
  assert (I' = I) as -> by congruence. pose proof Ht as (_ & _ & Hx & _). pose proof (Hx i Hi) as Hlt.
  set (f := fun x => segment s 0 x (nth i (xs t) 0) (nth (S i) (xs t) 0) (nth i (ys t) 0) (nth (S i) (ys t) 0)).
  assert (Hlaw : forall x, nth i (xs t) 0 < x < nth (S i) (xs t) 0 -> law (nth i (xs t) 0) (nth i (ys t) 0) (nth (S i) (xs t) 0) (nth (S i) (ys t) 0) x (f x) s).
  { intros x Hx'. apply segment_law; [assumption|lra]. }
  pose proof (V i s u v f Hi Hf Hs Hl Hlaw Hu Hv) as R. enough (0 <= v - u) by lra.
  refine (is_RInt_ge_0 f _ _ _ _ R _); [lra|].
  intros x Hx'. assert (Hx2 : nth i (xs t) 0 <= x < nth (S i) (xs t) 0) by lra.
  pose proof (law_between s _ _ _ _ x (f x) Hl Hx2 (Hlaw x Hx')) as [B _].
  eapply Rle_trans; [|exact B]. unfold Rmin. destruct (Rle_dec _ _); assumption.
Qed.
Print Assumptions C40_monotone.
(** The linear-log formula is the integral only for a zero left ordinate or a
    segment of unit width. *)
Theorem C40_linear_log : forall t i u v f, table t -> (S i < length (xs t))%nat -> follows t i 3 ->
  let x0 := nth i (xs t) 0 in let x1 := nth (S i) (xs t) 0 in let y0 := nth i (ys t) 0 in let y1 := nth (S i) (ys t) 0 in
  0 < x0 -> (forall x, x0 < x < x1 -> law x0 y0 x1 y1 x (f x) 3) ->
  forall I, integral t = Some I -> nth i I None = Some u -> nth (S i) I None = Some v ->
  (is_RInt f x0 x1 (v - u) <-> y0 = 0 \/ x1 - x0 = 1).
Proof.
  intros t i u v f Ht Hi Hf x0 x1 y0 y1 Hx0 Hlaw I E Hu Hv. destruct (integral_steps t Ht) as (I' & E' & _ & _ & V).
  assert (I' = I) as -> by congruence. pose proof (V i 3%Z Hi Hf) as Q. rewrite Hu, Hv in Q.
  fold x0 x1 y0 y1 in Q. destruct (area 3 x0 x1 y0 y1) as [a|] eqn:Ea; [|discriminate]. cbn [nadd] in Q. injection Q as ->.
  replace (u + a - u) with a by ring. pose proof Ht as (_ & _ & Hx & _). exact (area3_integral f x0 x1 y0 y1 a Hx0 (Hx i Hi) Hlaw Ea).
Qed.
Print Assumptions C40_linear_log.

(** The hypotheses met by the example table: 0, 3, 3 + 12 = 15, 15 + 13 = 28. *)
Example C40_increments_hypotheses_met : integral demo = Some [Some 0; Some 3; Some 15; Some 28].
Proof.
  assert (A1 : area 1 1 2 3 5 = Some 3) by (cbn [area Z.eqb Pos.eqb]; f_equal; ring).
  assert (A2 : area 2 2 4 5 7 = Some 12) by (cbn [area Z.eqb Pos.eqb]; f_equal; field).
  assert (A3 : area 2 4 6 7 6 = Some 13) by (cbn [area Z.eqb Pos.eqb]; f_equal; field).
  assert (E : integral demo = Some (Some 0 :: cumsum (Some 0) [area 1 1 2 3 5; area 2 2 4 5 7; area 2 4 6 7 6])) by reflexivity.
  rewrite E, A1, A2, A3. cbn [cumsum nadd].
  replace (0 + 3) with 3 by lra. replace (3 + 12) with 15 by lra. now replace (15 + 13) with 28 by lra.
Qed.
Example C40_linear_log_hypotheses_met : let t := {| xs := [1; 3]; ys := [2; 2]; bps := [2]%Z; schemes := [3]%Z |} in
  table t /\ follows t 0 3 /\ exists I, integral t = Some I /\ nth 1 I None = Some 2 /\ is_RInt (fun _ => 2) 1 3 4 /\ ~ is_RInt (fun _ => 2) 1 3 2.
Proof.
  cbv zeta. set (t := {| xs := [1; 3]; ys := [2; 2]; bps := [2]%Z; schemes := [3]%Z |}).
  assert (T : table t). { repeat split; cbn; try lia; intros [|[|i]] Hi; cbn in *; try lia; lra. }
  assert (F : follows t 0 3) by (exists 0%nat; cbn; repeat split; try lia; intros; lia).
  assert (L : forall x, 1 < x < 3 -> law 1 2 3 2 x 2 3) by (intros x Hx; apply law3; ring).
  split; [exact T|]. split; [exact F|]. eexists. split; [reflexivity|].
  assert (V : nth 1 (Some 0 :: cumsum (Some 0) (paste (repeat (Some 0) 1) (areas 3 [1; 3] [2; 2] 1) 0)) None = Some 2).
  { cbn. f_equal. unfold Rdiv. ring. }
  split; [exact V|]. split.
  - replace 4 with ((3 - 1) * 2) by ring. exact (is_RInt_const 1 3 2).
  - pose proof (C40_linear_log t 0 0 2 (fun _ => 2) T ltac:(cbn; lia) F) as H. cbn [t xs ys nth] in H.
    intros R. specialize (H ltac:(lra) L _ eq_refl eq_refl V). replace (2 - 0) with 2 in H by ring. apply H in R. lra.
Qed.
Example C40_nan_hypotheses_met : let t := {| xs := [1; 3]; ys := [2; 2]; bps := [2]%Z; schemes := [4]%Z |} in
  table t /\ follows t 0 4 /\ loggable 4 1 2 2 /\ integral t = Some [Some 0; None].
Proof.
  cbv zeta. set (t := {| xs := [1; 3]; ys := [2; 2]; bps := [2]%Z; schemes := [4]%Z |}).
  assert (L : loggable 4 1 2 2) by (repeat split; [lia|lia|intros; lra|intros; lra|intros; lra]).
  split; [repeat split; cbn; try lia; intros [|[|i]] Hi; cbn in *; try lia; lra|].
  split; [exists 0%nat; cbn; repeat split; try lia; intros; lia|]. split; [exact L|].
  assert (E : integral t = Some (Some 0 :: cumsum (Some 0) [area 4 1 3 2 2])) by reflexivity.
  rewrite E. now rewrite (proj2 (area_nan 4 1 3 2 2 L ltac:(lra))) by (left; split; reflexivity).
Qed.
