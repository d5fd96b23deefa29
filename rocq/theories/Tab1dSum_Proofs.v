From Coq Require Import Reals ZArith List Lia Lra Bool.
From Verif Require Import Tab1d_Model Tab1d_Spec Tab1d_Proofs.
Import ListNotations.
Local Open Scope R_scope.

(** ** Unions *)
Inductive asc : list R -> Prop :=
| asc_nil : asc []
| asc_one x : asc [x]
| asc_more x y l : x < y -> asc (y :: l) -> asc (x :: y :: l).
Lemma asc_increasing l : asc l <-> increasing l.
Proof.
  split.
  - induction 1 as [|x|x y l Hlt Ha IH]; intros i Hi; cbn [length] in Hi; try lia.
    destruct i as [|i]; [exact Hlt|]. apply (IH i). cbn [length]. lia.
  - induction l as [|x l IH]; intros H; [constructor|]. destruct l as [|y l]; [constructor|].
    constructor; [apply (H 0%nat); cbn; lia|]. apply IH. now apply increasing_tl in H.
Qed.
Lemma ins_in x l y : In y (ins x l) <-> y = x \/ In y l.
Proof.
  induction l as [|z l IH]; cbn [ins]; [cbn; intuition|]. destruct (Req_EM_T x z) as [->|N].
  - cbn. intuition.
  - destruct (Rlt_dec x z); cbn [In]; [intuition|]. rewrite IH. intuition.
Qed.
Lemma ins_asc x l : asc l -> asc (ins x l).
Proof.
  induction 1 as [|y|y z l Hlt Ha IH]; cbn [ins]; [constructor| |].
  - destruct (Req_EM_T x y); [constructor|]. destruct (Rlt_dec x y); repeat constructor; lra.
  - destruct (Req_EM_T x y); [now constructor|]. destruct (Rlt_dec x y); [constructor; [assumption|now constructor]|].
    cbn [ins] in IH. destruct (Req_EM_T x z); [now constructor|]. destruct (Rlt_dec x z); constructor; try assumption; lra.
Qed.
Lemma union_in a b y : In y (union1d a b) <-> In y a \/ In y b.
Proof.
  unfold union1d. rewrite <- in_app_iff. induction (a ++ b) as [|x l IH]; [reflexivity|]. cbn [fold_right]. rewrite ins_in, IH. cbn. intuition.
Qed.
Lemma union_asc a b : asc (union1d a b).
Proof. unfold union1d. induction (a ++ b) as [|x l IH]; [constructor|]. cbn [fold_right]. now apply ins_asc. Qed.
Lemma unions_in gs : forall g y, In y (fold_left union1d gs g) <-> In y g \/ exists h, In h gs /\ In y h.
Proof.
  induction gs as [|h gs IH]; intros g y; cbn [fold_left].
  - split; [now left|]. intros [H|(h & [] & _)]. exact H.
  - rewrite IH, union_in. split.
    + intros [[H|H]|(k & Hk & H)]; [now left|right; exists h; split; [now left|assumption]|right; exists k; split; [now right|assumption]].
    + intros [H|(k & [<-|Hk] & H)]; [left; now left|left; now right|right; exists k; now split].
Qed.
Lemma unions_asc gs : forall g, asc g -> asc (fold_left union1d gs g).
Proof.
  induction gs as [|h gs IH]; intros g Hg; cbn [fold_left]; [assumption|]. apply IH. apply union_asc.
Qed.

Lemma all_some_map {A B} (f : A -> option B) (d : B) l ys : all_some (map f l) = Some ys ->
  length ys = length l /\ forall i a, (i < length l)%nat -> f (nth i l a) = Some (nth i ys d).
Proof.
  revert ys. induction l as [|x l IH]; intros ys; cbn [map all_some].
  - intros E. injection E as <-. split; [reflexivity|]. cbn. intros; lia.
  - destruct (f x) as [b|] eqn:Ex; [|discriminate]. destruct (all_some (map f l)) as [r|] eqn:El; [|discriminate].
    cbn [option_map]. intros E. injection E as <-. destruct (IH r eq_refl) as [H1 H2]. cbn [length]. split; [now rewrite H1|].
    intros [|i] a Hi; [exact Ex|]. apply H2. lia.
Qed.
Lemma all_some_ok {A B} (f : A -> option B) l : (forall x, In x l -> exists b, f x = Some b) -> exists ys, all_some (map f l) = Some ys.
Proof.
  induction l as [|x l IH]; intros H; [now exists []|]. cbn [map all_some]. destruct (H x (or_introl eq_refl)) as (b & ->).
  destruct IH as (r & ->); [intros y Hy; apply H; now right|]. eexists; reflexivity.
Qed.

(** ** Grids of sums *)
Definition linear (t : tab1) : Prop := table t /\ forall s, In s (schemes t) -> s = 2%Z.
Lemma grids_tabs ts : (forall t, In t ts -> linear t) -> grids (map Tab ts) = Some (map xs ts).
Proof.
  induction ts as [|t ts IH]; intros H; [reflexivity|]. cbn [map grids].
  assert (E : forallb (Z.eqb 2) (schemes t) = true).
  { apply forallb_forall. intros s Hs. rewrite (proj2 (H t (or_introl eq_refl)) s Hs). reflexivity. }
  rewrite E, IH; [reflexivity|]. intros u Hu. apply H. now right.
Qed.
Lemma table_call t e : table t -> exists y, call_at t e = Some y.
Proof.
  intros Ht. destruct (nonempty t Ht) as [Nx Ny]. pose proof Ht as (H2 & Hy & Hx & _).
  destruct (Rlt_dec e (nth 0 (xs t) 0)) as [L|L]; [rewrite (call_out t Ht e) by auto; eauto|].
  destruct (Rle_dec (last (xs t) 0) e) as [M|M]; [rewrite (call_out t Ht e) by auto; eauto|].
  assert (K : exists i, (S i < length (xs t))%nat /\ nth i (xs t) 0 <= e < nth (S i) (xs t) 0).
  { clear - L M Nx. induction (xs t) as [|x l IH]; [congruence|]. destruct l as [|y l]; [cbn in *; lra|].
    destruct (Rlt_dec e y) as [L'|L']; [exists 0%nat; cbn [length nth] in *; split; [lia|lra]|].
    destruct IH as (i & Hi & He); [discriminate|cbn [nth]; lra|exact M|]. exists (S i). cbn [length] in *. split; [lia|exact He]. }
  destruct K as (i & Hi & He). destruct (follows_exists t Ht i Hi) as (s & Hs).
  rewrite (call_mid t Ht i s e Hi Hs He). eauto.
Qed.
Definition val (t : tab1) (e : R) : R := match call_at t e with Some y => y | None => 0 end.
Lemma val_call t e : table t -> call_at t e = Some (val t e).
Proof. intros H. unfold val. destruct (table_call t e H) as (y & ->). reflexivity. Qed.
Lemma sum_at_tabs ts e : (forall t, In t ts -> table t) -> sum_at (map Tab ts) e = Some (total (map (fun t => val t e) ts)).
Proof.
  intros H. unfold sum_at. rewrite map_map. cbv beta.
  assert (E : all_some (map (fun t => call_at t e) ts) = Some (map (fun t => val t e) ts)).
  { induction ts as [|t ts IH]; [reflexivity|]. cbn [map all_some].
    rewrite (val_call t e (H t (or_introl eq_refl))), IH; [reflexivity|]. intros u Hu. apply H. now right. }
  cbn [func_at]. now rewrite E.
Qed.

Lemma linear_follows t i : linear t -> (S i < length (xs t))%nat -> follows t i 2.
Proof.
  intros [Ht Hs] Hi. destruct (follows_exists t Ht i Hi) as (s & Hf). replace 2%Z with s; [assumption|].
  apply Hs. destruct Hf as (k & Hk & <- & _). apply nth_In. destruct Ht as (_ & _ & _ & Hl & _). lia.
Qed.
Lemma locate l e : (2 <= length l)%nat -> nth 0 l 0 <= e < last l 0 -> exists i, (S i < length l)%nat /\ nth i l 0 <= e < nth (S i) l 0.
Proof.
  induction l as [|x l IH]; intros Hl He; [cbn in Hl; lia|]. destruct l as [|y l]; [cbn in Hl; lia|].
  destruct (Rlt_dec e y) as [L'|L']; [exists 0%nat; cbn [length nth] in *; split; [lia|lra]|].
  destruct l as [|z l]; [cbn in *; lra|].
  destruct IH as (i & Hi & Hi2); [cbn; lia|cbn [nth last] in *; lra|]. exists (S i). cbn [length] in *. split; [lia|exact Hi2].
Qed.
Lemma last_nth l : l <> [] -> last l 0 = nth (length l - 1) l 0.
Proof.
  intros H. induction l as [|x l IH]; [congruence|]. destruct l as [|y l]; [reflexivity|].
  change (last (x :: y :: l) 0) with (last (y :: l) 0). rewrite IH by discriminate. cbn [length]. 
  replace (S (S (length l)) - 1)%nat with (S (length l)) by lia. replace (S (length l) - 1)%nat with (length l) by lia. reflexivity.
Qed.

(** Evaluation points not disturbed by the closeness test. *)
Definition clean (t : tab1) (e : R) : Prop :=
  e = nth 0 (xs t) 0 \/ e = last (xs t) 0 \/ (~ close e (nth 0 (xs t) 0) /\ ~ close e (last (xs t) 0)).
Lemma close_refl a : close a a.
Proof.
  unfold close. replace (a - a) with 0 by ring. rewrite Rabs_R0. pose proof (Rabs_pos a). pose proof (pow_lt 10 14 ltac:(lra)). pose proof (pow_lt 10 5 ltac:(lra)).
  pose proof (Rinv_0_lt_compat _ H0). pose proof (Rinv_0_lt_compat _ H1). nra.
Qed.
Lemma val_lin t i u : linear t -> ~ close (nth 0 (xs t) 0) (last (xs t) 0) -> (S i < length (xs t))%nat ->
  nth i (xs t) 0 <= u <= nth (S i) (xs t) 0 -> clean t u ->
  val t u = nth i (ys t) 0 + (u - nth i (xs t) 0) / (nth (S i) (xs t) 0 - nth i (xs t) 0) * (nth (S i) (ys t) 0 - nth i (ys t) 0).
Proof.
  intros Hl Hends Hi Hu Hc. pose proof (proj1 Hl) as Ht. destruct (nonempty t Ht) as [Nx Ny].
  pose proof Ht as (H2 & Hy & Hx & _).
  assert (Hlt : nth i (xs t) 0 < nth (S i) (xs t) 0) by (apply Hx; lia).
  unfold val. destruct (Rlt_dec u (nth (S i) (xs t) 0)) as [L|L].
  - rewrite (call_mid t Ht i 2 u Hi (linear_follows t i Hl Hi)) by lra. cbn [segment Z.eqb Pos.eqb].
    assert (F : u < last (xs t) 0).
    { rewrite last_nth by assumption. pose proof (increasing_le _ Hx (length (xs t) - 1) (S i) ltac:(lia)). lra. }
    destruct Hc as [->|[->|[C1 C2]]]; [|lra|].
    + assert (i = 0)%nat as ->.
      { destruct i as [|i]; [reflexivity|]. pose proof (increasing_lt _ Hx (S i) 0 ltac:(lia)). lra. }
      rewrite (near_not _ _ Hends). rewrite (proj2 (near_close _ _)) by apply close_refl. unfold Rdiv. ring.
    + now rewrite (near_not _ _ C1), (near_not _ _ C2).
  - assert (u = nth (S i) (xs t) 0) by lra. subst u.
    replace (nth i (ys t) 0 + _) with (nth (S i) (ys t) 0) by (field; lra).
    destruct (Nat.eq_dec (S i) (length (xs t) - 1)) as [E|E].
    + rewrite (call_out t Ht); [|right; rewrite last_nth by assumption; rewrite E; lra].
      rewrite (last_nth (xs t)) by assumption. rewrite <- E.
      rewrite (proj2 (near_close _ _)) by apply close_refl. rewrite last_nth by assumption. rewrite Hy, <- E. reflexivity.
    + assert (Hi' : (S (S i) < length (xs t))%nat) by lia.
      rewrite (call_mid t Ht (S i) 2 _ Hi' (linear_follows t (S i) Hl Hi')) by (split; [lra|apply Hx; lia]). cbn [segment Z.eqb Pos.eqb].
      destruct Hc as [C|[C|[C1 C2]]].
      * exfalso. pose proof (increasing_lt _ Hx (S i) 0 ltac:(lia)). lra.
      * exfalso. rewrite last_nth in C by assumption. pose proof (increasing_lt _ Hx (length (xs t) - 1) (S i) ltac:(lia)). lra.
      * rewrite (near_not _ _ C1), (near_not _ _ C2). unfold Rdiv. ring.
Qed.

(** ** Sums on a common range *)
Lemma total_lin {A} (l : list A) (f g h : A -> R) r : (forall a, In a l -> h a = f a + r * (g a - f a)) ->
  total (map h l) = total (map f l) + r * (total (map g l) - total (map f l)).
Proof.
  induction l as [|a l IH]; intros H; cbn [map total fold_right]; [ring|]. unfold total in IH.
  rewrite IH by (intros b Hb; apply H; now right). rewrite (H a (or_introl eq_refl)). ring.
Qed.

Lemma tabulated_table x y : (2 <= length x)%nat -> length y = length x -> increasing x -> table (tabulated x y) /\ linear (tabulated x y).
Proof.
  intros H1 H2 H3. assert (T : table (tabulated x y)).
  { repeat split; cbn [tabulated xs ys bps schemes length last nth]; try assumption.
    - intros [|k] Hk; cbn [nth]; lia.
    - intros k Hk. lia. }
  split; [assumption|]. split; [assumption|]. cbn. intros s [<-|[]]. reflexivity.
Qed.

Section Sum.
Variables (a b : R) (ts : list tab1).
Hypothesis Hne : ts <> [].
Hypothesis Hlin : forall t, In t ts -> linear t.
Hypothesis Hends : forall t, In t ts -> nth 0 (xs t) 0 = a /\ last (xs t) 0 = b.
Hypothesis Hab : ~ close a b.
Hypothesis Hpts : forall t u, In t ts -> In u (xs t) -> u = a \/ u = b \/ (~ close u a /\ ~ close u b).

Let grid := match map xs ts with [] => [] | g :: gs => fold_left union1d gs g end.
Lemma grid_in u : In u grid <-> exists t, In t ts /\ In u (xs t).
Proof.
  unfold grid. destruct ts as [|t0 l]; [congruence|]. cbn [map]. rewrite unions_in. split.
  - intros [H|(h & Hh & H)]; [exists t0; split; [now left|assumption]|].
    apply in_map_iff in Hh as (t & <- & Ht). exists t. split; [now right|assumption].
  - intros (t & [<-|Ht] & H); [now left|]. right. exists (xs t). split; [now apply in_map|assumption].
Qed.
Lemma grid_asc : increasing grid.
Proof.
  apply asc_increasing. unfold grid. destruct ts as [|t0 l]; [congruence|]. cbn [map]. apply unions_asc. apply asc_increasing.
  destruct (Hlin t0 (or_introl eq_refl)) as [(_ & _ & H & _) _]. exact H.
Qed.
Lemma table_range t u : In t ts -> In u (xs t) -> a <= u <= b.
Proof.
  intros Ht Hu. destruct (Hends t Ht) as [E1 E2]. destruct (Hlin t Ht) as [T _]. destruct (nonempty t T) as [Nx _].
  destruct T as (_ & _ & Hx & _). destruct (In_nth _ _ 0 Hu) as (i & Hi & <-). split.
  - rewrite <- E1. apply increasing_le; [assumption|lia].
  - rewrite <- E2, last_nth by assumption. apply increasing_le; [assumption|lia].
Qed.
Lemma some_table : exists t, In t ts.
Proof. destruct ts as [|t l]; [congruence|]. exists t. now left. Qed.
Lemma ab_lt : a < b.
Proof.
  destruct some_table as (t & Ht). destruct (Hends t Ht) as [<- <-]. destruct (Hlin t Ht) as [T _].
  destruct (nonempty t T) as [Nx _]. destruct T as (H2 & _ & Hx & _). rewrite last_nth by assumption. apply increasing_lt; [assumption|lia].
Qed.
Lemma ab_in : In a grid /\ In b grid.
Proof.
  destruct some_table as (t & Ht). destruct (Hends t Ht) as [E1 E2]. destruct (Hlin t Ht) as [T _].
  destruct (nonempty t T) as [Nx _]. destruct T as (H2 & _ & Hx & _). split; apply grid_in; exists t; (split; [assumption|]).
  - rewrite <- E1. apply nth_In. lia.
  - rewrite <- E2, last_nth by assumption. apply nth_In. lia.
Qed.
Lemma grid_ends : (2 <= length grid)%nat /\ nth 0 grid 0 = a /\ last grid 0 = b.
Proof.
  destruct ab_in as [Ia Ib]. pose proof ab_lt as Hlt. pose proof grid_asc as Hg.
  destruct (In_nth _ _ 0 Ia) as (i & Hi & Ei). destruct (In_nth _ _ 0 Ib) as (j & Hj & Ej).
  assert (Ng : grid <> []) by (intros E; rewrite E in Ia; destruct Ia).
  assert (R : forall k, (k < length grid)%nat -> a <= nth k grid 0 <= b).
  { intros k Hk. destruct (proj1 (grid_in (nth k grid 0)) (nth_In _ _ Hk)) as (t & Ht & Hu). exact (table_range t _ Ht Hu). }
  assert (L : (2 <= length grid)%nat).
  { destruct (Nat.eq_dec i j) as [->|]; [lra|]. lia. }
  split; [assumption|]. split.
  - pose proof (R 0%nat ltac:(lia)) as R0. destruct i as [|i]; [assumption|]. pose proof (increasing_lt _ Hg (S i) 0 ltac:(lia)). lra.
  - rewrite last_nth by assumption. pose proof (R (length grid - 1)%nat ltac:(lia)) as R0.
    destruct (Nat.eq_dec j (length grid - 1)) as [->|N]; [assumption|]. pose proof (increasing_lt _ Hg (length grid - 1) j ltac:(lia)). lra.
Qed.
Lemma clean_of t u : In t ts -> In u grid -> clean t u.
Proof.
  intros Ht Hu. apply grid_in in Hu as (t' & Ht' & Hu). destruct (Hends t Ht) as [E1 E2]. unfold clean. rewrite E1, E2. exact (Hpts t' u Ht' Hu).
Qed.

Theorem sum_between : exists g, sum_functions (map Tab ts) = Some (Tab g) /\ xs g = grid /\
  forall e, call_at g e = sum_at (map Tab ts) e.
Proof.
  destruct grid_ends as (Hl & Ga & Gb). pose proof grid_asc as Hg. pose proof ab_lt as Hlt.
  assert (Ng : grid <> []) by (intros E; rewrite E in Hl; cbn in Hl; lia).
  assert (Tt : forall t, In t ts -> table t) by (intros t Ht; apply (Hlin t Ht)).
  destruct (all_some_ok (sum_at (map Tab ts)) grid) as (y & Ey).
  { intros u _. rewrite sum_at_tabs by assumption. eauto. }
  exists (tabulated grid y).
  assert (Es : sum_functions (map Tab ts) = Some (Tab (tabulated grid y))).
  { unfold sum_functions. rewrite grids_tabs by assumption. unfold grid in *. destruct ts as [|t0 l]; [congruence|].
    cbn [map] in *. now rewrite Ey. }
  destruct (all_some_map _ 0 _ _ Ey) as [Ly Hy].
  assert (Hval : forall i, (i < length grid)%nat -> nth i y 0 = total (map (fun t => val t (nth i grid 0)) ts)).
  { intros i Hi. pose proof (Hy i 0 Hi) as H. rewrite sum_at_tabs in H by assumption. now injection H. }
  destruct (tabulated_table grid y Hl Ly Hg) as [TG LG].
  split; [exact Es|]. split; [reflexivity|]. intros e. rewrite sum_at_tabs by assumption.
  rewrite (val_call _ e TG). f_equal.
  assert (Ends : forall t, In t ts -> val t a = nth 0 (ys t) 0 /\ val t b = last (ys t) 0).
  { intros t Ht. destruct (Hends t Ht) as [E1 E2]. destruct (nonempty t (Tt t Ht)) as [Nx Ny]. pose proof (Tt t Ht) as (H2 & HHy & Hx & _).
    split.
    - rewrite (val_lin t 0 a); [|now apply Hlin|now rewrite E1, E2|lia| |].
      + rewrite E1. unfold Rdiv. ring.
      + rewrite E1. pose proof (Hx 0%nat ltac:(lia)). lra.
      + left. now rewrite E1.
    - unfold val. rewrite (call_out t (Tt t Ht)) by (rewrite E2; right; lra). rewrite E2.
      now rewrite (proj2 (near_close b b)) by apply close_refl. }
  assert (Fy : nth 0 y 0 = total (map (fun t => nth 0 (ys t) 0) ts)).
  { rewrite Hval by lia. rewrite Ga. f_equal. apply map_ext_in. intros t Ht. apply (Ends t Ht). }
  assert (Lyv : last y 0 = total (map (fun t => last (ys t) 0) ts)).
  { assert (Ny : y <> []) by (intros E; rewrite E in Ly; cbn in Ly; lia).
    rewrite last_nth by assumption. rewrite Hval by lia. rewrite Ly, <- last_nth, Gb by assumption. f_equal. apply map_ext_in.
    intros t Ht. apply (Ends t Ht). }
  (* close to the last point *)
  assert (Vl : forall t, table t -> near e (last (xs t) 0) = true -> val t e = last (ys t) 0).
  { intros t T N. unfold val. destruct (nonempty t T) as [Nx _]. pose proof T as (H2 & _ & Hx & _).
    destruct (Rlt_dec e (nth 0 (xs t) 0)); [rewrite (call_out t T) by auto; now rewrite N|].
    destruct (Rle_dec (last (xs t) 0) e); [rewrite (call_out t T) by auto; now rewrite N|].
    destruct (locate (xs t) e H2 ltac:(lra)) as (i & Hi & He). destruct (follows_exists t T i Hi) as (s & Hs).
    rewrite (call_mid t T i s e Hi Hs He). now rewrite N. }
  assert (Vf : forall t, table t -> near e (last (xs t) 0) = false -> near e (nth 0 (xs t) 0) = true -> val t e = nth 0 (ys t) 0).
  { intros t T N N0. unfold val. destruct (nonempty t T) as [Nx _]. pose proof T as (H2 & _ & Hx & _).
    destruct (Rlt_dec e (nth 0 (xs t) 0)); [rewrite (call_out t T) by auto; now rewrite N, N0|].
    destruct (Rle_dec (last (xs t) 0) e); [rewrite (call_out t T) by auto; now rewrite N, N0|].
    destruct (locate (xs t) e H2 ltac:(lra)) as (i & Hi & He). destruct (follows_exists t T i Hi) as (s & Hs).
    rewrite (call_mid t T i s e Hi Hs He). now rewrite N, N0. }
  destruct (near e b) eqn:Nb.
  { rewrite (Vl _ TG) by (cbn [tabulated xs]; now rewrite Gb). cbn [tabulated ys]. rewrite Lyv. f_equal. apply map_ext_in.
    intros t Ht. symmetry. apply Vl; [now apply Tt|]. now rewrite (proj2 (Hends t Ht)). }
  destruct (near e a) eqn:Na.
  { rewrite (Vf _ TG) by (cbn [tabulated xs]; now rewrite ?Gb, ?Ga). cbn [tabulated ys]. rewrite Fy. f_equal. apply map_ext_in.
    intros t Ht. symmetry. destruct (Hends t Ht) as [E1 E2]. apply Vf; [now apply Tt| |]; now rewrite ?E1, ?E2. }
  assert (Ce : ~ close e a /\ ~ close e b).
  { split; intros C; apply near_close in C; congruence. }
  destruct (Rlt_dec e a) as [Lo|Lo]; [|destruct (Rle_dec b e) as [Hi|Hi]].
  - assert (Z0 : forall t, table t -> nth 0 (xs t) 0 = a -> last (xs t) 0 = b -> val t e = 0).
    { intros t T E1 E2. unfold val. rewrite (call_out t T) by (rewrite E1; auto). now rewrite E1, E2, Na, Nb. }
    rewrite (Z0 _ TG Ga Gb). symmetry. clear - Z0 Hends Tt.
    assert (K : forall l, (forall t, In t l -> In t ts) -> total (map (fun t => val t e) l) = 0).
    { induction l as [|t l IH]; intros Hin; [reflexivity|]. cbn [map total fold_right]. unfold total in IH.
      rewrite IH by (intros u Hu; apply Hin; now right). pose proof (Hin t (or_introl eq_refl)) as Ht. destruct (Hends t Ht).
      rewrite Z0; [ring|now apply Tt|assumption..]. }
    apply K. auto.
  - assert (Z0 : forall t, table t -> nth 0 (xs t) 0 = a -> last (xs t) 0 = b -> val t e = 0).
    { intros t T E1 E2. unfold val. rewrite (call_out t T) by (rewrite E2; auto). now rewrite E1, E2, Na, Nb. }
    rewrite (Z0 _ TG Ga Gb). symmetry. clear - Z0 Hends Tt.
    assert (K : forall l, (forall t, In t l -> In t ts) -> total (map (fun t => val t e) l) = 0).
    { induction l as [|t l IH]; intros Hin; [reflexivity|]. cbn [map total fold_right]. unfold total in IH.
      rewrite IH by (intros u Hu; apply Hin; now right). pose proof (Hin t (or_introl eq_refl)) as Ht. destruct (Hends t Ht).
      rewrite Z0; [ring|now apply Tt|assumption..]. }
    apply K. auto.
  - destruct (locate grid e Hl ltac:(lra)) as (j & Hj & He).
    pose proof (Hg j Hj) as Hjj.
    assert (Iu : In (nth j grid 0) grid) by (apply nth_In; lia).
    assert (Iv : In (nth (S j) grid 0) grid) by (apply nth_In; lia).
    rewrite (val_lin (tabulated grid y) j e LG); cbn [tabulated xs ys]; [|now rewrite Ga, Gb|assumption|lra|right; right; cbn [tabulated xs]; rewrite Ga, Gb; exact Ce].
    rewrite (Hval j) by lia. rewrite (Hval (S j)) by lia.
    set (u := nth j grid 0) in *. set (v := nth (S j) grid 0) in *. symmetry.
    rewrite (total_lin ts (fun t => val t u) (fun t => val t v) (fun t => val t e) ((e - u) / (v - u))); [unfold total; ring|].
    intros t Ht. destruct (Hends t Ht) as [E1 E2]. pose proof (Tt t Ht) as T. pose proof T as (H2 & HHy & Hx & _).
    assert (Ru : a <= u < b).
    { split; [rewrite <- Ga; apply increasing_le; [assumption|lia]|]. rewrite <- Gb, last_nth by assumption.
      apply increasing_lt; [assumption|]. lia. }
    destruct (locate (xs t) u H2 ltac:(lra)) as (i & Hi' & Hu).
    assert (Hv : v <= nth (S i) (xs t) 0).
    { assert (Ix : In (nth (S i) (xs t) 0) grid) by (apply grid_in; exists t; split; [assumption|apply nth_In; lia]).
      destruct (In_nth _ _ 0 Ix) as (k & Hk & Ek). rewrite <- Ek in *. apply increasing_le; [assumption|].
      split; [|assumption]. destruct (Nat.le_gt_cases k j) as [Hkj|Hkj]; [|lia]. exfalso.
      pose proof (increasing_le _ Hg j k ltac:(lia)). unfold u in Hu. lra. }
    assert (Hen : ~ close (nth 0 (xs t) 0) (last (xs t) 0)) by now rewrite E1, E2.
    pose proof (Hx i Hi').
    rewrite (val_lin t i u); [|now apply Hlin|assumption|assumption|lra|now apply clean_of].
    rewrite (val_lin t i v); [|now apply Hlin|assumption|assumption|unfold u, v in *; lra|now apply clean_of].
    rewrite (val_lin t i e); [|now apply Hlin|assumption|assumption|lra|right; right; rewrite E1, E2; exact Ce].
    field. split; lra.
Qed.
End Sum.

(** ** Sums at grid points, polynomials *)
Lemma grids_in fs : forall gs, grids fs = Some gs -> forall u g, In g gs -> In u g -> exists t, In (Tab t) fs /\ In u (xs t).
Proof.
  induction fs as [|f fs IH]; intros gs; cbn [grids].
  - intros E. injection E as <-. intros u g [].
  - destruct f as [t|c].
    + destruct (forallb _ _); [|discriminate]. destruct (grids fs) as [r|]; [|discriminate]. cbn [option_map]. intros E. injection E as <-.
      intros u g [<-|Hg] Hu; [exists t; split; [now left|assumption]|]. destruct (IH r eq_refl u g Hg Hu) as (t' & H1 & H2). exists t'. split; [now right|assumption].
    + intros E u g Hg Hu. destruct (IH gs E u g Hg Hu) as (t' & H1 & H2). exists t'. split; [now right|assumption].
Qed.
Lemma grids_tab fs : forall gs, grids fs = Some gs -> forall t, In (Tab t) fs -> In (xs t) gs.
Proof.
  induction fs as [|f fs IH]; intros gs; cbn [grids].
  - intros _ t [].
  - destruct f as [t0|c].
    + destruct (forallb _ _); [|discriminate]. destruct (grids fs) as [r|]; [|discriminate]. cbn [option_map]. intros E. injection E as <-.
      intros t [E|Hg]; [injection E as <-; now left|]. right. now apply IH.
    + intros E t [E'|Hg]; [discriminate|]. now apply IH.
Qed.
Lemma grids_first fs : forall g gs, grids fs = Some (g :: gs) -> exists t, In (Tab t) fs /\ xs t = g.
Proof.
  induction fs as [|f fs IH]; intros g gs; cbn [grids]; [discriminate|]. destruct f as [t|c].
  - destruct (forallb _ _); [|discriminate]. destruct (grids fs) as [r|]; [|discriminate]. cbn [option_map]. intros E. injection E as <- _.
    exists t. split; [now left|reflexivity].
  - intros E. destruct (IH g gs E) as (t & H1 & H2). exists t. split; [now right|assumption].
Qed.
Lemma sub_length {l l' : list R} : increasing l -> (forall u, In u l -> In u l') -> (length l <= length l')%nat.
Proof.
  intros Hl H. apply NoDup_incl_length; [|exact H]. apply (NoDup_nth l 0). intros i j Hi Hj E.
  destruct (Nat.lt_trichotomy i j) as [L|[L|L]]; [|assumption|].
  - pose proof (increasing_lt _ Hl j i ltac:(lia)). lra.
  - pose proof (increasing_lt _ Hl i j ltac:(lia)). lra.
Qed.

Theorem sum_grid fs g : (forall t, In (Tab t) fs -> table t) -> sum_functions fs = Some (Tab g) ->
  (forall u, In u (xs g) <-> exists t, In (Tab t) fs /\ In u (xs t)) /\ increasing (xs g) /\ length (ys g) = length (xs g) /\
  (forall i, (i < length (xs g))%nat -> sum_at fs (nth i (xs g) 0) = Some (nth i (ys g) 0)) /\
  (~ close (nth 0 (xs g) 0) (last (xs g) 0) -> forall u, In u (xs g) -> clean g u -> call_at g u = sum_at fs u).
Proof.
  intros Ht. unfold sum_functions. destruct (grids fs) as [[|g0 gs]|] eqn:Eg; [destruct fs; discriminate| |discriminate].
  set (x := fold_left union1d gs g0). destruct (all_some (map (sum_at fs) x)) as [y|] eqn:Ey; [|discriminate].
  intros E. injection E as <-. cbn [xs ys tabulated].
  destruct (all_some_map _ 0 _ _ Ey) as [Ly Vy].
  destruct (grids_first fs g0 gs Eg) as (t0 & Ht0 & E0). pose proof (Ht t0 Ht0) as (L0 & _ & I0 & _).
  assert (Hin : forall u, In u x <-> exists t, In (Tab t) fs /\ In u (xs t)).
  { intros u. unfold x. rewrite unions_in. split.
    - intros [H|(h & Hh & H)]; [exact (grids_in fs _ Eg u g0 (or_introl eq_refl) H)|exact (grids_in fs _ Eg u h (or_intror Hh) H)].
    - intros (t & Hf & Hu). pose proof (grids_tab fs _ Eg t Hf) as [Hg|Hg]; [left; now rewrite Hg|]. right. exists (xs t). now split. }
  assert (Hx : increasing x). { apply asc_increasing. unfold x. apply unions_asc. apply asc_increasing. now rewrite <- E0. }
  assert (L2 : (2 <= length x)%nat).
  { transitivity (length (xs t0)); [assumption|]. apply sub_length; [assumption|]. intros u Hu. apply Hin. eauto. }
  split; [exact Hin|]. split; [exact Hx|]. split; [exact Ly|]. split; [intros i Hi; now apply Vy|].
  intros Hends u Hu Hc. destruct (In_nth _ _ 0 Hu) as (i & Hi & <-). rewrite (Vy i 0 Hi).
  destruct (tabulated_table x y L2 Ly Hx) as [TG LG]. rewrite (val_call _ _ TG). f_equal.
  destruct (Nat.lt_ge_cases (S i) (length x)) as [H|H].
  - rewrite (val_lin (tabulated x y) i); [|assumption|assumption|assumption| |assumption]; cbn [tabulated xs ys].
    + unfold Rdiv. ring.
    + pose proof (Hx i H). lra.
  - assert (i = length x - 1)%nat as -> by lia. assert (Nx : x <> []) by (intros E; rewrite E in L2; cbn in L2; lia).
    assert (Ny : y <> []) by (intros E; rewrite E in Ly; cbn in Ly; lia).
    rewrite <- (last_nth x) by assumption. unfold val.
    rewrite (call_out _ TG) by (right; cbn [tabulated xs]; lra). cbn [tabulated xs ys].
    rewrite (proj2 (near_close _ _)) by apply close_refl. rewrite last_nth by assumption. now rewrite Ly.
Qed.

Lemma horner_cadd a : forall b x, horner (cadd a b) x = horner a x + horner b x.
Proof.
  induction a as [|u a IH]; intros [|v b] x; cbn [cadd horner]; try ring. rewrite IH. ring.
Qed.
Theorem sum_polys cs x : cs <> [] -> exists c, sum_functions (map Poly cs) = Some (Poly c) /\ horner c x = total (map (fun c => horner c x) cs) /\
  sum_at (map Poly cs) x = Some (horner c x).
Proof.
  intros Hne. assert (G : grids (map Poly cs) = Some []) by (induction cs as [|c [|d cs] IH]; [congruence|reflexivity|apply IH; discriminate]).
  exists (fold_right cadd [] (map coeffs (map Poly cs))).
  unfold sum_functions. rewrite G. destruct cs as [|c0 cs]; [congruence|]. split; [reflexivity|].
  assert (H : forall l, horner (fold_right cadd [] (map coeffs (map Poly l))) x = total (map (fun c => horner c x) l)).
  { induction l as [|c l IH]; [reflexivity|]. cbn [map fold_right coeffs total]. rewrite horner_cadd, IH. reflexivity. }
  split; [exact (H (c0 :: cs))|]. rewrite (H (c0 :: cs)). unfold sum_at.
  assert (A : forall l, all_some (map (fun f => func_at f x) (map Poly l)) = Some (map (fun c => horner c x) l)).
  { induction l as [|c l IH]; [reflexivity|]. cbn [map all_some func_at]. now rewrite IH. }
  now rewrite (A (c0 :: cs)).
Qed.
