From Coq Require Import Reals Lra Lia Arith List.
From Verif Require Import Mat EigFix_Model EigFix_Spec.
Local Open Scope R_scope.

(** ** Spectral form *)
Lemma quad_spectral : forall d (w : vec) (P : mat) x,
  quad d (fun i j => sumn d (fun k => w k * (P i k * P j k))) x =
  sumn d (fun k => w k * (sumn d (fun i => P i k * x i)) ^ 2).
Proof.
  intros d w P x. unfold quad.
  transitivity (sumn d (fun i => sumn d (fun k => sumn d (fun j => w k * (P i k * x i) * (P j k * x j))))).
  - apply sumn_ext. intros i _. rewrite sumn_swap. apply sumn_ext. intros j _.
    rewrite <- sumn_scal_r, <- sumn_scal || idtac.
    match goal with |- ?a = ?b => transitivity (sumn d (fun k => w k * (P i k * P j k)) * (x i * x j)); [lra|] end.
    rewrite <- sumn_scal_r. apply sumn_ext. intros; lra.
  - rewrite sumn_swap. apply sumn_ext. intros k _.
    transitivity (sumn d (fun i => w k * (P i k * x i) * sumn d (fun j => P j k * x j))).
    + apply sumn_ext. intros i _. now rewrite sumn_scal.
    + rewrite sumn_scal_r, sumn_scal. lra.
Qed.

Lemma sq_orthonormal : forall d P x,
  (forall i j, (i < d)%nat -> (j < d)%nat -> mmul d P (tr P) i j = meye i j) ->
  sumn d (fun k => (sumn d (fun i => P i k * x i)) ^ 2) = sq d x.
Proof.
  intros d P x H.
  rewrite <- (sumn_ext d (fun k => 1 * (sumn d (fun i => P i k * x i)) ^ 2)) by (intros; lra).
  rewrite <- (quad_spectral d (fun _ => 1)).
  rewrite (quad_ext d _ meye x x).
  - unfold quad, sq. apply sumn_ext. intros i Hi. rewrite (sumn_single d i); [|assumption|].
    + unfold meye, mdiag. rewrite Nat.eqb_refl. try ring.
    + intros j _ Hne. unfold meye, mdiag. destruct (Nat.eqb_spec i j); [lia|]. lra.
  - intros i j Hi Hj. rewrite <- (H i j) by assumption. unfold mmul, tr. apply sumn_ext. intros; lra.
  - reflexivity.
Qed.

Lemma trace_spectral : forall d (w : vec) P,
  (forall i j, (i < d)%nat -> (j < d)%nat -> mmul d (tr P) P i j = meye i j) ->
  sumn d (fun i => sumn d (fun k => w k * (P i k * P i k))) = sumn d w.
Proof.
  intros d w P H. rewrite sumn_swap. apply sumn_ext. intros k Hk. rewrite sumn_scal.
  pose proof (H k k Hk Hk) as E. unfold mmul, tr, meye, mdiag in E. rewrite Nat.eqb_refl in E. rewrite E. lra.
Qed.

(** The right inverse of an orthonormal matrix is its transpose. *)
Lemma inv_transpose : forall d P Q,
  (forall i j, (i < d)%nat -> (j < d)%nat -> mmul d (tr P) P i j = meye i j) ->
  right_inverse d P Q -> forall i j, (i < d)%nat -> (j < d)%nat -> Q i j = P j i.
Proof.
  intros d P Q H HQ i j Hi Hj.
  rewrite <- (mmul_eye_l d Q i j Hi).
  transitivity (mmul d (mmul d (tr P) P) Q i j).
  - apply mmul_ext; intros; [symmetry; now apply H|reflexivity].
  - rewrite mmul_assoc. transitivity (mmul d (tr P) meye i j).
    + apply mmul_ext; intros; [reflexivity|now apply HQ].
    + now rewrite mmul_eye_r.
Qed.

Lemma rebuilt_entry : forall d w P Q, 
  (forall i j, (i < d)%nat -> (j < d)%nat -> mmul d (tr P) P i j = meye i j) ->
  right_inverse d P Q -> forall i j, (i < d)%nat -> (j < d)%nat ->
  mmul d (mmul d P (mdiag w)) Q i j = sumn d (fun k => w k * (P i k * P j k)).
Proof.
  intros d w P Q H HQ i j Hi Hj. unfold mmul at 1. apply sumn_ext. intros k Hk.
  rewrite (inv_transpose d P Q H HQ k j Hk Hj).
  unfold mmul. rewrite (sumn_single d k); [|assumption|].
  - unfold mdiag. rewrite Nat.eqb_refl. lra.
  - intros l _ Hl. unfold mdiag. destruct (Nat.eqb_spec l k); [lia|]. lra.
Qed.

(** ** Minimum and maximum *)
Lemma vmin_le : forall d w k, (k < d)%nat -> vmin d w <= w k.
Proof.
  induction d as [|[|d] IH]; intros w k Hk; [lia| |].
  - replace k with O by lia. cbn. lra.
  - change (vmin (S (S d)) w) with (Rmin (vmin (S d) w) (w (S d))).
    destruct (Nat.eq_dec k (S d)) as [->|]; [apply Rmin_r|].
    eapply Rle_trans; [apply Rmin_l|]. apply IH. lia.
Qed.
Lemma vmin_in : forall d w, (0 < d)%nat -> exists k, (k < d)%nat /\ vmin d w = w k.
Proof.
  induction d as [|[|d] IH]; intros w H; [lia|exists O; split; [lia|reflexivity]|].
  change (vmin (S (S d)) w) with (Rmin (vmin (S d) w) (w (S d))).
  unfold Rmin. destruct (Rle_dec _ _); [|exists (S d); split; [lia|reflexivity]].
  destruct (IH w ltac:(lia)) as (k & Hk & E). exists k. split; [lia|exact E].
Qed.
Lemma vmax_ge : forall d w k, (k < d)%nat -> w k <= vmax d w.
Proof.
  induction d as [|[|d] IH]; intros w k Hk; [lia| |].
  - replace k with O by lia. cbn. lra.
  - change (vmax (S (S d)) w) with (Rmax (vmax (S d) w) (w (S d))).
    destruct (Nat.eq_dec k (S d)) as [->|]; [apply Rmax_r|].
    eapply Rle_trans; [|apply Rmax_l]. apply IH. lia.
Qed.

Lemma sumn_const : forall n c, sumn n (fun _ => c) = INR n * c.
Proof. induction n; intros; [cbn; lra|]. rewrite S_INR. cbn [sumn]. rewrite IHn. lra. Qed.
Lemma sumn_pos_vmax : forall d w, (0 < d)%nat -> 0 < sumn d w -> 0 < vmax d w.
Proof.
  intros d w Hd H. assert (sumn d w <= sumn d (fun _ => vmax d w)) by (apply sumn_le; intros; now apply vmax_ge).
  rewrite sumn_const in H0. assert (0 < INR d) by (apply lt_0_INR; lia).
  destruct (Rlt_le_dec 0 (vmax d w)); [assumption|]. nra.
Qed.
Lemma vmax_mean : forall d w c, (0 < d)%nat -> sumn d w = INR d * c -> c <= vmax d w.
Proof.
  intros d w c Hd H. assert (sumn d w <= sumn d (fun _ => vmax d w)) by (apply sumn_le; intros; now apply vmax_ge).
  rewrite sumn_const in H0. assert (0 < INR d) by (apply lt_0_INR; lia). nra.
Qed.
Lemma sumn_pos : forall n f, (0 < n)%nat -> (forall k, (k < n)%nat -> 0 < f k) -> 0 < sumn n f.
Proof.
  intros [|n] f Hn H; [lia|]. cbn. assert (0 <= sumn n f) by (apply sumn_nonneg; intros; left; apply H; lia).
  specialize (H n ltac:(lia)). lra.
Qed.
Lemma sumn_lt : forall n f g k, (forall i, (i < n)%nat -> f i <= g i) -> (k < n)%nat -> f k < g k -> sumn n f < sumn n g.
Proof.
  intros n f g k H Hk Hlt. rewrite (sumn_out n k f Hk), (sumn_out n k g Hk).
  apply Rplus_lt_le_compat; [assumption|]. apply sumn_le. intros i Hi. destruct (Nat.eqb i k); [lra|auto].
Qed.

Lemma tiny_pos : 0 < tiny.
Proof. unfold tiny. lra. Qed.
Lemma raised_pos : forall d w k, 0 < vmax d w -> 0 < raised d w k.
Proof.
  intros d w k H. unfold raised. pose proof tiny_pos. destruct (Rle_dec _ _); [|lra].
  apply Rmin_glb_lt; [|assumption]. now apply Rmult_lt_0_compat.
Qed.

(** ** Positions *)
Lemma kept_spec : forall n A i, In i (kept n A) <-> (i < n)%nat /\ used A i.
Proof.
  intros n A i. unfold kept. rewrite filter_In, in_seq. unfold used. destruct (Rlt_dec 0 (A i i)); intuition (try lia; try discriminate).
Qed.
Lemma kept_nodup : forall n A, NoDup (kept n A).
Proof. intros. apply NoDup_filter, seq_NoDup. Qed.
Lemma pos_some : forall l a k, pos_in a l = Some k -> (k < length l)%nat /\ nth k l O = a.
Proof.
  induction l as [|x l IH]; intros a k H; [discriminate|]. cbn in H. destruct (Nat.eqb_spec a x) as [->|].
  - injection H as <-. cbn. split; [lia|reflexivity].
  - destruct (pos_in a l) eqn:E; [|discriminate]. cbn in H. injection H as <-.
    destruct (IH _ _ E). cbn. split; [lia|assumption].
Qed.
Lemma pos_nth : forall l k, NoDup l -> (k < length l)%nat -> pos_in (nth k l O) l = Some k.
Proof.
  induction l as [|x l IH]; intros k Hn Hk; [cbn in Hk; lia|]. inversion Hn; subst. destruct k as [|k]; cbn.
  - now rewrite Nat.eqb_refl.
  - cbn in Hk. destruct (Nat.eqb_spec (nth k l O) x) as [E|].
    + exfalso. apply H1. rewrite <- E. apply nth_In. lia.
    + rewrite IH by (auto; lia). reflexivity.
Qed.

(** Sum over the used groups of a quantity vanishing elsewhere. *)
Lemma sumn_kept : forall (A : mat) n f, (forall i, (i < n)%nat -> ~ used A i -> f i = 0) ->
  sumn n f = sumn (length (kept n A)) (fun k => f (nth k (kept n A) O)).
Proof.
  intros A n f. induction n as [|n IH]; intros H; [reflexivity|].
  cbn [sumn]. rewrite IH by (intros; apply H; auto; lia).
  unfold kept at 3 4. rewrite seq_S, filter_app. fold (kept n A). cbn.
  destruct (Rlt_dec 0 (A n n)) as [Hu|Hu].
  - rewrite app_length. cbn. rewrite Nat.add_1_r. cbn.
    rewrite app_nth2 by lia. rewrite Nat.sub_diag. cbn. f_equal.
    apply sumn_ext. intros k Hk. now rewrite app_nth1.
  - rewrite app_nil_r. rewrite (H n); [lra|lia|exact Hu].
Qed.

(** ** The repair *)
Lemma match_S : forall (X : Type) m (a : X) (f : nat -> X), m <> O -> match m with O => a | S k => f (S k) end = f m.
Proof. intros X [|m] a f H; [contradiction|reflexivity]. Qed.

Section Repair.
Variables (eigh : nat -> mat -> vec * mat) (inv : nat -> mat -> mat) (n : nat) (A : mat).
Let idx := kept n A.
Let d := length idx.
Let B := block A idx.
Hypothesis Heig : eigendecomposition d B (fst (eigh d B)) (snd (eigh d B)).
Hypothesis Hinv : right_inverse d (snd (eigh d B)) (inv d (snd (eigh d B))).
Let w := fst (eigh d B).
Let P := snd (eigh d B).

Definition new_w : vec := if Rle_dec (vmin d w) tiny then raised d w else w.

Lemma fix_eigen_spec :
  (d = O /\ fix_eigen eigh inv n A = None) \/
  (exists F, (0 < d)%nat /\ fix_eigen eigh inv n A = Some (F, idx) /\
     (forall i j, (i < d)%nat -> (j < d)%nat -> F i j = sumn d (fun k => new_w k * (P i k * P j k))) /\
     (tiny < vmin d w -> F = B)).
Proof.
  pose (f := fun m => let (w, P) := eigh m B in
     Some (if Rle_dec (vmin m w) tiny then mmul m (mmul m P (mdiag (raised m w))) (inv m P) else B, idx)).
  change (fix_eigen eigh inv n A) with (match d with O => None | S k => f (S k) end).
  destruct (Nat.eq_dec d 0) as [E|E]; [left; split; [exact E|]; now rewrite E|]. right.
  rewrite (match_S _ d None f E). unfold f.
  unfold new_w, w, P. destruct Heig as (H1 & H2 & H3).
  destruct (eigh d B) as [w0 P0]. cbn [fst snd] in *.
  exists (if Rle_dec (vmin d w0) tiny then mmul d (mmul d P0 (mdiag (raised d w0))) (inv d P0) else B).
  split; [lia|]. split; [reflexivity|]. split.
  - intros i j Hi Hj. destruct (Rle_dec _ _); [now apply rebuilt_entry|now apply H3].
  - intros Ht. destruct (Rle_dec _ _); [lra|reflexivity].
Qed.

Lemma repaired_raises : repaired eigh inv n A = None <-> forall i, (i < n)%nat -> ~ used A i.
Proof.
  unfold repaired. destruct fix_eigen_spec as [[E ->]|(F & Hd & -> & _)].
  - split; [|reflexivity]. intros _ i Hi Hu. assert (In i idx) by (apply kept_spec; auto).
    unfold d in E. destruct idx; [contradiction|discriminate].
  - split; [discriminate|]. intros H. exfalso. unfold d in Hd. destruct idx as [|i l] eqn:E; [cbn in Hd; lia|].
    assert (In i idx) by (rewrite E; now left). apply kept_spec in H0. now apply (H i).
Qed.

Lemma block_diag : forall k, (k < d)%nat -> 0 < B k k.
Proof. intros k Hk. unfold B, block. apply (kept_spec n A). now apply nth_In. Qed.
Lemma trace_B : sumn d w = sumn d (fun i => B i i).
Proof.
  destruct Heig as (H1 & _ & H3). unfold w. rewrite <- (trace_spectral d _ _ H1). symmetry.
  apply sumn_ext. intros i Hi. now apply H3.
Qed.
Lemma vmax_pos : (0 < d)%nat -> 0 < vmax d w.
Proof.
  intros Hd. apply sumn_pos_vmax; [assumption|]. rewrite trace_B. apply sumn_pos; [assumption|]. apply block_diag.
Qed.
Lemma new_w_pos : forall k, (k < d)%nat -> 0 < new_w k.
Proof.
  intros k Hk. unfold new_w. destruct (Rle_dec _ _) as [|Hn].
  - apply raised_pos, vmax_pos. lia.
  - pose proof (vmin_le d w k Hk). pose proof tiny_pos. lra.
Qed.

Lemma idx_lt : forall k, (k < d)%nat -> (nth k idx O < n)%nat.
Proof. intros k Hk. apply (kept_spec n A). now apply nth_In. Qed.

(** The quadratic form of the repaired matrix on vectors over the used groups. *)
Lemma repaired_quad : forall R0 x, repaired eigh inv n A = Some R0 -> on_used n A x ->
  quad n R0 x = sumn d (fun k => new_w k * (sumn d (fun i => P i k * x (nth i idx O))) ^ 2) /\
  sq n x = sumn d (fun k => (sumn d (fun i => P i k * x (nth i idx O))) ^ 2).
Proof.
  intros R0 x HR Hx. unfold repaired in HR.
  destruct fix_eigen_spec as [[E E']|(F & Hd & E' & HF & _)]; rewrite E' in HR; [discriminate|]. injection HR as <-.
  split.
  - rewrite <- quad_spectral. unfold quad.
    rewrite (sumn_kept A n) by (intros i Hi Hu; apply sumn_0; intros; rewrite (Hx i Hi Hu); lra).
    fold idx. fold d. apply sumn_ext. intros i Hi.
    rewrite (sumn_kept A n) by (intros j Hj Hu; rewrite (Hx j Hj Hu); lra).
    fold idx. fold d. apply sumn_ext. intros j Hj.
    unfold put_block. rewrite !pos_nth by (auto; apply kept_nodup). now rewrite HF.
  - destruct Heig as (_ & H2 & _). fold P in H2.
    rewrite (sq_orthonormal d P (fun i => x (nth i idx O)) H2). unfold sq.
    rewrite (sumn_kept A n); [reflexivity|]. intros i Hi Hu. rewrite (Hx i Hi Hu). lra.
Qed.

Lemma sq_pos : forall m (x : vec), (exists i, (i < m)%nat /\ x i <> 0) -> 0 < sq m x.
Proof.
  intros m x (i & Hi & Hne). unfold sq.
  rewrite (sumn_out m i) by assumption.
  assert (0 <= sumn m (fun k => if Nat.eqb k i then 0 else x k * x k)).
  { apply sumn_nonneg. intros k _. destruct (Nat.eqb k i); [lra|]. nra. }
  assert (0 < x i * x i) by (apply Rsqr_pos_lt in Hne; exact Hne). lra.
Qed.
Lemma exists_pos_term : forall m f, (forall k, (k < m)%nat -> 0 <= f k) -> 0 < sumn m f -> exists k, (k < m)%nat /\ 0 < f k.
Proof.
  induction m as [|m IH]; intros f H Hp; cbn in Hp; [lra|].
  destruct (Rlt_le_dec 0 (f m)); [exists m; split; [lia|assumption]|].
  destruct (IH f) as (k & Hk & Hf); [intros; apply H; lia|lra|]. exists k. split; [lia|assumption].
Qed.

Lemma repaired_pd : forall R0, repaired eigh inv n A = Some R0 -> exceeds n A R0 0.
Proof.
  intros R0 HR x Hx Hne. destruct (repaired_quad R0 x HR Hx) as [E1 E2].
  rewrite E1, Rmult_0_l. pose proof (sq_pos n x Hne) as Hs. rewrite E2 in Hs.
  destruct (exists_pos_term d _ (fun k _ => pow2_ge_0 _) Hs) as (k & Hk & Hp). cbn beta in Hp.
  rewrite (sumn_out d k) by assumption.
  assert (0 <= sumn d (fun i => if Nat.eqb i k then 0 else new_w i * (sumn d (fun i0 => P i0 i * x (nth i0 idx O))) ^ 2)).
  { apply sumn_nonneg. intros i Hi. destruct (Nat.eqb i k); [lra|]. apply Rmult_le_pos; [left; now apply new_w_pos|apply pow2_ge_0]. }
  pose proof (Rmult_lt_0_compat _ _ (new_w_pos k Hk) Hp). lra.
Qed.

Lemma repaired_sym : forall R0, sym n A -> repaired eigh inv n A = Some R0 -> sym n R0.
Proof.
  intros R0 HA HR i j Hi Hj. unfold repaired in HR.
  destruct fix_eigen_spec as [[E E']|(F & Hd & E' & HF & _)]; rewrite E' in HR; [discriminate|]. injection HR as <-.
  unfold put_block. destruct (pos_in i idx) eqn:Ei, (pos_in j idx) eqn:Ej; auto.
  apply pos_some in Ei, Ej. rewrite !HF by apply Ei || apply Ej || (fold d; destruct Ei, Ej; assumption).
  apply sumn_ext. intros; lra.
Qed.

Lemma repaired_untouched : forall R0 i j, repaired eigh inv n A = Some R0 -> (i < n)%nat -> (j < n)%nat ->
  ~ used A i \/ ~ used A j -> R0 i j = A i j.
Proof.
  intros R0 i j HR Hi Hj H. unfold repaired in HR.
  destruct fix_eigen_spec as [[E E']|(F & Hd & E' & HF & _)]; rewrite E' in HR; [discriminate|]. injection HR as <-.
  unfold put_block. destruct (pos_in i idx) eqn:Ei, (pos_in j idx) eqn:Ej; auto. exfalso.
  apply pos_some in Ei, Ej.
  assert (In i idx) by (destruct Ei as [L <-]; now apply nth_In).
  assert (In j idx) by (destruct Ej as [L <-]; now apply nth_In).
  apply kept_spec in H0, H1. tauto.
Qed.

(** If the used block exceeds the threshold nothing changes. *)
Lemma repaired_unchanged : forall R0, exceeds n A A tiny -> repaired eigh inv n A = Some R0 ->
  forall i j, (i < n)%nat -> (j < n)%nat -> R0 i j = A i j.
Proof.
  intros R0 HA HR i j Hi Hj. unfold repaired in HR.
  destruct fix_eigen_spec as [[E E']|(F & Hd & E' & HF & Hsame)]; rewrite E' in HR; [discriminate|]. injection HR as <-.
  assert (Hmin : tiny < vmin d w).
  { destruct (vmin_in d w Hd) as (k & Hk & Ek). rewrite Ek.
    destruct Heig as (H1 & H2 & H3). fold P in H1, H2, H3. fold w in H3.
    pose (x := fun i => match pos_in i idx with Some a => P a k | None => 0 end).
    assert (Hx : forall a, (a < d)%nat -> x (nth a idx O) = P a k).
    { intros a Ha. unfold x. now rewrite pos_nth by (auto; apply kept_nodup). }
    assert (Hu : on_used n A x).
    { intros a Ha Hn. unfold x. destruct (pos_in a idx) eqn:Ea; [|reflexivity]. exfalso. apply Hn.
      apply pos_some in Ea. destruct Ea as [L <-]. apply (kept_spec n A). now apply nth_In. }
    assert (Eorth : forall l, (l < d)%nat -> sumn d (fun i0 => P i0 l * x (nth i0 idx O)) = if Nat.eqb l k then 1 else 0).
    { intros l Hl. rewrite (sumn_ext d _ (fun i0 => tr P l i0 * P i0 k)) by (intros i0 Hi0; unfold tr; rewrite Hx by assumption; reflexivity).
      fold (mmul d (tr P) P l k). rewrite H1 by assumption. reflexivity. }
    assert (Esq : sq n x = 1).
    { unfold sq. rewrite (sumn_kept A n); [|intros a Ha Hn; rewrite (Hu a Ha Hn); lra]. fold idx. fold d.
      rewrite (sumn_ext d _ (fun a => tr P k a * P a k)) by (intros; rewrite Hx by assumption; unfold tr; lra).
      fold (mmul d (tr P) P k k). rewrite H1 by assumption. unfold meye, mdiag. now rewrite Nat.eqb_refl. }
    assert (Eq : quad n A x = w k).
    { unfold quad. rewrite (sumn_kept A n) by (intros a Ha Hn; apply sumn_0; intros; rewrite (Hu a Ha Hn); lra).
      fold idx. fold d.
      transitivity (quad d (fun i j => sumn d (fun k => w k * (P i k * P j k))) (fun a => x (nth a idx O))).
      - unfold quad. apply sumn_ext. intros a Ha.
        rewrite (sumn_kept A n) by (intros b Hb Hn; rewrite (Hu b Hb Hn); lra). fold idx. fold d.
        apply sumn_ext. intros b Hb. rewrite <- H3 by assumption. reflexivity.
      - rewrite quad_spectral. rewrite (sumn_single d k); [rewrite Eorth, Nat.eqb_refl by assumption; lra|assumption|].
        intros l Hl Hne. rewrite Eorth by assumption. destruct (Nat.eqb_spec l k); [contradiction|]. lra. }
    assert (Hne : exists a, (a < n)%nat /\ x a <> 0).
    { destruct (exists_pos_term n (fun a => x a * x a)) as (a & Ha & Hp).
      - intros; nra.
      - change (0 < sq n x). rewrite Esq. lra.
      - exists a. split; [assumption|]. intros E0. rewrite E0 in Hp. lra. }
    pose proof (HA x Hu Hne) as HH. rewrite Esq, Eq in HH. lra. }
  rewrite (Hsame Hmin). unfold put_block. destruct (pos_in i idx) eqn:Ei, (pos_in j idx) eqn:Ej; auto.
  apply pos_some in Ei, Ej. unfold B, block. destruct Ei as [_ ->], Ej as [_ ->]. reflexivity.
Qed.

(** With a unit diagonal every replaced eigenvalue grows to the threshold. *)
Lemma repaired_trace : forall R0, repaired eigh inv n A = Some R0 ->
  (forall i, (i < n)%nat -> used A i -> A i i = 1) ->
  (exists x, on_used n A x /\ (exists i, (i < n)%nat /\ x i <> 0) /\ quad n A x <= 0) ->
  exists i, (i < n)%nat /\ used A i /\ 1 < R0 i i.
Proof.
  intros R0 HR H1 (x & Hx & Hne & Hq). unfold repaired in HR.
  destruct fix_eigen_spec as [[E E']|(F & Hd & E' & HF & Hsame)]; rewrite E' in HR; [discriminate|]. injection HR as <-.
  pose proof Heig as Heig'. destruct Heig' as (O1 & O2 & O3). fold P in O1, O2, O3. fold w in O3.
  assert (HB1 : forall k, (k < d)%nat -> B k k = 1).
  { intros k Hk. pose proof (idx_lt k Hk). unfold B, block. apply H1; [assumption|]. apply (kept_spec n A). now apply nth_In. }
  assert (Htr : sumn d w = INR d * 1).
  { rewrite trace_B. rewrite <- sumn_const. apply sumn_ext. assumption. }
  pose proof (vmax_mean d w 1 Hd Htr) as Hmax.
  (* an eigenvalue that is not positive *)
  assert (Hneg : exists k, (k < d)%nat /\ w k <= 0).
  { destruct (vmin_in d w Hd) as (k & Hk & Ek). exists k. split; [assumption|].
    destruct (Rle_lt_dec (w k) 0); [assumption|]. exfalso.
    assert (Eq : quad n A x = sumn d (fun l => w l * (sumn d (fun i => P i l * x (nth i idx O))) ^ 2)).
    { rewrite <- quad_spectral. unfold quad.
      rewrite (sumn_kept A n) by (intros a Ha Hn; apply sumn_0; intros; rewrite (Hx a Ha Hn); lra).
      fold idx. fold d. apply sumn_ext. intros a Ha.
      rewrite (sumn_kept A n) by (intros b Hb Hn; rewrite (Hx b Hb Hn); lra).
      fold idx. fold d. apply sumn_ext. intros b Hb. rewrite <- O3 by assumption. reflexivity. }
    assert (Es : sq n x = sumn d (fun l => (sumn d (fun i => P i l * x (nth i idx O))) ^ 2)).
    { rewrite (sq_orthonormal d P (fun i => x (nth i idx O)) O2). unfold sq.
      rewrite (sumn_kept A n); [reflexivity|]. intros i Hi Hu. rewrite (Hx i Hi Hu). lra. }
    pose proof (sq_pos n x Hne) as Hs.
    assert (sumn d (fun l => w k * (sumn d (fun i => P i l * x (nth i idx O))) ^ 2) <= quad n A x).
    { rewrite Eq. apply sumn_le. intros l Hl. apply Rmult_le_compat_r; [apply pow2_ge_0|].
      rewrite <- Ek. now apply vmin_le. }
    rewrite sumn_scal, <- Es in H. nra. }
  destruct Hneg as (k & Hk & Hwk).
  assert (Hnw : forall l, (l < d)%nat -> w l <= new_w l).
  { intros l Hl. unfold new_w. destruct (Rle_dec (vmin d w) tiny); [|lra].
    unfold raised. destruct (Rle_dec (w l) tiny); [|lra].
    rewrite Rmin_right; [lra|]. pose proof tiny_pos. nra. }
  assert (Hlt : sumn d w < sumn d new_w).
  { apply (sumn_lt d w new_w k); [assumption|assumption|]. pose proof (new_w_pos k Hk). lra. }
  assert (HtrF : sumn d (fun i => F i i) = sumn d new_w).
  { rewrite <- (trace_spectral d new_w P O1). apply sumn_ext. intros i Hi. now apply HF. }
  assert (Hex : exists a, (a < d)%nat /\ 1 < F a a).
  { assert (G : forall m, (m <= d)%nat -> (exists a, (a < d)%nat /\ 1 < F a a) \/ sumn m (fun i => F i i) <= INR m).
    { induction m as [|m IH]; intros Hm; [right; cbn; lra|].
      destruct IH as [?|IH]; [lia|now left|]. destruct (Rlt_le_dec 1 (F m m)).
      - left. exists m. split; [lia|assumption].
      - right. rewrite S_INR. cbn [sumn]. lra. }
    destruct (G d (le_n d)) as [?|G']; [assumption|]. exfalso. rewrite HtrF in G'. lra. }
  destruct Hex as (a & Ha & HFa). exists (nth a idx O). split; [now apply idx_lt|]. split.
  - apply (kept_spec n A). now apply nth_In.
  - unfold put_block. now rewrite pos_nth by (auto; apply kept_nodup).
Qed.
End Repair.
