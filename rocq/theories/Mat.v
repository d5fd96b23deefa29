(** Real matrices used by the linear-algebra models: a matrix is a function of
    row and column, its size is passed separately, entries outside the size
    are never read by the statements.  Loops are left folds over the index range. *)
From Coq Require Import Reals Lra Lia Arith List.
Local Open Scope R_scope.

Definition mat := nat -> nat -> R.
Definition vec := nat -> R.

(** Python's [for i in range(lo, lo + len): s = f(i, s)]. *)
Fixpoint for_ {S : Type} (lo len : nat) (f : nat -> S -> S) (s : S) : S :=
  match len with
  | O => s
  | Datatypes.S k => for_ (Datatypes.S lo) k f (f lo s)
  end.
(** [range(lo, hi)]; empty when [hi <= lo]. *)
Definition range {S : Type} (lo hi : nat) (f : nat -> S -> S) (s : S) : S := for_ lo (hi - lo) f s.

(** [m[i, j] = v]. *)
Definition upd (m : mat) (i j : nat) (v : R) : mat :=
  fun a b => if Nat.eqb a i then if Nat.eqb b j then v else m a b else m a b.
(** [v[i] = x]. *)
Definition updv (w : vec) (i : nat) (x : R) : vec := fun a => if Nat.eqb a i then x else w a.

(** [np.diag(v)], [np.eye], [m.T], [a + b], [a - b]. *)
Definition mdiag (v : vec) : mat := fun i j => if Nat.eqb i j then v i else 0.
Definition meye : mat := mdiag (fun _ => 1).
Definition tr (m : mat) : mat := fun i j => m j i.
Definition madd (a b : mat) : mat := fun i j => a i j + b i j.
Definition msub (a b : mat) : mat := fun i j => a i j - b i j.
Definition diagonal (m : mat) : vec := fun i => m i i.

Fixpoint sumn (n : nat) (f : nat -> R) : R :=
  match n with O => 0 | S k => sumn k f + f k end.

(** [np.dot(a, b)] with inner dimension [n]. *)
Definition mmul (n : nat) (a b : mat) : mat := fun i j => sumn n (fun k => a i k * b k j).

(** ** Loops *)
Lemma for_inv : forall (S : Type) (I : nat -> S -> Prop) f len lo s,
  I lo s ->
  (forall i s', lo <= i < lo + len -> I i s' -> I (Datatypes.S i) (f i s'))%nat ->
  I (lo + len)%nat (for_ lo len f s).
Proof.
  intros S I f len. induction len as [|len IH]; intros lo s H0 Hs; cbn.
  - now rewrite Nat.add_0_r.
  - rewrite <- Nat.add_succ_comm. apply IH.
    + apply Hs; [lia|assumption].
    + intros i s' Hi. apply Hs. lia.
Qed.

Lemma range_inv : forall (S : Type) (I : nat -> S -> Prop) f lo hi s,
  (lo <= hi)%nat -> I lo s ->
  (forall i s', lo <= i < hi -> I i s' -> I (Datatypes.S i) (f i s'))%nat ->
  I hi (range lo hi f s).
Proof.
  intros S I f lo hi s Hle H0 Hs. unfold range.
  replace hi with (lo + (hi - lo))%nat at 1 by lia.
  apply for_inv; auto. intros i s' Hi. apply Hs. lia.
Qed.

Lemma range_empty : forall (S : Type) (f : nat -> S -> S) lo hi s, (hi <= lo)%nat -> range lo hi f s = s.
Proof. intros. unfold range. replace (hi - lo)%nat with 0%nat by lia. reflexivity. Qed.

Lemma for_snoc : forall (S : Type) (f : nat -> S -> S) len lo s,
  for_ lo (Datatypes.S len) f s = f (lo + len)%nat (for_ lo len f s).
Proof.
  intros S f len. induction len as [|len IH]; intros lo s; cbn in *.
  - now rewrite Nat.add_0_r.
  - rewrite IH. f_equal. lia.
Qed.

Lemma range_last : forall (S : Type) (f : nat -> S -> S) lo hi s, (lo <= hi)%nat ->
  range lo (Datatypes.S hi) f s = f hi (range lo hi f s).
Proof.
  intros. unfold range. replace (Datatypes.S hi - lo)%nat with (Datatypes.S (hi - lo)) by lia.
  rewrite for_snoc. f_equal. lia.
Qed.

Lemma range_first : forall (S : Type) (f : nat -> S -> S) lo hi s, (lo < hi)%nat ->
  range lo hi f s = range (Datatypes.S lo) hi f (f lo s).
Proof. intros. unfold range. replace (hi - lo)%nat with (Datatypes.S (hi - Datatypes.S lo)) by lia. reflexivity. Qed.

(** ** Updates *)
Lemma upd_same : forall m i j v, upd m i j v i j = v.
Proof. intros. unfold upd. now rewrite !Nat.eqb_refl. Qed.
Lemma upd_other : forall m i j v a b, (a <> i \/ b <> j)%nat -> upd m i j v a b = m a b.
Proof.
  intros m i j v a b H. unfold upd. destruct (Nat.eqb_spec a i); [|reflexivity].
  destruct (Nat.eqb_spec b j); [|reflexivity]. lia.
Qed.
Lemma updv_same : forall w i x, updv w i x i = x.
Proof. intros. unfold updv. now rewrite Nat.eqb_refl. Qed.
Lemma updv_other : forall w i x a, a <> i -> updv w i x a = w a.
Proof. intros. unfold updv. destruct (Nat.eqb_spec a i); congruence. Qed.

(** ** Sums *)
Lemma sumn_ext : forall n f g, (forall k, (k < n)%nat -> f k = g k) -> sumn n f = sumn n g.
Proof.
  induction n as [|n IH]; intros f g H; cbn; [reflexivity|].
  rewrite (IH f g) by (intros; apply H; lia). rewrite H by lia. reflexivity.
Qed.
Lemma sumn_add : forall n f g, sumn n (fun k => f k + g k) = sumn n f + sumn n g.
Proof. induction n as [|n IH]; intros; cbn; [lra|]. rewrite IH. lra. Qed.
Lemma sumn_sub : forall n f g, sumn n (fun k => f k - g k) = sumn n f - sumn n g.
Proof. induction n as [|n IH]; intros; cbn; [lra|]. rewrite IH. lra. Qed.
Lemma sumn_scal : forall n c f, sumn n (fun k => c * f k) = c * sumn n f.
Proof. induction n as [|n IH]; intros; cbn; [lra|]. rewrite IH. lra. Qed.
Lemma sumn_scal_r : forall n c f, sumn n (fun k => f k * c) = sumn n f * c.
Proof. induction n as [|n IH]; intros; cbn; [lra|]. rewrite IH. lra. Qed.
Lemma sumn_0 : forall n f, (forall k, (k < n)%nat -> f k = 0) -> sumn n f = 0.
Proof.
  induction n as [|n IH]; intros f H; cbn; [reflexivity|].
  rewrite IH by (intros; apply H; lia). rewrite H by lia. lra.
Qed.
Lemma sumn_nonneg : forall n f, (forall k, (k < n)%nat -> 0 <= f k) -> 0 <= sumn n f.
Proof.
  induction n as [|n IH]; intros f H; cbn; [lra|].
  assert (0 <= sumn n f) by (apply IH; intros; apply H; lia). assert (0 <= f n) by (apply H; lia). lra.
Qed.
Lemma sumn_le : forall n f g, (forall k, (k < n)%nat -> f k <= g k) -> sumn n f <= sumn n g.
Proof.
  induction n as [|n IH]; intros f g H; cbn; [lra|].
  assert (sumn n f <= sumn n g) by (apply IH; intros; apply H; lia). assert (f n <= g n) by (apply H; lia). lra.
Qed.
Lemma sumn_swap : forall n m f, sumn n (fun i => sumn m (fun j => f i j)) = sumn m (fun j => sumn n (fun i => f i j)).
Proof.
  induction n as [|n IH]; intros m f; cbn.
  - symmetry. apply sumn_0. reflexivity.
  - rewrite IH, <- sumn_add. reflexivity.
Qed.

(** A sum with a single non-zero term. *)
Lemma sumn_single : forall n k f, (k < n)%nat -> (forall i, (i < n)%nat -> i <> k -> f i = 0) -> sumn n f = f k.
Proof.
  induction n as [|n IH]; intros k f Hk Hf; [lia|]. cbn.
  destruct (Nat.eq_dec k n) as [->|Hne].
  - rewrite sumn_0; [lra|]. intros i Hi. apply Hf; lia.
  - rewrite (IH k) by (try lia; intros; apply Hf; lia). rewrite (Hf n) by lia. lra.
Qed.

(** Taking out one term. *)
Lemma sumn_out : forall n k f, (k < n)%nat ->
  sumn n f = f k + sumn n (fun i => if Nat.eqb i k then 0 else f i).
Proof.
  intros n k f Hk.
  rewrite (sumn_ext n f (fun i => (if Nat.eqb i k then f i else 0) + (if Nat.eqb i k then 0 else f i))).
  - rewrite sumn_add. f_equal. rewrite (sumn_single n k); auto.
    + now rewrite Nat.eqb_refl.
    + intros i _ Hne. apply Nat.eqb_neq in Hne. now rewrite Hne.
  - intros i _. destruct (Nat.eqb i k); lra.
Qed.

Lemma sumn_split : forall n m f, (m <= n)%nat ->
  (forall k, (m <= k < n)%nat -> f k = 0) -> sumn n f = sumn m f.
Proof.
  intros n m f Hle Hz. induction n as [|n IH].
  - now replace m with 0%nat by lia.
  - destruct (Nat.eq_dec m (S n)) as [->|Hne]; [reflexivity|]. cbn. rewrite IH, Hz by (try lia; intros; apply Hz; lia). lra.
Qed.

(** Renaming the index by an involution of [0..n-1]. *)
Definition swapi (a b : nat) (i : nat) : nat := if Nat.eqb i a then b else if Nat.eqb i b then a else i.
Lemma swapi_invol : forall a b i, swapi a b (swapi a b i) = i.
Proof.
  intros a b i. unfold swapi. destruct (Nat.eqb_spec i a) as [->|H1].
  - rewrite Nat.eqb_refl. destruct (Nat.eqb_spec b a); congruence.
  - destruct (Nat.eqb_spec i b) as [->|H2].
    + rewrite Nat.eqb_refl. reflexivity.
    + destruct (Nat.eqb_spec i a); try congruence. destruct (Nat.eqb_spec i b); congruence.
Qed.
Lemma swapi_lt : forall n a b i, (a < n -> b < n -> i < n -> swapi a b i < n)%nat.
Proof. intros. unfold swapi. destruct (Nat.eqb i a), (Nat.eqb i b); lia. Qed.
Lemma swapi_l : forall a b, swapi a b a = b.
Proof. intros. unfold swapi. now rewrite Nat.eqb_refl. Qed.
Lemma swapi_r : forall a b, swapi a b b = a.
Proof. intros. unfold swapi. destruct (Nat.eqb_spec b a); [auto|]. now rewrite Nat.eqb_refl. Qed.
Lemma swapi_o : forall a b i, i <> a -> i <> b -> swapi a b i = i.
Proof. intros. unfold swapi. destruct (Nat.eqb_spec i a), (Nat.eqb_spec i b); congruence. Qed.

(** ** Quadratic forms *)
Definition quad (n : nat) (m : mat) (x : vec) : R := sumn n (fun i => sumn n (fun j => x i * m i j * x j)).
Definition sq (n : nat) (x : vec) : R := sumn n (fun i => x i * x i).
(** Symmetric and non-negative on every vector. *)
Definition sym (n : nat) (m : mat) : Prop := forall i j, (i < n -> j < n -> m i j = m j i)%nat.
Definition psd (n : nat) (m : mat) : Prop := forall x, 0 <= quad n m x.

Lemma quad_ext : forall n m m' x y,
  (forall i j, (i < n -> j < n -> m i j = m' i j)%nat) -> (forall i, (i < n)%nat -> x i = y i) ->
  quad n m x = quad n m' y.
Proof.
  intros n m m' x y Hm Hx. unfold quad. apply sumn_ext; intros i Hi. apply sumn_ext; intros j Hj.
  now rewrite Hm, !Hx by assumption.
Qed.

Lemma mmul_eye_r : forall n a i j, (j < n)%nat -> mmul n a meye i j = a i j.
Proof.
  intros n a i j Hj. unfold mmul, meye, mdiag. rewrite (sumn_single n j); auto.
  - rewrite Nat.eqb_refl. lra.
  - intros k _ Hk. apply Nat.eqb_neq in Hk. rewrite Hk. lra.
Qed.
Lemma mmul_eye_l : forall n a i j, (i < n)%nat -> mmul n meye a i j = a i j.
Proof.
  intros n a i j Hi. unfold mmul, meye, mdiag. rewrite (sumn_single n i); auto.
  - rewrite Nat.eqb_refl. lra.
  - intros k _ Hk. destruct (Nat.eqb_spec i k); [congruence|lra].
Qed.
Lemma mmul_ext : forall n a a' b b' i j,
  (forall k, (k < n)%nat -> a i k = a' i k) -> (forall k, (k < n)%nat -> b k j = b' k j) ->
  mmul n a b i j = mmul n a' b' i j.
Proof. intros. unfold mmul. apply sumn_ext. intros k Hk. now rewrite H, H0. Qed.
Lemma mmul_assoc : forall n m a b c i j, mmul n (mmul m a b) c i j = mmul m a (mmul n b c) i j.
Proof.
  intros. unfold mmul.
  transitivity (sumn n (fun k => sumn m (fun l => a i l * b l k * c k j))).
  - apply sumn_ext; intros k _. rewrite <- sumn_scal_r. reflexivity.
  - rewrite sumn_swap. apply sumn_ext; intros l _. rewrite <- sumn_scal. apply sumn_ext; intros k _. lra.
Qed.
Lemma tr_mmul : forall n a b i j, tr (mmul n a b) i j = mmul n (tr b) (tr a) i j.
Proof. intros. unfold tr, mmul. apply sumn_ext. intros. lra. Qed.

(** A Gram matrix is positive semi-definite. *)
Lemma gram_quad : forall n m c x, quad n (mmul m (tr c) c) x = sumn m (fun k => (sumn n (fun i => c k i * x i)) ^ 2).
Proof.
  intros. unfold quad, mmul, tr.
  transitivity (sumn n (fun i => sumn n (fun j => sumn m (fun k => (c k i * x i) * (c k j * x j))))).
  - apply sumn_ext; intros i _. apply sumn_ext; intros j _. rewrite <- sumn_scal, <- sumn_scal_r. apply sumn_ext; intros; lra.
  - transitivity (sumn n (fun i => sumn m (fun k => (c k i * x i) * sumn n (fun j => c k j * x j)))).
    + apply sumn_ext; intros i _. rewrite sumn_swap. apply sumn_ext; intros k _. now rewrite sumn_scal.
    + rewrite sumn_swap. apply sumn_ext; intros k _. rewrite sumn_scal_r. lra.
Qed.
