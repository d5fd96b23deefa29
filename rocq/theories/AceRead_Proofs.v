(** Reading a cross section at given energies (single linear-linear region). *)
From Verif Require Import Num Chi_Model AceEdit_Model AceEdit_Spec AceEdit_Proofs AceEdit2_Proofs.

Lemma far_not_close a b : far a b -> isclose a b = false.
Proof.
  unfold far, isclose. intros [H Hb]. apply qleb_nle.
  assert (Eb : qabs b = b) by (destruct (qabs_spec b) as [[_ E]|[K _]]; [exact E|qclra]).
  rewrite Eb. destruct (qabs_spec (a - b)) as [[K ->]|[K ->]]; destruct H; qclra.
Qed.

Lemma isclose_refl a : isclose a a = true.
Proof.
  unfold isclose. apply qleb_le. destruct (qabs_spec (a - a)) as [[K ->]|[K ->]];
  destruct (qabs_spec a) as [[K2 ->]|[K2 ->]]; qclra.
Qed.

Lemma increasing_tl x xs : increasing (x :: xs) -> increasing xs.
Proof. intros H i j Hij. apply (H (S i) (S j)). cbn [length]. lia. Qed.

Lemma ssright_ge_n xs e : (forall i, (i < length xs)%nat -> (nth i xs 0 <= e)%Qc) -> ssright xs e = length xs.
Proof.
  induction xs as [|x r IH]; cbn [ssright length]; intros H; [reflexivity|].
  assert (E : qleb x e = true) by (apply qleb_le; apply (H 0%nat); lia).
  rewrite E, IH; [reflexivity|]. intros i Hi. apply (H (S i)). lia.
Qed.

Lemma ssright_at xs e : forall i, (S i < length xs)%nat -> increasing xs ->
  (nth i xs 0 <= e)%Qc -> (e < nth (S i) xs 0)%Qc -> ssright xs e = S i.
Proof.
  induction xs as [|x r IH]; intros i Hi Hinc H1 H2; cbn [length] in Hi; [lia|].
  assert (E : qleb x e = true).
  { apply qleb_le. destruct i as [|i]; [exact H1|].
    assert (x < nth (S i) (x :: r) 0)%Qc by (apply (Hinc 0%nat (S i)); cbn [length]; lia). qclra. }
  cbn [ssright]. rewrite E. f_equal. destruct i as [|i].
  - destruct r as [|x2 r2]; cbn [length] in Hi; [lia|]. cbn [ssright].
    assert (E2 : qleb x2 e = false) by (apply qleb_nle; exact H2). now rewrite E2.
  - apply IH; auto; [lia|now apply increasing_tl in Hinc].
Qed.

Lemma ssright_below xs e : xs <> [] -> (e < hd 0 xs)%Qc -> ssright xs e = 0%nat.
Proof.
  destruct xs as [|x r]; [congruence|]. cbn [hd ssright]. intros _ H.
  apply qleb_nle in H. now rewrite H.
Qed.

(** Between two tabulated energies the straight line through the two points. *)
Lemma tab_at_between t e i :
  (S i < length (tx t))%nat -> increasing (tx t) ->
  (nth i (tx t) 0 <= e)%Qc -> (e < nth (S i) (tx t) 0)%Qc ->
  isclose e (last (tx t) 0%Qc) = false -> isclose e (hd 0%Qc (tx t)) = false ->
  tab_at t e = (nth i (ty t) 0 + (e - nth i (tx t) 0) / (nth (S i) (tx t) 0 - nth i (tx t) 0)
                 * (nth (S i) (ty t) 0 - nth i (ty t) 0))%Qc.
Proof.
  intros Hi Hinc H1 H2 C1 C2. unfold tab_at. rewrite C1, C2.
  rewrite (ssright_at _ _ i Hi Hinc H1 H2). apply Nat.ltb_lt in Hi. now rewrite Hi.
Qed.

Lemma last_nth_q (l : list Qc) d : last l d = nth (length l - 1) l d.
Proof.
  induction l as [|a r IH]; [reflexivity|]. destruct r as [|b r']; [reflexivity|].
  change (last (a :: b :: r') d) with (last (b :: r') d). rewrite IH. cbn [length].
  now replace (S (S (length r')) - 1)%nat with (S (S (length r') - 1))%nat by lia.
Qed.

Lemma hd_nth_q (l : list Qc) d : hd d l = nth 0 l d.
Proof. now destruct l. Qed.

(** At a tabulated energy the tabulated value. *)
Lemma tab_at_grid t i :
  (i < length (tx t))%nat -> length (ty t) = length (tx t) ->
  increasing (tx t) -> ends_separated (tx t) ->
  tab_at t (nth i (tx t) 0%Qc) = nth i (ty t) 0%Qc.
Proof.
  intros Hi L Hinc Hsep. destruct (Hsep i Hi) as [S1 S2].
  destruct (Nat.eq_dec i (length (tx t) - 1)) as [->|D].
  { unfold tab_at. rewrite <- last_nth_q, isclose_refl. rewrite last_nth_q, L. reflexivity. }
  assert (Hlt : (S i < length (tx t))%nat) by lia.
  assert (N1 : nth i (tx t) 0%Qc <> last (tx t) 0%Qc).
  { rewrite last_nth_q. intros E.
    assert (K : (nth i (tx t) 0 < nth (length (tx t) - 1) (tx t) 0)%Qc) by (apply Hinc; lia).
    rewrite E in K. qclra. }
  pose proof (far_not_close _ _ (S1 N1)) as C1.
  destruct (Nat.eq_dec i 0) as [->|D0].
  { unfold tab_at. rewrite C1, <- hd_nth_q, isclose_refl. rewrite hd_nth_q. reflexivity. }
  assert (N2 : nth i (tx t) 0%Qc <> hd 0%Qc (tx t)).
  { rewrite hd_nth_q. intros E.
    assert (K : (nth 0 (tx t) 0 < nth i (tx t) 0)%Qc) by (apply Hinc; lia).
    rewrite E in K. qclra. }
  pose proof (far_not_close _ _ (S2 N2)) as C2.
  assert (K : (nth i (tx t) 0 < nth (S i) (tx t) 0)%Qc) by (apply Hinc; lia).
  rewrite (tab_at_between t _ i); auto; [|qclra].
  replace (nth i (tx t) 0 - nth i (tx t) 0)%Qc with 0%Qc by ring.
  unfold Qcdiv. ring.
Qed.

(** Outside the tabulated range (and not within the tolerance of an end): zero. *)
Lemma tab_at_outside t e :
  tx t <> [] -> isclose e (last (tx t) 0%Qc) = false -> isclose e (hd 0%Qc (tx t)) = false ->
  ((e < hd 0 (tx t))%Qc \/ (forall i, (i < length (tx t))%nat -> (nth i (tx t) 0 <= e)%Qc)) ->
  tab_at t e = 0%Qc.
Proof.
  intros Hne C1 C2 [H|H]; unfold tab_at; rewrite C1, C2.
  - now rewrite ssright_below.
  - rewrite ssright_ge_n by exact H. destruct (tx t) as [|x r]; [congruence|]. cbn [length].
    now rewrite Nat.ltb_irrefl.
Qed.

(** C01, on grids whose points are separated from the end points: the value at
    every energy is the evaluated value plus the change of the constituents. *)
Lemma redundant_balanced_grid t h sm r0 :
  wf_table t -> lookup sm (reactions t) = Some r0 ->
  increasing (tx r0) -> ends_separated (tx r0) ->
  (exists m, part_of sm m /\ In m (map fst (reactions t)) /\ In m (adjusted (after_pass t h))) ->
  exists ys, get_sigma (after_pass t h) sm None false = Some ys /\ length ys = length (tx r0) /\
    forall i, (i < length (tx r0))%nat ->
      nth i ys 0%Qc = (nth i (ty r0) 0
        + qsum (map (change (after_pass t h) (nth i (tx r0) 0)) (constituents t sm)))%Qc.
Proof.
  intros Hwf E0 Hinc Hsep Hex.
  assert (Hk : In sm (map fst (reactions t))) by now apply lookup_Some_key in E0.
  destruct (redundant_balanced t h sm Hwf Hk Hex) as (es & ys & H1 & H2 & H3).
  assert (Hes : es = tx r0).
  { pose proof (all_grids_unchanged t (h ++ [SumRules]) sm Hwf) as G.
    unfold run in G. rewrite fold_left_app in G. cbn [fold_left do_call] in G.
    change (get_energy (after_pass t h) sm = get_energy (open_editor t) sm) in G.
    rewrite H1 in G. unfold get_energy in G. cbn [open_editor cur] in G.
    destruct (wf_lookup _ _ _ Hwf E0) as (N & _). apply Z.eqb_neq in N. rewrite N, E0 in G.
    cbn in G. congruence. }
  subst es. exists ys. split; [exact H2|]. split; [subst ys; apply map_length|].
  intros i Hi. rewrite H3.
  set (f := fun e => (reading (after_pass t h) true sm e
                       + qsum (map (change (after_pass t h) e) (constituents t sm)))%Qc).
  rewrite nth_indep with (d' := f 0%Qc) by now rewrite map_length.
  rewrite map_nth. unfold f. f_equal.
  rewrite (reading_orig t) by auto using Inv_after_pass. rewrite E0.
  apply tab_at_grid; auto. now destruct (wf_lookup _ _ _ Hwf E0) as (_ & _ & _ & L).
Qed.
