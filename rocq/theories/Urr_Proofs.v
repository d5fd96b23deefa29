(** Proofs about probability tables. *)
From Coq Require Import ZArith QArith Qcanon List Bool Arith Lia.
From Verif Require Import Num Neut_Model Neut_Spec Neut_Proofs NeutSum_Proofs NeutAll_Proofs NeutFinal_Proofs Nubar_Spec Nubar_Proofs Urr_Spec.
Import ListNotations.
Local Open Scope Z_scope.

Lemma pieces_concat {B} (f : nat -> list B) m : (forall i, length (f i) = m) -> forall n s, pieces n m (concat (map f (seq s n))) = map f (seq s n).
Proof.
  intros Hm. induction n as [|n IH]; intros s; [reflexivity|]. cbn [seq map concat pieces]. f_equal.
  - rewrite <- (Hm s). rewrite firstn_app, Nat.sub_diag, firstn_all. cbn. apply app_nil_r.
  - rewrite <- (Hm s) at 2. rewrite skipn_app, Nat.sub_diag, skipn_all. cbn. apply IH.
Qed.
Lemma concat_len {B} (f : nat -> list B) m : (forall i, length (f i) = m) -> forall n s, length (concat (map f (seq s n))) = (n * m)%nat.
Proof. intros Hm. induction n as [|n IH]; intros s; [reflexivity|]. cbn [seq map concat]. rewrite app_length, Hm, IH. reflexivity. Qed.
Lemma nth_map_seq {B} (f : nat -> B) n i : nth_error (map f (seq 0 n)) i = if (i <? n)%nat then Some (f i) else None.
Proof.
  destruct (Nat.ltb_spec i n) as [H|H].
  - apply map_nth_error. rewrite (nth_error_nth' _ 0%nat) by (rewrite seq_length; lia). now rewrite seq_nth.
  - apply nth_error_None. rewrite map_length, seq_length. lia.
Qed.

Lemma ladder_reads a l u : jxs a 23 <> 0 -> stands (xss a) (jxs a 23) (ladder_words l) -> urr_from_ace a = Some u ->
  (ld_interp l = 2 \/ ld_interp l = 5) /\ exists v, u = Some v /\ ladder_read l v.
Proof.
  intros J St H. unfold urr_from_ace in H. cbv zeta in H. destruct (Z.eqb_spec (jxs a 23) 0) as [?|_]; [contradiction|]. unfold ladder_words in St.
  set (T := concat (map _ (seq 0 (length (ld_energies l))))) in St. set (p := jxs a 23) in *.
  apply stands_app in St. destruct St as [Sh St]. change (Z.of_nat (length _)) with 6 in St. apply stands_app in St. destruct St as [Se St].
  rewrite (int_at_stands _ _ _ _ Sh) in H. apply stands_cons in Sh. destruct Sh as [_ Sh]. rewrite (int_at_stands _ _ _ _ Sh) in H. apply stands_cons in Sh. destruct Sh as [_ Sh].
  replace (p + 1 + 1) with (p + 2) in Sh by lia. rewrite (int_at_stands _ _ _ _ Sh) in H. apply stands_cons in Sh. destruct Sh as [_ Sh].
  replace (p + 2 + 1) with (p + 3) in Sh by lia. rewrite (int_at_stands _ _ _ _ Sh) in H. apply stands_cons in Sh. destruct Sh as [_ Sh].
  replace (p + 3 + 1) with (p + 4) in Sh by lia. rewrite (int_at_stands _ _ _ _ Sh) in H. apply stands_cons in Sh. destruct Sh as [_ Sh].
  replace (p + 4 + 1) with (p + 5) in Sh by lia. rewrite (int_at_stands _ _ _ _ Sh) in H. clear Sh.
  rewrite (slice_stands _ _ _ _ Se eq_refl) in H.
  set (q := fun i => concat (map (fun k => map (ld_entry l i k) (seq 0 (ld_bands l))) (seq 0 6))) in T.
  assert (Lq : forall i, length (q i) = (6 * ld_bands l)%nat) by (intros i; apply concat_len; intros k; now rewrite map_length, seq_length).
  assert (LT : length T = (length (ld_energies l) * (6 * ld_bands l))%nat) by (apply concat_len; exact Lq).
  rewrite (slice_stands _ _ _ _ St) in H by lia.
  destruct (_ && _ && _ && _) eqn:C in H; [|discriminate]. apply (f_equal (fun o => match o with Some v => v | None => u end)) in H. cbv beta iota in H. subst u. apply andb_true_iff in C. destruct C as [_ C]. apply orb_true_iff in C. rewrite !Z.eqb_eq in C. split; [exact C|].
  eexists. split; [reflexivity|]. split; [reflexivity|]. cbn [u_interp u_inelastic u_absorption u_smooth]. split; [|repeat split; apply Z.eqb_eq].
  intros i k j. unfold read_entry. cbn [u_table]. rewrite !Nat2Z.id. unfold T. rewrite (pieces_concat q (6 * ld_bands l) Lq), !map_map, nth_map_seq.
  destruct (i <? length (ld_energies l))%nat; [|reflexivity]. cbn [andb].
  pose proof (pieces_concat (fun k => map (ld_entry l i k) (seq 0 (ld_bands l))) (ld_bands l) (fun k => eq_trans (map_length _ _) (seq_length _ _)) 6%nat 0%nat) as P6.
  change (concat (map _ (seq 0 6))) with (q i) in P6. cbv beta. rewrite P6.
  cbn [seq map heat]. do 5 (destruct k as [|k]; [cbn; apply nth_map_seq|]). destruct k as [|k]; [|cbn; now destruct k].
  cbn [nth_error]. unfold mega. rewrite map_map, nth_map_seq. reflexivity.
Qed.

Section In.
Context {D A : Type} (R : readers D A).
Variables (a0 : ace) (c : content) (n : @neutron D A) (x : list Qc).
Hypothesis (S0 : says a0 c) (AP : apart a0 c) (ONCE : listed_once c) (OK : from_ace R a0 = Some (n, x)).
Lemma ladder_in l : has_ladder a0 c l -> (ld_interp l = 2 \/ ld_interp l = 5) /\ exists u, n_urr n = Some u /\ ladder_read l u.
Proof.
  intros [J K]. destruct (whole_ok R a0 c S0 AP ONCE n x OK) as (d0 & d & a1 & W). pose proof (w_inv _ _ _ _ _ _ _ _ W) as I.
  apply (ladder_reads a1); [now rewrite (i_jxs _ _ _ _ I)|rewrite (i_jxs _ _ _ _ I); exact (kept_stands a0 c _ a1 _ _ I K)|exact (w_urr _ _ _ _ _ _ _ _ W)].
Qed.
Lemma no_ladder : jxs a0 23 = 0 -> n_urr n = None.
Proof.
  intros J. destruct (whole_ok R a0 c S0 AP ONCE n x OK) as (d0 & d & a1 & W). pose proof (w_urr _ _ _ _ _ _ _ _ W) as U.
  unfold urr_from_ace in U. cbv zeta in U. rewrite (i_jxs _ _ _ _ (w_inv _ _ _ _ _ _ _ _ W)), J in U. cbn in U. congruence.
Qed.
End In.
