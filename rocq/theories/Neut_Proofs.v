(** Reading cross sections: proofs. *)
From Coq Require Import ZArith QArith Qcanon List Bool Arith Lia.
From Verif Require Import Num Neut_Model Neut_Spec.
From Verif Require Sums_Model Sums_Spec Sums_Proofs AceEdit_Model AceEdit_Spec AceRead_Proofs.
Import ListNotations.
Local Open Scope Z_scope.

(** *** Lists *)
Lemma ext_err {T} : forall a b : list T, (forall j, nth_error a j = nth_error b j) -> a = b.
Proof.
  induction a as [|u a IH]; intros [|v b] H; [reflexivity| | |].
  - discriminate (H O).
  - discriminate (H O).
  - pose proof (H O) as H0. cbn in H0. inversion H0; subst. f_equal. apply IH. intros j. exact (H (S j)).
Qed.
Lemma err_skipn {T} (l : list T) : forall n j, nth_error (skipn n l) j = nth_error l (n + j).
Proof. induction l as [|a l IH]; intros [|n] j; cbn; try reflexivity; [now destruct j|apply IH]. Qed.
Lemma err_firstn {T} (l : list T) : forall n j, nth_error (firstn n l) j = if (j <? n)%nat then nth_error l j else None.
Proof.
  induction l as [|a l IH]; intros [|n] [|j]; cbn [firstn nth_error]; try reflexivity.
  - now destruct (S j <? S n)%nat.
  - rewrite IH. change (S j <? S n)%nat with (j <? n)%nat. reflexivity.
Qed.
Lemma err_app {T} (a b : list T) j : nth_error (a ++ b) j = if (j <? length a)%nat then nth_error a j else nth_error b (j - length a).
Proof.
  destruct (Nat.ltb_spec j (length a)); [now apply nth_error_app1|now apply nth_error_app2].
Qed.
Lemma err_map {T U} (f : T -> U) (l : list T) j : nth_error (map f l) j = option_map f (nth_error l j).
Proof. revert j; induction l as [|a l IH]; intros [|j]; cbn; try reflexivity. apply IH. Qed.
Lemma err_none {T} (l : list T) j : (length l <= j)%nat -> nth_error l j = None.
Proof. apply nth_error_None. Qed.
Lemma err_lt {T} (l : list T) j v : nth_error l j = Some v -> (j < length l)%nat.
Proof. intros H. apply nth_error_Some. congruence. Qed.
Lemma err_ex {T} (l : list T) j : (j < length l)%nat -> exists v, nth_error l j = Some v.
Proof. intros H. destruct (nth_error l j) eqn:E; [eauto|]. apply nth_error_None in E. lia. Qed.

(** *** Words *)
Lemma int_qz z : int (qz z) = z.
Proof.
  unfold int, qz, Q2Qc; cbn [this]. pose proof (Z.ggcd_gcd z 1) as G. pose proof (Z.ggcd_correct_divisors z 1) as C.
  unfold Qred. change (Zpos 1) with 1. destruct (Z.ggcd z 1) as (g, (aa, bb)). cbn [fst] in G. cbn [Qnum Qden].
  rewrite Z.gcd_1_r in G. subst g. destruct C as [C1 C2]. assert (aa = z) by lia. assert (bb = 1) by lia. subst. cbn [snd Z.to_pos Qnum Qden]. now rewrite Z.quot_1_r.
Qed.
Lemma qz_inj a b : qz a = qz b -> a = b.
Proof. intros E. now rewrite <- (int_qz a), <- (int_qz b), E. Qed.

Lemma stands_iff x p l : stands x p l <-> 0 <= p /\ p + Z.of_nat (length l) <= Z.of_nat (length x) /\
  forall j, (j < length l)%nat -> nth_error x (Z.to_nat p + j) = nth_error l j.
Proof.
  split.
  - intros (u & w & -> & <-). rewrite !app_length. split; [lia|]. split; [lia|]. intros j Hj. rewrite Nat2Z.id.
    rewrite nth_error_app2 by lia. replace (length u + j - length u)%nat with j by lia. now rewrite nth_error_app1.
  - intros (P & L & H). exists (firstn (Z.to_nat p) x), (skipn (Z.to_nat p + length l) x).
    split; [|rewrite firstn_length; lia]. apply ext_err. intros j.
    rewrite !err_app, err_firstn, err_skipn, firstn_length.
    destruct (Nat.ltb_spec j (Nat.min (Z.to_nat p) (length x))) as [C|C].
    + destruct (Nat.ltb_spec j (Z.to_nat p)); [reflexivity|lia].
    + destruct (Nat.ltb_spec (j - Nat.min (Z.to_nat p) (length x)) (length l)) as [C2|C2].
      * rewrite <- H by exact C2. f_equal. lia.
      * f_equal. lia.
Qed.
Lemma stands_app x p l m : stands x p (l ++ m) -> stands x p l /\ stands x (p + Z.of_nat (length l)) m.
Proof.
  intros (u & w & -> & <-). split.
  - exists u, (m ++ w). now rewrite <- app_assoc.
  - exists (u ++ l), w. rewrite <- !app_assoc, app_length. split; [reflexivity|lia].
Qed.
Lemma stands_cons x p v l : stands x p (v :: l) -> stands x p [v] /\ stands x (p + 1) l.
Proof. intros H. apply (stands_app x p [v] l) in H. exact H. Qed.
Lemma at_stands x p v l : stands x p (v :: l) -> at_ x p = Some v.
Proof.
  intros H. apply stands_iff in H as (P & L & H). unfold at_. rewrite (proj2 (Z.leb_le _ _) P).
  specialize (H O ltac:(cbn; lia)). now rewrite Nat.add_0_r in H.
Qed.
Lemma int_at_stands x p z l : stands x p (qz z :: l) -> int_at x p = Some z.
Proof. intros H. unfold int_at. rewrite (at_stands _ _ _ _ H). cbn. now rewrite int_qz. Qed.
Lemma stands_one x p u v l m : stands x p (u :: l) -> stands x p (v :: m) -> u = v.
Proof. intros H K. apply at_stands in H, K. congruence. Qed.
Lemma bound_in {T} (x : list T) p : 0 <= p <= Z.of_nat (length x) -> bound x p = Z.to_nat p.
Proof. intros H. unfold bound. destruct (Z.ltb_spec p 0); [lia|]. f_equal. lia. Qed.
Lemma slice_in {T} (x : list T) p m : 0 <= p -> 0 <= m -> p + m <= Z.of_nat (length x) -> slice x p (p + m) = firstn (Z.to_nat m) (skipn (Z.to_nat p) x).
Proof.
  intros P M H. unfold slice. rewrite !bound_in by lia. f_equal. lia.
Qed.
Lemma slice_stands x p l m : stands x p l -> m = Z.of_nat (length l) -> slice x p (p + m) = l.
Proof.
  intros H ->. pose proof H as H'. apply stands_iff in H as (P & L & H). rewrite slice_in by lia. destruct H' as (u & w & -> & <-).
  rewrite Nat2Z.id. rewrite Nat2Z.id. rewrite skipn_app, skipn_all, Nat.sub_diag. cbn [skipn app]. rewrite firstn_app, firstn_all, Nat.sub_diag. cbn [firstn]. now rewrite app_nil_r.
Qed.

(** *** Clearing negatives *)
Lemma clip_clip v : clip (clip v) = clip v.
Proof. unfold clip. destruct (qltb v 0) eqn:E; [reflexivity|now rewrite E]. Qed.
Lemma clear_length x p m : 0 <= p -> 0 <= m -> p + m <= Z.of_nat (length x) -> length (clear_negative x p (p + m)) = length x.
Proof.
  intros P M H. unfold clear_negative. rewrite !app_length, map_length, firstn_length, skipn_length, bound_in by lia.
  rewrite slice_in by lia. rewrite firstn_length, skipn_length. lia.
Qed.
Lemma clear_nth x p m j : 0 <= p -> 0 <= m -> p + m <= Z.of_nat (length x) ->
  nth_error (clear_negative x p (p + m)) j = if (p <=? Z.of_nat j) && (Z.of_nat j <? p + m) then option_map clip (nth_error x j) else nth_error x j.
Proof.
  intros P M H. unfold clear_negative. rewrite bound_in, slice_in by lia. cbv zeta.
  rewrite !err_app, map_length, err_map, !err_firstn, !err_skipn, !firstn_length, skipn_length.
  destruct (Z.leb_spec p (Z.of_nat j)) as [C1|C1]; cbn [andb].
  - replace (j <? Nat.min (Z.to_nat p) (length x))%nat with false by (symmetry; apply Nat.ltb_ge; lia).
    destruct (Z.ltb_spec (Z.of_nat j) (p + m)) as [C2|C2].
    + replace (j - Nat.min (Z.to_nat p) (length x) <? Nat.min (Z.to_nat m) (length x - Z.to_nat p))%nat with true by (symmetry; apply Nat.ltb_lt; lia).
      replace (j - Nat.min (Z.to_nat p) (length x) <? Z.to_nat m)%nat with true by (symmetry; apply Nat.ltb_lt; lia).
      replace (Z.to_nat p + (j - Nat.min (Z.to_nat p) (length x)))%nat with j by lia. reflexivity.
    + replace (j - Nat.min (Z.to_nat p) (length x) <? Nat.min (Z.to_nat m) (length x - Z.to_nat p))%nat with false by (symmetry; apply Nat.ltb_ge; lia).
      f_equal. lia.
  - replace (j <? Nat.min (Z.to_nat p) (length x))%nat with true by (symmetry; apply Nat.ltb_lt; lia).
    now replace (j <? Z.to_nat p)%nat with true by (symmetry; apply Nat.ltb_lt; lia).
Qed.

(** *** The loop over reactions *)
Section Loop.
Context {D A : Type} (R : readers D A).
Variables (a0 : ace) (c : content).
Hypothesis (S0 : says a0 c) (AP : apart a0 c).

(** Valued by one of the first [k] reactions. *)
Definition valued_by (k : nat) (p : Z) : Prop :=
  exists k' q, (k' < k)%nat /\ values_at a0 c k' q /\ q <= p < q + Z.of_nat (length (values_of c k')).
(** XSS after the first [k] reactions. *)
Record inv (k : nat) (a : ace) : Prop := {
  i_nxs : nxs a = nxs a0; i_jxs : jxs a = jxs a0;
  i_length : length (xss a) = length (xss a0);
  i_word : forall p v, nth_error (xss a0) p = Some v -> exists v', nth_error (xss a) p = Some v' /\ (v' = v \/ v' = clip v) /\
    (valued_by k (Z.of_nat p) -> v' = clip v) /\ (~ valued a0 c (Z.of_nat p) -> v' = v) }.
Lemma inv_0 : inv 0 a0.
Proof.
  split; try reflexivity. intros p v H. exists v. repeat split; auto. intros (k' & q & L & _). lia.
Qed.
Lemma values_at_fun k p q : values_at a0 c k p -> values_at a0 c k q -> p = q.
Proof.
  destruct k; cbn [values_at]; [congruence|]. intros (l & H & ->) (m & K & ->). pose proof (stands_one _ _ _ _ _ _ H K) as E. apply qz_inj in E. congruence.
Qed.
(** Words that are not cross sections stay. *)
Lemma stands_kept k a p l : inv k a -> stands (xss a0) p l -> (forall j, p <= j < p + Z.of_nat (length l) -> ~ valued a0 c j) -> stands (xss a) p l.
Proof.
  intros I H N. apply stands_iff in H as (P & L & H). apply stands_iff. rewrite (i_length _ _ I). split; [exact P|]. split; [exact L|].
  intros j Hj. pose proof (H j Hj) as E. destruct (err_ex l j Hj) as (v & Ev). rewrite Ev in *. destruct (i_word _ _ I _ _ E) as (v' & E' & _ & _ & K).
  rewrite E'. f_equal. apply K. apply N. lia.
Qed.
Lemma stands_kept1 k a p v : inv k a -> stands (xss a0) p [v] -> ~ valued a0 c p -> stands (xss a) p [v].
Proof. intros I H N. apply (stands_kept k); auto. cbn [length]. intros j Hj. now replace j with p by lia. Qed.
(** Where the values of a reaction stand. *)
Lemma values_stand k : (k <= length (c_channels c))%nat -> exists p, values_at a0 c k p /\ stands (xss a0) p (values_of c k).
Proof.
  intros Hk. destruct k as [|i]; cbn [values_at values_of].
  - eexists. split; [reflexivity|]. destruct (s_grid _ _ S0) as [_ G]. destruct (s_lengths _ _ S0) as (L1 & L2 & L3).
    rewrite !app_assoc in G. apply stands_app in G as [_ G]. rewrite !app_length, L1, L2 in G.
    replace (jxs a0 1 + Z.of_nat (length (c_grid c) + length (c_grid c) + length (c_grid c))) with (jxs a0 1 + 3 * Z.of_nat (length (c_grid c))) in G by lia. exact G.
  - destruct (err_ex (c_channels c) i ltac:(lia)) as (r & E). rewrite E. destruct (s_channel _ _ S0 i r E) as (_ & _ & _ & _ & loc & H1 & H2).
    exists (jxs a0 7 + loc + 1). split; [exists loc; auto|]. apply stands_cons in H2 as [_ H2]. apply stands_cons in H2 as [_ H2].
    now replace (jxs a0 7 + loc - 1 + 1 + 1) with (jxs a0 7 + loc + 1) in H2 by lia.
Qed.
Lemma valued_by_S k p q : (k <= length (c_channels c))%nat -> values_at a0 c k q ->
  valued_by (S k) p <-> valued_by k p \/ q <= p < q + Z.of_nat (length (values_of c k)).
Proof.
  intros Hk V. split.
  - intros (k' & q' & L & V' & H). destruct (Nat.eq_dec k' k) as [->|N]; [|left; exists k', q'; repeat split; auto; lia].
    rewrite (values_at_fun _ _ _ V V'). now right.
  - intros [(k' & q' & L & H)|H]; [exists k', q'; repeat split; auto; try lia; now destruct H as (? & ? & ?)|exists k, q; repeat split; auto; lia].
Qed.
(** Clearing the values of the next reaction. *)
Lemma inv_next k a p : (k <= length (c_channels c))%nat -> inv k a -> values_at a0 c k p ->
  inv (S k) (put a (clear_negative (xss a) p (p + Z.of_nat (length (values_of c k))))).
Proof.
  intros Hk I V. destruct (values_stand k Hk) as (p' & V' & W). rewrite <- (values_at_fun _ _ _ V V') in W. clear p' V'.
  apply stands_iff in W as (P & L & _). assert (B : p + Z.of_nat (length (values_of c k)) <= Z.of_nat (length (xss a))) by (rewrite (i_length _ _ I); exact L).
  split; cbn [put nxs jxs xss]; [exact (i_nxs _ _ I)|exact (i_jxs _ _ I)|rewrite clear_length by lia; exact (i_length _ _ I)|].
  intros j v H. destruct (i_word _ _ I _ _ H) as (v' & E & O & K1 & K2). rewrite clear_nth by lia. rewrite E.
  destruct ((p <=? Z.of_nat j) && (Z.of_nat j <? p + Z.of_nat (length (values_of c k)))) eqn:B2.
  - apply andb_prop in B2 as [B2 B3]. apply Z.leb_le in B2. apply Z.ltb_lt in B3. exists (clip v'). split; [reflexivity|].
    assert (Cv : clip v' = clip v) by (destruct O as [->| ->]; [reflexivity|apply clip_clip]). rewrite Cv. repeat split; auto.
    intros N. exfalso. apply N. exists k, p. auto.
  - exists v'. repeat split; auto. intros Vb. apply (valued_by_S k _ p Hk V) in Vb as [Vb|Vb]; [now apply K1|]. exfalso.
    rewrite (proj2 (Z.leb_le _ _)), (proj2 (Z.ltb_lt _ _)) in B2 by lia. discriminate.
Qed.
(** Once cleared, values are read clipped. *)
Lemma values_cleared k n a p : (k < n)%nat -> (k <= length (c_channels c))%nat -> inv n a -> values_at a0 c k p ->
  stands (xss a) p (map clip (values_of c k)).
Proof.
  intros Hn Hk I V. destruct (values_stand k Hk) as (p' & V' & W). rewrite <- (values_at_fun _ _ _ V V') in W. clear p' V'.
  apply stands_iff in W as (P & L & W). apply stands_iff. rewrite map_length, (i_length _ _ I). repeat split; try lia. intros j Hj.
  pose proof (W j Hj) as E. destruct (err_ex _ _ Hj) as (v & Ev). rewrite err_map. rewrite Ev in *. destruct (i_word _ _ I _ _ E) as (v' & E' & _ & K & _).
  rewrite E'. cbn. f_equal. apply K. exists k, p. repeat split; auto; lia.
Qed.
Lemma grid_kept k a : inv k a -> grid a = map (fun e => e * qz 1000000)%Qc (c_grid c).
Proof.
  intros I. unfold grid, mega, EV_PER_MEV. rewrite (i_nxs _ _ I), (i_jxs _ _ I). destruct (s_grid _ _ S0) as [N G]. rewrite N.
  rewrite (slice_stands _ _ (c_grid c)); [reflexivity| |reflexivity]. apply stands_app in G as [G _]. apply (stands_kept k); auto.
  intros j Hj. apply (a_grid _ _ AP). lia.
Qed.

(** What is read of reaction [k]. *)
Record fits (k : nat) (r : @reaction D A) : Prop := {
  f_xs : exists p, values_at a0 c k p /\ r_xs r = View p (p + Z.of_nat (length (values_of c k)));
  f_flag : r_redundant r = false;
  f_rest : match k with
           | O => r_mt r = 2 /\ r_q r = 0%Qc /\ r_cm r = true /\ r_energy r = energies c 0 (length (c_grid c)) /\ r_idx r = Some 0 /\ r_derived r = []
           | S i => exists h, nth_error (c_channels c) i = Some h /\ r_mt r = c_mt h /\ r_q r = (c_q h * qz 1000000)%Qc /\
                      r_cm r = (c_ty h <? 0) /\ r_energy r = energies c (c_first h) (length (c_values h)) /\ r_idx r = Some (Z.of_nat (c_first h))
           end;
  (* the table as it was when the products were read *)
  f_products : exists a ps gs, inv (S k) a /\ r_products r = ps ++ gs /\ photons R a (r_mt r) (xs_of (xss a) r) = Some gs /\
    match k with
    | O => angles R a 0 [mkProduct true Prompt 0%Qc (Poly [1%Qc]) [] [(elastic_dist R, None)]] = Some ps
    | S i => exists h pd, nth_error (c_channels c) i = Some h /\ neutrons R a (Z.of_nat k) (c_mt h) (c_ty h) (c_q h * qz 1000000)%Qc = Some pd /\
               angles R a (Z.of_nat k) (fst pd) = Some ps /\ r_derived r = snd pd
    end }.
Lemma grid_slice f m : (f + m <= length (c_grid c))%nat ->
  slice (map (fun e => e * qz 1000000)%Qc (c_grid c)) (Z.of_nat f) (Z.of_nat f + Z.of_nat m) = energies c f m.
Proof.
  intros H. rewrite slice_in by (rewrite ?map_length; lia). rewrite !Nat2Z.id. unfold energies. now rewrite skipn_map, firstn_map.
Qed.
Lemma one_reaction k a r a' : (k <= length (c_channels c))%nat -> inv k a -> reaction_from_ace R a (Z.of_nat k) = Some (r, a') -> fits k r /\ inv (S k) a'.
Proof.
  intros Hk I H. unfold reaction_from_ace in H. pose proof (grid_kept _ _ I) as G.
  destruct k as [|i].
  - change (0 <? Z.of_nat 0) with false in H. cbv iota in H. cbv zeta in H.
    rewrite (i_nxs _ _ I), (i_jxs _ _ I), (proj1 (s_grid _ _ S0)) in H. rewrite G in H.
    set (x' := clear_negative _ _ _) in H. destruct (angles R _ _ _) as [ps|] eqn:E1; [|discriminate]. destruct (photons R _ _ _) as [gs|] eqn:E2; [|discriminate].
    inversion H; subst r a'; clear H.
    assert (E : jxs a0 1 + 4 * Z.of_nat (length (c_grid c)) = jxs a0 1 + 3 * Z.of_nat (length (c_grid c)) + Z.of_nat (length (values_of c 0))).
    { cbn [values_of]. destruct (s_lengths _ _ S0) as (_ & _ & ->). lia. }
    split.
    + split; cbn [r_xs r_redundant r_mt r_q r_cm r_energy r_idx r_derived].
      * exists (jxs a0 1 + 3 * Z.of_nat (length (c_grid c))). split; [reflexivity|]. rewrite <- E. reflexivity.
      * reflexivity.
      * repeat split; try reflexivity. unfold energies. cbn [skipn]. now rewrite firstn_all.
      * exists (put a x'), ps, gs. split; [|split; [reflexivity|split; [exact E2|exact E1]]].
        unfold x'. rewrite E. apply inv_next; auto. reflexivity.
    + unfold x'. rewrite E. apply inv_next; auto. reflexivity.
  - replace (0 <? Z.of_nat (S i)) with true in H by (symmetry; apply Z.ltb_lt; lia). cbv iota in H. cbv zeta in H.
    destruct (err_ex (c_channels c) i ltac:(lia)) as (h & Eh). destruct (s_channel _ _ S0 i h Eh) as (M & Q & T & B & loc & L & V).
    destruct (a_lists _ _ AP i ltac:(lia)) as (N3 & N4 & N5 & N6 & N7).
    assert (Va : values_at a0 c (S i) (jxs a0 7 + loc + 1)) by (exists loc; auto).
    specialize (N7 _ Va) as [N7 N8].
    assert (Vlen : length (values_of c (S i)) = length (c_values h)) by (cbn [values_of]; now rewrite Eh).
    rewrite (i_jxs _ _ I) in H.
    replace (jxs a0 3 + Z.of_nat (S i) - 1) with (jxs a0 3 + Z.of_nat i) in H by lia.
    replace (jxs a0 4 + Z.of_nat (S i) - 1) with (jxs a0 4 + Z.of_nat i) in H by lia.
    replace (jxs a0 6 + Z.of_nat (S i) - 1) with (jxs a0 6 + Z.of_nat i) in H by lia.
    rewrite (int_at_stands _ _ (c_mt h) []) in H by (apply (stands_kept1 _ _ _ _ I); auto).
    rewrite (at_stands _ _ (c_q h) []) in H by (apply (stands_kept1 _ _ _ _ I); auto).
    rewrite (int_at_stands _ _ loc []) in H by (apply (stands_kept1 _ _ _ _ I); auto).
    pose proof (stands_cons _ _ _ _ V) as [V1 V2]. pose proof (stands_cons _ _ _ _ V2) as [V3 _].
    replace (jxs a0 7 + loc - 1 + 1) with (jxs a0 7 + loc) in V3 by lia.
    rewrite (int_at_stands _ (jxs a0 7 + loc - 1) (Z.of_nat (c_first h) + 1) []) in H
      by (apply (stands_kept1 _ _ _ _ I); auto; now replace (jxs a0 7 + loc - 1) with (jxs a0 7 + loc + 1 - 2) by lia).
    rewrite (int_at_stands _ (jxs a0 7 + loc) (Z.of_nat (length (c_values h))) []) in H
      by (apply (stands_kept1 _ _ _ _ I); auto; now replace (jxs a0 7 + loc) with (jxs a0 7 + loc + 1 - 1) by lia).
    rewrite G in H. replace (Z.of_nat (c_first h) + 1 - 1) with (Z.of_nat (c_first h)) in H by lia. rewrite grid_slice in H by exact B.
    set (x' := clear_negative _ _ _) in H.
    assert (I' : inv (S (S i)) (put a x')).
    { unfold x'. pose proof (inv_next (S i) a _ Hk I Va) as I'. now rewrite Vlen in I'. }
    change (xss (put a x')) with x' in H.
    assert (Ty : int_at x' (jxs a0 5 + Z.of_nat i) = Some (c_ty h)).
    { apply (int_at_stands _ _ (c_ty h) []). change x' with (xss (put a x')). apply (stands_kept1 _ _ _ _ I'); auto. }
    change (jxs (put a x')) with (jxs a) in H. rewrite (i_jxs _ _ I) in H.
    replace (jxs a0 5 + Z.of_nat (S i) - 1) with (jxs a0 5 + Z.of_nat i) in H by lia. rewrite Ty in H.
    destruct (neutrons R _ _ _ _ _) as [pd|] eqn:E1; [|discriminate]. destruct (angles R _ _ _) as [ps|] eqn:E2; [|discriminate]. destruct (photons R _ _ _) as [gs|] eqn:E3; [|discriminate].
    inversion H; subst r a'; clear H. split; [|exact I'].
    split; cbn [r_xs r_redundant r_mt r_q r_cm r_energy r_idx r_derived].
    + exists (jxs a0 7 + loc + 1). split; [exact Va|]. now rewrite Vlen.
    + reflexivity.
    + exists h. repeat split; auto.
    + exists (put a x'), ps, gs. split; [exact I'|]. split; [reflexivity|]. split; [exact E3|]. exists h, pd. auto.
Qed.
End Loop.
