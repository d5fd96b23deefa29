(** C66: photons read from a table in ACE form. *)
From Coq Require Import ZArith QArith Qcanon List Bool Arith Lia.
From Verif Require Import Num Neut_Model Neut_Spec Neut_Proofs NeutSum_Proofs NeutAll_Proofs NeutFinal_Proofs NeutRun_Proofs Nubar_Spec Nubar_Proofs Photon_Spec Photon_Proofs.
From Verif Require AceEdit_Model AceEdit_Spec.
Import ListNotations.
Local Open Scope Z_scope.
Local Notation lookup := AceEdit_Model.lookup.

(** Elastic scattering or a reaction of the list. *)
Definition listed_as (c : content) (m : Z) : Prop := m = 2 \/ exists h, In h (c_channels c) /\ c_mt h = m /\ ~ ignored m.
(** The photons of a reaction of the table are those listed for it, in their order, with
    their number per reaction, energies and angles; isotropic if no angles are given.  Where
    a cross section for making photons is given, number and cross section of the reaction
    make it up again, if the latter is positive; else the number is 0. *)
Theorem C66_photons : forall D A (R : readers D A) a c n x hs m, says a c -> apart a c -> listed_once c -> from_ace R a = Some (n, x) -> shines a c hs -> listed_as c m ->
  exists r x', lookup m (n_reactions n) = Some r /\ partly a c x' /\ Forall2 (seen R a c x' (AceEdit_Model.tab_at (xs_of x r))) (from m hs) (photons_of (r_products r)).
Proof.
  intros D A R a c n x hs m S P O OK Sh [->|(h & Ih & M & Ig)].
  - apply (listed_photons R a c S P n x O OK 0%nat hs 2 ltac:(lia) Sh). auto.
  - destruct (In_nth_error _ _ Ih) as (i & E). apply (listed_photons R a c S P n x O OK (Datatypes.S i) hs m); [assert (i < length (c_channels c))%nat by (apply nth_error_Some; congruence); lia|exact Sh|].
    right. exists i, h. auto.
Qed.
Print Assumptions C66_photons.
(** A sum made for photons has those listed for it and no other product. *)
Theorem C66_sums : forall D A (R : readers D A) a c n x hs m r, says a c -> apart a c -> listed_once c -> from_ace R a = Some (n, x) -> shines a c hs -> ~ given c m -> lookup m (n_reactions n) = Some r ->
  exists x', partly a c x' /\ Forall2 (seen R a c x' (AceEdit_Model.tab_at (xs_of x r))) (from m hs) (r_products r) /\ r_derived r = [].
Proof. intros D A R a c n x hs m r S P O OK. exact (sum_photons R a c S P n x O OK hs m r). Qed.
Print Assumptions C66_sums.
(** Photons listed for total or absorption are not read. *)
Theorem C66_none : forall D A (R : readers D A) a c n x m r, says a c -> apart a c -> listed_once c -> from_ace R a = Some (n, x) -> m = 1 \/ m = 101 -> given c m -> lookup m (n_reactions n) = Some r ->
  r_products r = [].
Proof. intros D A R a c n x m r S P O OK. exact (no_photons R a c S P n x O OK m r). Qed.
Print Assumptions C66_none.
(** On the grid: number per reaction times cross section of the reaction is the cross section
    for making photons. *)
Theorem C66_production : forall D A (R : readers D A) a c n x hs m f vs h first pv, says a c -> apart a c -> listed_once c -> resolved c -> from_ace R a = Some (n, x) -> shines a c hs -> listed_as c m ->
  gives c m f vs -> In h hs -> gl_from h = m -> gl_source h = Production first pv ->
  exists r p t, lookup m (n_reactions n) = Some r /\ In p (photons_of (r_products r)) /\ p_yield p = Tabd t /\ fx t = energies c first (length pv) /\ length (fy t) = length pv /\
    forall j, (j < length pv)%nat -> ((0 < value_at f vs (first + j))%Qc -> (nth j (fy t) 0 * value_at f vs (first + j))%Qc = nth j pv 0%Qc) /\ (~ (0 < value_at f vs (first + j))%Qc -> nth j (fy t) 0%Qc = 0%Qc).
Proof.
  intros D A R a c n x hs m f vs h first pv S P O RES OK Sh Li G Ih M Src. destruct (C66_photons D A R a c n x hs m S P O OK Sh Li) as (r & x' & L & _ & F).
  assert (If : In h (from m hs)) by (unfold from; apply filter_In; split; [exact Ih|now apply Z.eqb_eq]). destruct (Forall2_In_l _ _ _ _ F If) as (p & Ip & (_ & _ & _ & _ & t & d & g & Y & Nu & _)).
  rewrite Src in Nu. destruct Nu as (N1 & _ & _ & N2 & N3). exists r, p, t. repeat (split; [assumption|]). intros j Hj. specialize (N3 j Hj). cbv zeta in N3.
  destruct (In_nth_error _ _ Ih) as (i & Ei). destruct (proj2 (proj2 Sh) i h Ei) as (B & _). rewrite Src in B.
  destruct (whole_ok R a c S P O n x OK) as (d0 & d' & a1 & W). destruct (all_read R a c n x d0 d' a1 W m f vs G) as (r' & (L' & _ & En & El)). assert (r' = r) as -> by congruence.
  unfold xs_of in N3. rewrite En, El in N3. rewrite N1 in N3. rewrite (energies_nth c first (length pv) j) in N3 by lia.
  rewrite (comp_value c d0 x (w_read _ _ _ _ _ _ _ _ W) RES m f vs (first + j) G ltac:(lia)) in N3. exact N3.
Qed.
Print Assumptions C66_production.

(** ** A table *)
Definition ex_readers : readers unit unit := mkReaders unit unit (fun _ _ _ _ _ _ => 0%Qc) (fun _ _ _ _ => Some tt) (fun _ => true) tt (fun _ _ _ => Some tt) (fun _ _ => tt) (fun _ => None).
Definition two (v w : Qc) : fn := mkFn [qz 1; qz 3] [v; w] [] [].
(** Capture, not at the second energy, and two levels of (n,p). *)
Definition ex_c : content := mkContent [qz 1; qz 2; qz 3] [qz 10; qz 20; qz 30] [qz 1; qz 3; qz 6] [qz 5; qz (-6); qz 7]
  [mkChannel 102 (qz 7) 0 0 [qz 1; qz 0; qz 2]; mkChannel 600 (qz (-1)) 0 1 [qz 2; qz 3]; mkChannel 601 (qz (-2)) 0 2 [qz 4]].
(** Photons of capture in both forms, of all levels of (n,p) together. *)
Definition ex_hs : list glow := [mkGlow 102001 (Production 0 [qz 5; qz 5; qz 6]) 1 0; mkGlow 102002 (Factor 12 (two (qz 1) (qz 2))) 2 1; mkGlow 103001 (Factor 16 (two (qz 3) (qz 3))) 3 0].
Definition ex_at : Z := Z.of_nat (length (xss (lay ex_c))).
Definition ex_words : list Qc := [qz 102001; qz 102002; qz 103001] ++ [qz 1; qz 7; qz 15] ++ concat (map glow_words ex_hs) ++ [qz 0; qz 1; qz 0] ++ [qz 1; qz 2; qz 3].
Definition ex_nxs (i : nat) : Z := match i with 6%nat => 3 | _ => nxs (lay ex_c) i end.
Definition ex_jxs (i : nat) : Z := match i with 13%nat => ex_at | 14%nat => ex_at + 3 | 15%nat => ex_at + 6 | 16%nat => ex_at + 28 | 17%nat => ex_at + 31 | 18%nat => ex_at + 31 | 19%nat => ex_at + 34 | _ => jxs (lay ex_c) i end.
Definition ex_a : ace := mkAce ex_nxs ex_jxs (xss (lay ex_c) ++ ex_words).
Lemma ex_consistent : consistent ex_c.
Proof. split; [cbn; auto|]. intros h [<-|[<-|[<-|[]]]]; cbn; lia. Qed.
Lemma ex_once : listed_once ex_c.
Proof. unfold listed_once. cbn. repeat constructor; cbn; lia. Qed.
Lemma ex_hn i : (i = 3 \/ i = 4)%nat -> ex_nxs i = nxs (lay ex_c) i. Proof. intros [->| ->]; reflexivity. Qed.
Lemma ex_hj i : (i = 1 \/ 3 <= i <= 7)%nat -> ex_jxs i = jxs (lay ex_c) i.
Proof. intros H. assert (C : (i = 1 \/ i = 3 \/ i = 4 \/ i = 5 \/ i = 6 \/ i = 7)%nat) by lia. decompose [or] C; subst i; reflexivity. Qed.
Lemma ex_kept k l : firstn (length l) (skipn k ex_words) = l -> (k <= 34)%nat -> kept ex_a ex_c (ex_at + Z.of_nat k) l.
Proof.
  intros E L. apply (put_kept ex_c ex_nxs ex_jxs ex_words ex_consistent ex_hj); [unfold ex_at; lia|]. cbn [xss].
  exists (xss (lay ex_c) ++ firstn k ex_words), (skipn (length l) (skipn k ex_words)). split.
  - rewrite <- E at 1. rewrite <- !app_assoc. f_equal. rewrite firstn_skipn. now rewrite firstn_skipn.
  - rewrite app_length, firstn_length_le by (cbn; lia). unfold ex_at. lia.
Qed.
Lemma ex_says : says ex_a ex_c. Proof. apply (put_says ex_c _ _ _ ex_consistent ex_hn ex_hj). Qed.
Lemma ex_apart : apart ex_a ex_c. Proof. apply (put_apart ex_c _ _ _ ex_consistent ex_hj). Qed.
Lemma ex_shines : shines ex_a ex_c ex_hs.
Proof.
  split; [reflexivity|]. split; [apply (ex_kept 0); [reflexivity|lia]|]. intros i h E. destruct i as [|[|[|i]]]; cbn in E; [| | |now destruct i]; inversion E; subst h; clear E; (split; [cbn; auto; try lia|]).
  - split; [exists 1; split; [apply (ex_kept 3)|apply (ex_kept 6)]|split; [apply (ex_kept 28)|apply (ex_kept 31)]]; reflexivity || lia.
  - split; [left; reflexivity|split; reflexivity].
  - split; [exists 7; split; [apply (ex_kept 4)|apply (ex_kept 12)]|split; [apply (ex_kept 29)|apply (ex_kept 32)]]; reflexivity || lia.
  - split; [right; reflexivity|split; reflexivity].
  - split; [exists 15; split; [apply (ex_kept 5)|apply (ex_kept 20)]|split; [apply (ex_kept 30)|apply (ex_kept 33)]]; reflexivity || lia.
Qed.
Lemma ex_read : exists n x, from_ace ex_readers ex_a = Some (n, x).
Proof. destruct (from_ace ex_readers ex_a) as [(n, x)|] eqn:E; [eauto|]. exfalso. revert E. vm_compute. discriminate. Qed.
Lemma ex_gives m f vs : gives ex_c m f vs -> (m, f, vs) = (1, 0%nat, [qz 10; qz 20; qz 30]) \/ (m, f, vs) = (2, 0%nat, [clip (qz 5); clip (qz (-6)); clip (qz 7)]) \/
  (m, f, vs) = (101, 0%nat, [qz 1; qz 3; qz 6]) \/ (m, f, vs) = (102, 0%nat, [clip (qz 1); clip (qz 0); clip (qz 2)]) \/
  (m, f, vs) = (600, 1%nat, [clip (qz 2); clip (qz 3)]) \/ (m, f, vs) = (601, 2%nat, [clip (qz 4)]).
Proof.
  intros [(-> & -> & ->)|[(-> & -> & ->)|[(-> & -> & -> & _)|(h & Ih & Ig & -> & -> & ->)]]]; auto.
  destruct Ih as [<-|[<-|[<-|[]]]]; cbn [c_mt c_first c_values map]; auto 10.
Qed.
Lemma ex_resolved : resolved ex_c.
Proof.
  unfold resolved. set (g := energies ex_c 0 _). assert (Eg : g = [qz 1 * qz 1000000; qz 2 * qz 1000000; qz 3 * qz 1000000]%Qc) by reflexivity. rewrite Eg. clear g Eg. split.
  - intros i j H. cbn [length] in H. assert (C : (i = 0 /\ j = 1 \/ i = 0 /\ j = 2 \/ i = 1 /\ j = 2)%nat) by lia.
    destruct C as [[-> ->]|[[-> ->]|[-> ->]]]; cbn [nth]; apply qltb_lt; reflexivity.
  - intros m f vs G. split; [apply ex_gives in G; decompose [or] G; match goal with E : (_, _, _) = _ |- _ => inversion E; discriminate end|]. intros j Hj. cbn [length] in Hj.
    assert (F : forall u v, (u < 3)%nat -> (v < 3)%nat -> u <> v -> AceEdit_Spec.far (nth u [qz 1 * qz 1000000; qz 2 * qz 1000000; qz 3 * qz 1000000]%Qc 0%Qc) (nth v [qz 1 * qz 1000000; qz 2 * qz 1000000; qz 3 * qz 1000000]%Qc 0%Qc)).
    { intros u v Hu Hv N. unfold AceEdit_Spec.far. assert (Cu : (u = 0 \/ u = 1 \/ u = 2)%nat) by lia. assert (Cv : (v = 0 \/ v = 1 \/ v = 2)%nat) by lia.
      destruct Cu as [->|[->| ->]]; destruct Cv as [->|[->| ->]]; try congruence; cbn [nth]; (split; [|apply qleb_le; reflexivity]);
        first [left; apply qltb_lt; reflexivity | right; apply qltb_lt; reflexivity]. }
    assert (B : (f < 3 /\ f + length vs - 1 < 3)%nat) by (apply ex_gives in G; decompose [or] G; match goal with E : (_, _, _) = _ |- _ => inversion E; cbn; lia end).
    split; intros N; apply F; lia.
Qed.
Example C66_hypotheses_met : says ex_a ex_c /\ apart ex_a ex_c /\ listed_once ex_c /\ resolved ex_c /\ shines ex_a ex_c ex_hs /\ (exists n x, from_ace ex_readers ex_a = Some (n, x)) /\
  listed_as ex_c 102 /\ gives ex_c 102 0 [clip (qz 1); clip (qz 0); clip (qz 2)] /\ length (from 102 ex_hs) = 2%nat /\ given ex_c 1 /\ given ex_c 101.
Proof.
  split; [exact ex_says|]. split; [exact ex_apart|]. split; [exact ex_once|]. split; [exact ex_resolved|]. split; [exact ex_shines|]. split; [exact ex_read|].
  split; [right; exists (mkChannel 102 (qz 7) 0 0 [qz 1; qz 0; qz 2]); cbn; unfold ignored; repeat split; auto; lia|].
  split; [right; right; right; exists (mkChannel 102 (qz 7) 0 0 [qz 1; qz 0; qz 2]); cbn; unfold ignored; repeat split; auto; lia|]. split; [reflexivity|].
  split; [exists 0%nat, (c_total ex_c); left; auto|]. exists 0%nat, (c_abs ex_c). right. right. left. repeat split. exists (qz 1). cbn. split; [auto|discriminate].
Qed.
(** (n,p) is made as the sum of its levels, and has the third photon. *)
Example C66_sums_hypotheses_met : exists n x r, from_ace ex_readers ex_a = Some (n, x) /\ ~ given ex_c 103 /\ lookup 103 (n_reactions n) = Some r /\ length (from 103 ex_hs) = 1%nat.
Proof.
  destruct (from_ace ex_readers ex_a) as [(n, x)|] eqn:E; [|exfalso; revert E; vm_compute; discriminate].
  assert (C : option_map (fun nx => match lookup 103 (n_reactions (fst nx)) with Some _ => true | None => false end) (from_ace ex_readers ex_a) = Some true) by (vm_compute; reflexivity).
  rewrite E in C. cbn [option_map fst] in C. destruct (lookup 103 (n_reactions n)) as [r|] eqn:L; [|discriminate]. exists n, x, r. split; [reflexivity|]. split; [|auto].
  intros (f & vs & G). apply ex_gives in G. decompose [or] G; match goal with K : (_, _, _) = _ |- _ => inversion K end.
Qed.

(** ** What does not hold *)
(** Photons made where the reaction has no cross section are lost: of the 5 b at the second
    energy nothing is left. *)
Theorem C66_conserved_refuted : exists n x r p t, says ex_a ex_c /\ apart ex_a ex_c /\ shines ex_a ex_c ex_hs /\ from_ace ex_readers ex_a = Some (n, x) /\ lookup 102 (n_reactions n) = Some r /\
  In p (photons_of (r_products r)) /\ p_yield p = Tabd t /\ nth 1 [qz 5; qz 5; qz 6] 0%Qc = qz 5 /\ (nth 1 (fy t) 0 * AceEdit_Model.tab_at (xs_of x r) (nth 1 (fx t) 0))%Qc = 0%Qc.
Proof.
  destruct ex_read as (n & x & E). destruct C66_hypotheses_met as (H1 & H2 & H3 & H4 & H5 & _ & H6 & H7 & _).
  destruct (C66_production _ _ ex_readers ex_a ex_c n x ex_hs 102 0%nat _ (mkGlow 102001 (Production 0 [qz 5; qz 5; qz 6]) 1 0) 0%nat [qz 5; qz 5; qz 6] H1 H2 H3 H4 E H5 H6 H7 ltac:(cbn; auto) eq_refl eq_refl) as (r & p & t & L & Ip & Y & _ & _ & Q).
  exists n, x, r, p, t. repeat (split; [assumption|]). split; [reflexivity|]. destruct (Q 1%nat ltac:(cbn; lia)) as [_ Q2]. rewrite Q2 by (cbn; discriminate). ring.
Qed.
Print Assumptions C66_conserved_refuted.
(** Photons listed for MT 3 (all but elastic scattering) are in no reaction: reaction 3 is
    not kept. *)
Definition mt3_hs : list glow := [mkGlow 3001 (Factor 12 (two (qz 1) (qz 2))) 1 0].
Definition mt3_words : list Qc := [qz 3001] ++ [qz 1] ++ concat (map glow_words mt3_hs) ++ [qz 0] ++ [qz 1].
Definition mt3_nxs (i : nat) : Z := match i with 6%nat => 1 | _ => nxs (lay ex_c) i end.
Definition mt3_jxs (i : nat) : Z := match i with 13%nat => ex_at | 14%nat => ex_at + 1 | 15%nat => ex_at + 2 | 16%nat => ex_at + 10 | 17%nat => ex_at + 11 | 18%nat => ex_at + 11 | 19%nat => ex_at + 12 | _ => jxs (lay ex_c) i end.
Definition mt3_a : ace := mkAce mt3_nxs mt3_jxs (xss (lay ex_c) ++ mt3_words).
Lemma mt3_hn i : (i = 3 \/ i = 4)%nat -> mt3_nxs i = nxs (lay ex_c) i. Proof. intros [->| ->]; reflexivity. Qed.
Lemma mt3_hj i : (i = 1 \/ 3 <= i <= 7)%nat -> mt3_jxs i = jxs (lay ex_c) i.
Proof. intros H. assert (C : (i = 1 \/ i = 3 \/ i = 4 \/ i = 5 \/ i = 6 \/ i = 7)%nat) by lia. decompose [or] C; subst i; reflexivity. Qed.
Lemma mt3_kept k l : firstn (length l) (skipn k mt3_words) = l -> (k <= 12)%nat -> kept mt3_a ex_c (ex_at + Z.of_nat k) l.
Proof.
  intros E L. apply (put_kept ex_c mt3_nxs mt3_jxs mt3_words ex_consistent mt3_hj); [unfold ex_at; lia|]. cbn [xss].
  exists (xss (lay ex_c) ++ firstn k mt3_words), (skipn (length l) (skipn k mt3_words)). split.
  - rewrite <- E at 1. rewrite <- !app_assoc. f_equal. rewrite firstn_skipn. now rewrite firstn_skipn.
  - rewrite app_length, firstn_length_le by (cbn; lia). unfold ex_at. lia.
Qed.
Lemma mt3_shines : shines mt3_a ex_c mt3_hs.
Proof.
  split; [reflexivity|]. split; [apply (mt3_kept 0); [reflexivity|lia]|]. intros i h E. destruct i as [|i]; cbn in E; [|now destruct i]. inversion E; subst h; clear E.
  split; [split; [left; reflexivity|split; reflexivity]|]. split; [exists 1; split; [apply (mt3_kept 1)|apply (mt3_kept 2)]|split; [apply (mt3_kept 10)|apply (mt3_kept 11)]]; reflexivity || lia.
Qed.
Theorem C66_mt3_refuted : exists n x, says mt3_a ex_c /\ apart mt3_a ex_c /\ listed_once ex_c /\ shines mt3_a ex_c mt3_hs /\ from_ace ex_readers mt3_a = Some (n, x) /\
  length (from 3 mt3_hs) = 1%nat /\ forall m r, lookup m (n_reactions n) = Some r -> photons_of (r_products r) = [].
Proof.
  destruct (from_ace ex_readers mt3_a) as [(n, x)|] eqn:E; [|exfalso; revert E; vm_compute; discriminate]. exists n, x.
  split; [apply (put_says ex_c _ _ _ ex_consistent mt3_hn mt3_hj)|]. split; [apply (put_apart ex_c _ _ _ ex_consistent mt3_hj)|]. split; [exact ex_once|]. split; [exact mt3_shines|].
  split; [reflexivity|]. split; [reflexivity|].
  assert (C : option_map (fun nx => forallb (fun e => match photons_of (r_products (snd e)) with [] => true | _ => false end) (n_reactions (fst nx))) (from_ace ex_readers mt3_a) = Some true) by (vm_compute; reflexivity).
  rewrite E in C. cbn [option_map fst] in C. injection C as C. rewrite forallb_forall in C. intros m r L. assert (I : In (m, r) (n_reactions n)).
  { clear - L. induction (n_reactions n) as [|(k, v) l IH]; cbn in L; [discriminate|]. destruct (m =? k) eqn:K; [apply Z.eqb_eq in K; left; congruence|right; auto]. }
  specialize (C _ I). cbn [snd] in C. now destruct (photons_of (r_products r)).
Qed.
Print Assumptions C66_mt3_refuted.
