(** What is read from a table of cross sections: the whole. *)
From Coq Require Import ZArith QArith Qcanon List Bool Arith Lia.
From Verif Require Import Num Neut_Model Neut_Spec Neut_Proofs NeutSum_Proofs NeutAll_Proofs.
From Verif Require AceEdit_Model Sums_Model Sums_Spec Sums_Proofs.
Import ListNotations.
Local Open Scope Z_scope.
Local Notation lookup := AceEdit_Model.lookup.

Lemma zinsert_In v l m : In m (zinsert v l) <-> m = v \/ In m l.
Proof.
  induction l as [|w r IH]; cbn [zinsert In]; [intuition|]. destruct (Z.eqb_spec v w) as [->|N]; [cbn [In]; intuition|].
  destruct (v <? w); cbn [In]; [intuition|]. rewrite IH. intuition.
Qed.
Lemma unique_In l m : In m (unique l) <-> In m l.
Proof. unfold unique. induction l as [|v l IH]; cbn [fold_right In]; [tauto|]. rewrite zinsert_In, IH. intuition. Qed.

Section Final.
Context {D A : Type} (R : readers D A).
Variables (a0 : ace) (c : content).
Hypothesis (S0 : says a0 c) (AP : apart a0 c) (ONCE : listed_once c).
Local Notation g := (energies c 0 (length (c_grid c))).

Record whole (n : @neutron D A) (x : list Qc) (d0 d : list (Z * @reaction D A)) (a1 : ace) : Prop := {
  w_inv : inv a0 c (S (length (c_channels c))) a1;
  w_xss : x = xss a1;
  w_read : read c d0 x;
  w_grown : grown d0 x g d;
  w_mark : mark d = Some (n_reactions n);
  w_energy : n_energy n = g;
  w_flags : (forall m r, lookup m d0 = Some r -> r_redundant r = true -> m = 1 \/ m = 101);
  w_one : exists r, lookup 1 d0 = Some r /\ r_redundant r = true;
  w_abs : forall r, lookup 101 d0 = Some r -> r_redundant r = true;
  w_fits : forall k, (k <= length (c_channels c))%nat -> exists r, fits R a0 c k r /\ (~ ignored (r_mt r) -> lookup (r_mt r) d0 = Some r);
  w_mts : forall ms m l, lists_photons a0 c ms -> summed ms m -> Sums_Spec.components (fun k => present d0 k = true) m l -> l <> [] -> present d m = true;
  w_only : forall ms m, lists_photons a0 c ms -> present d m = true -> present d0 m = true \/ summed ms m;
  w_none : forall r, lookup 1 d0 = Some r \/ lookup 101 d0 = Some r -> r_products r = [] /\ r_derived r = [];
  w_sum : forall m r, lookup m d0 = None -> lookup m d = Some r -> r_derived r = [] /\
    (photons R a1 m (xs_of (xss a1) r) = Some (r_products r) \/ r_products r = [] /\ forall t, In t (photon_mts a1) -> t / 1000 <> m);
  w_urr : urr_from_ace a1 = Some (n_urr n) }.

Lemma lists_kept ms a1 : lists_photons a0 c ms -> inv a0 c (S (length (c_channels c))) a1 -> photon_mts a1 = ms.
Proof.
  intros (L & St & N) I. unfold photon_mts. rewrite (i_nxs _ _ _ _ I), (i_jxs _ _ _ _ I), L.
  rewrite (slice_stands _ _ (map qz ms)); [|apply (stands_kept _ _ _ _ _ _ I St); rewrite map_length; exact N|rewrite map_length; reflexivity].
  rewrite map_map. transitivity (map (fun z : Z => z) ms); [|apply map_id]. apply map_ext. intros z. apply int_qz.
Qed.
Lemma level_only (x energy : list Qc) (d : list (Z * @reaction D A)) mt d' m : level_sum x energy d mt = Some d' -> present d' m = true -> present d m = true \/ m = mt.
Proof.
  intros H P. unfold level_sum in H. destruct (present d mt); [inversion H; subst d'; auto|]. destruct (Sums_Model.get_reaction_components _ _) as [[|m0 mts]|]; [inversion H; subst d'; auto| |discriminate].
  destruct (redundant_reaction _ _ _ _ _); [|discriminate]. inversion H; subst d'. apply present_lookup in P as (v & P). rewrite lookup_assign in P.
  destruct (Z.eqb_spec m mt); [auto|]. left. apply present_lookup. eauto.
Qed.
Lemma photon_only energy a b (d0 d : list (Z * @reaction D A)) mt d' m : lookup 101 d0 = b -> (forall m r, lookup m d0 = Some r -> lookup m d = Some r) ->
  photon_reaction R a energy b d mt = Some d' -> present d' m = true ->
  present d m = true \/ (m = mt /\ mt <> 3 /\ exists p, Sums_Spec.part mt p).
Proof.
  intros Eb Old H P. unfold photon_reaction in H. destruct (present d mt); [inversion H; subst d'; auto|].
  destruct (existsb (fun e => fst e =? mt) Sums_Model.sum_rules) eqn:Ru; cbn [negb] in H; [|inversion H; subst d'; auto].
  assert (Pt : exists p, Sums_Spec.part mt p).
  { apply existsb_exists in Ru as ((k, l) & I & K). cbn [fst] in K. apply Z.eqb_eq in K. subst k.
    assert (l <> []) by (cbn [Sums_Model.sum_rules In] in I; decompose [or] I; try contradiction;
      match goal with E : (_, _) = (mt, l) |- _ => injection E as _ El; intros E0; rewrite <- El in E0; discriminate E0 end).
    destruct l as [|p l]; [congruence|]. exists p. apply Sums_Proofs.part_listed. exists (p :: l). cbn. auto. }
  destruct (Sums_Model.get_reaction_components _ _) as [[|m0 mts]|]; [inversion H; subst d'; auto| |discriminate].
  destruct (redundant_reaction _ _ _ _ _); [|discriminate]. destruct (photons _ _ _ _); [|discriminate]. destruct (Z.eqb_spec mt 3) as [|N3].
  - destruct b as [b|]; [|discriminate]. inversion H; subst d'. apply present_lookup in P as (v & P). rewrite lookup_assign in P. left. apply present_lookup.
    destruct (Z.eqb_spec m 101) as [->|]; [exists b; auto|eauto].
  - inversion H; subst d'. apply present_lookup in P as (v & P). rewrite lookup_assign in P. destruct (Z.eqb_spec m mt) as [->|]; [auto|]. left. apply present_lookup. eauto.
Qed.
Lemma loop_present {T} (f : list (Z * @reaction D A) -> T -> option (list (Z * @reaction D A))) (Q : list (Z * @reaction D A) -> Prop) (W : T -> Z -> Prop) m : forall is d d',
  (forall d i d', Q d -> In i is -> f d i = Some d' -> Q d' /\ (present d' m = true -> present d m = true \/ W i m)) ->
  Q d -> loop f is d = Some d' -> present d' m = true -> present d m = true \/ exists i, In i is /\ W i m.
Proof.
  induction is as [|i is IH]; intros d d' H Qd E P; cbn [loop] in E; [inversion E; subst; auto|]. destruct (f d i) as [d1|] eqn:E1; [|discriminate].
  destruct (H _ i _ Qd (or_introl eq_refl) E1) as [Q1 K1]. destruct (IH d1 d' ltac:(intros; eapply H; eauto; cbn; auto) Q1 E P) as [P1|(j & Ij & Wj)].
  - destruct (K1 P1) as [P0|P0]; [auto|]. right. exists i. split; [cbn; auto|exact P0].
  - right. exists j. split; [cbn; auto|exact Wj].
Qed.

(** *** Photons of the sums *)
Definition sums_glow (d0 : list (Z * @reaction D A)) (a1 : ace) (d : list (Z * @reaction D A)) : Prop :=
  forall m r, lookup m d0 = None -> lookup m d = Some r -> photons R a1 m (xs_of (xss a1) r) = Some (r_products r) /\ r_derived r = [].
Lemma photon_glow energy b (d0 : list (Z * @reaction D A)) a1 d mt d' : lookup 101 d0 = b -> sums_glow d0 a1 d -> photon_reaction R a1 energy b d mt = Some d' -> sums_glow d0 a1 d'.
Proof.
  intros Eb Q H m r N K. unfold photon_reaction in H. destruct (present d mt); [inversion H; subst d'; now apply Q|]. destruct (negb _); [inversion H; subst d'; now apply Q|].
  destruct (Sums_Model.get_reaction_components _ _) as [[|m0 mts]|]; [inversion H; subst d'; now apply Q| |discriminate].
  destruct (redundant_reaction _ _ _ _ _) as [u|]; [|discriminate]. destruct (photons _ _ _ _) as [gs|] eqn:P; [|discriminate]. destruct (Z.eqb_spec mt 3) as [|N3].
  - destruct b as [b|]; [|discriminate]. inversion H; subst d'. rewrite lookup_assign in K. destruct (Z.eqb_spec m 101) as [->|]; [congruence|now apply Q].
  - inversion H; subst d'. rewrite lookup_assign in K. destruct (Z.eqb_spec m mt) as [->|]; [|now apply Q]. inversion K; subst r. cbn [r_products r_derived]. split; [exact P|reflexivity].
Qed.
Lemma level_new (x energy : list Qc) : forall is (d d' : list (Z * @reaction D A)), loop (level_sum x energy) is d = Some d' -> forall m r, lookup m d' = Some r ->
  lookup m d = Some r \/ lookup m d = None /\ In m is /\ r_products r = [] /\ r_derived r = [].
Proof.
  induction is as [|i is IH]; intros d d' H m r K; cbn [loop] in H; [inversion H; subst; auto|]. destruct (level_sum x energy d i) as [d1|] eqn:E; [|discriminate].
  destruct (IH d1 d' H m r K) as [K1|(K1 & Im & R1 & R2)]; unfold level_sum in E.
  - destruct (present d i) eqn:P; [inversion E; subst; auto|]. destruct (Sums_Model.get_reaction_components _ _) as [[|m0 mts]|]; [inversion E; subst; auto| |discriminate].
    destruct (redundant_reaction _ _ _ _ _) as [u|] eqn:U; [|discriminate]. inversion E; subst d1. rewrite lookup_assign in K1. destruct (Z.eqb_spec m i) as [->|]; [|auto]. inversion K1; subst u.
    right. split; [now apply present_not|]. split; [cbn; auto|]. unfold redundant_reaction in U. destruct (all_some _); [|discriminate]. destruct (least _); [|discriminate]. cbv zeta in U. destruct (all_some _); [|discriminate]. inversion U. split; reflexivity.
  - right. destruct (present d i) eqn:P; [inversion E; subst; cbn; auto|]. destruct (Sums_Model.get_reaction_components _ _) as [[|m0 mts]|]; [inversion E; subst; cbn; auto| |discriminate].
    destruct (redundant_reaction _ _ _ _ _) as [u|] eqn:U; [|discriminate]. inversion E; subst d1. rewrite lookup_assign in K1. destruct (Z.eqb_spec m i) as [->|]; [discriminate|cbn; auto].
Qed.
Lemma whole_ok n x : from_ace R a0 = Some (n, x) -> exists d0 d a1, whole n x d0 d a1.
Proof.
  intros H. unfold from_ace in H. destruct (read_reactions R a0 _ (start a0)) as [(d0, a1)|] eqn:E1; [|discriminate]. cbn [fst snd] in H.
  destruct (loop (photon_reaction R a1 (grid a0) (absorption_of a0)) _ d0) as [d1|] eqn:E2; [|discriminate].
  destruct (loop (level_sum (xss a1) (grid a0)) _ d1) as [d2|] eqn:E3; [|discriminate].
  destruct (mark d2) as [d3|] eqn:E4; [|discriminate]. destruct (urr_from_ace a1) as [u|] eqn:E5; [|discriminate]. inversion H; subst n x; clear H.
  destruct (after_loop R a0 c S0 AP ONCE d0 a1 E1) as (I & RD & F1 & F2 & F3 & F4 & F5 & F6).
  assert (G0 : grid a0 = g).
  { rewrite (grid_kept a0 c S0 AP 0 a0 (inv_0 a0 c)). unfold energies. cbn [skipn]. now rewrite firstn_all. }
  rewrite G0 in *.
  assert (MT0 : forall m r, lookup m d0 = Some r -> r_mt r = m).
  { intros m r Hr. destruct (rd_only _ _ _ RD m r Hr) as (f & vs & Gv). destruct (rd_gives _ _ _ RD _ _ _ Gv) as (r' & E & M & _). congruence. }
  assert (G1 : grown d0 (xss a1) g d1).
  { apply (loop_ind (grown d0 (xss a1) g) (photon_reaction R a1 g (absorption_of a0)) _ d0 d1) in E2; auto using grown_0.
    intros s i s' _ Gs Es. eapply photon_grown; eauto. }
  assert (G2 : grown d0 (xss a1) g d2).
  { apply (loop_ind (grown d0 (xss a1) g) (level_sum (xss a1) g) _ d1 d2) in E3; auto.
    intros s i s' Ii Gs Es. eapply level_grown; eauto. intros ->. cbn [In] in Ii. lia. }
  exists d0, d2, a1. split; cbn [n_reactions n_energy n_urr]; auto.
  - intros ms m l Lp Sm C Hl. pose proof (lists_kept ms a1 Lp I) as Pm.
    assert (K16 : In m [16; 103; 104; 105; 106; 107] -> present d2 m = true).
    { intros J. apply (loop_there d0 (xss a1) g [16; 103; 104; 105; 106; 107] ltac:(cbn [In]; lia) d1 d2 G1 E3 m J l C Hl). }
    destruct Sm as [->|[Hm|(N3 & Pt & t & It & Et)]]; [apply K16; cbn; auto|apply K16; cbn [In]; lia|].
    apply (loop_ind (fun d => present d m = true) (level_sum (xss a1) g) [16; 103; 104; 105; 106; 107] d1 d2).
    + intros s i s' _ P Es. eapply level_keeps; eauto.
    + apply (photons_there R d0 (xss a1) g a1 (absorption_of a0) eq_refl F2 (unique (map (fun m => m / 1000) (photon_mts a1))) d0 d1 (grown_0 _ _ _) E2 m) with (l := l); auto.
      * apply unique_In. rewrite Pm. apply in_map_iff. eauto.
    + exact E3.
  - intros ms m Lp P. pose proof (lists_kept ms a1 Lp I) as Pm.
    assert (P1 : present d1 m = true \/ exists i, In i [16; 103; 104; 105; 106; 107] /\ m = i).
    { apply (loop_present (level_sum (xss a1) g) (fun _ => True) (fun i m => m = i) m [16; 103; 104; 105; 106; 107] d1 d2); auto.
      intros d i d' _ _ Es. split; [exact Logic.I|]. intros Pd. eapply level_only; eauto. }
    destruct P1 as [P1|(i & Ii & ->)].
    + assert (P0 : present d0 m = true \/ exists i, In i (unique (map (fun m => m / 1000) (photon_mts a1))) /\ (m = i /\ i <> 3 /\ exists p, Sums_Spec.part i p)).
      { apply (loop_present (photon_reaction R a1 g (absorption_of a0)) (grown d0 (xss a1) g) (fun i m => m = i /\ i <> 3 /\ exists p, Sums_Spec.part i p) m (unique (map (fun m => m / 1000) (photon_mts a1))) d0 d1); auto using grown_0.
        intros d i d' Gd _ Es. split; [eapply photon_grown; eauto|]. intros Pd. eapply photon_only; eauto. apply Gd. }
      destruct P0 as [P0|(i & Ii & -> & N3 & Pt)]; auto.
      right. right. right. split; [exact N3|]. split; [exact Pt|]. apply (proj1 (unique_In _ _)) in Ii. rewrite Pm in Ii. apply in_map_iff in Ii as (t & Et & It). eauto.
    + right. cbn [In] in Ii. unfold summed. lia.
  - assert (Q1 : sums_glow d0 a1 d1).
    { apply (loop_ind (sums_glow d0 a1) (photon_reaction R a1 g (absorption_of a0)) _ d0 d1) in E2; [exact E2| |intros m r H K; congruence].
      intros s i s' _ Gs Es. eapply photon_glow; eauto. }
    intros m r N H. destruct (level_new (xss a1) g [16; 103; 104; 105; 106; 107] d1 d2 E3 m r H) as [K|(K & Im & Rp & Rd)]; [destruct (Q1 m r N K); auto|]. split; [exact Rd|]. right. split; [exact Rp|].
    intros t It Et. assert (present d1 m = true); [|apply present_lookup in H0 as (v & H0); congruence].
    destruct (g_new _ _ _ _ G2 m r N H) as (N3 & l & r' & Hl & C & _).
    apply (photons_there R d0 (xss a1) g a1 (absorption_of a0) eq_refl F2 (unique (map (fun m => m / 1000) (photon_mts a1))) d0 d1 (grown_0 _ _ _) E2 m) with (l := l); auto.
    + apply unique_In. rewrite <- Et. apply (in_map (fun m => m / 1000)). exact It.
    + cbn [In] in Im. unfold Sums_Spec.part. destruct Im as [<-|[<-|[<-|[<-|[<-|[<-|[]]]]]]]; [exists 875|exists 600|exists 650|exists 700|exists 750|exists 800]; lia.
Qed.

Section Facts.
Variables (n : @neutron D A) (x : list Qc) (d0 d : list (Z * @reaction D A)) (a1 : ace).
Hypothesis W : whole n x d0 d a1.
Lemma present_given m : present d0 m = true <-> given c m.
Proof.
  rewrite present_lookup. split.
  - intros (r & H). exact (rd_only _ _ _ (w_read _ _ _ _ _ W) m r H).
  - intros (f & vs & G). destruct (rd_gives _ _ _ (w_read _ _ _ _ _ W) _ _ _ G) as (r & H & _). eauto.
Qed.
Lemma finest_given m : Sums_Spec.finest (fun k => present d0 k = true) m <-> Sums_Spec.finest (given c) m.
Proof. unfold Sums_Spec.finest. rewrite present_given. split; intros [H1 H2]; split; auto; intros k Hk Pk; apply H2; auto; now apply present_given. Qed.
Lemma components_given m l : Sums_Spec.components (fun k => present d0 k = true) m l <-> Sums_Spec.components (given c) m l.
Proof. unfold Sums_Spec.components. split; intros [H1 H2]; split; auto; intros k; rewrite H2, finest_given; tauto. Qed.
Lemma final_lookup m : exists f, lookup m (n_reactions n) = option_map f (lookup m d) /\ forall r, f r = r \/ f r = flag r.
Proof.
  eexists. split; [apply mark_lookup; apply (w_mark _ _ _ _ _ W)|]. intros r. cbn beta. destruct (Sums_Model.get_reaction_components _ _); [|auto]. destruct (same _ _); auto.
Qed.
Lemma final_present m : (exists r, lookup m (n_reactions n) = Some r) <-> present d m = true.
Proof.
  destruct (final_lookup m) as (f & E & _). rewrite E, present_lookup. destruct (lookup m d) as [r|]; cbn [option_map]; split; intros (v & H); try discriminate; eauto.
Qed.
Lemma mt0 m r : lookup m d0 = Some r -> r_mt r = m.
Proof. intros Hr. destruct (rd_only _ _ _ (w_read _ _ _ _ _ W) m r Hr) as (f & vs & Gv). destruct (rd_gives _ _ _ (w_read _ _ _ _ _ W) _ _ _ Gv) as (r' & E & M & _). congruence. Qed.
Lemma mt1 m r : lookup m d = Some r -> r_mt r = m.
Proof.
  intros H. destruct (lookup m d0) as [r0|] eqn:E0.
  - rewrite (g_old _ _ _ _ (w_grown _ _ _ _ _ W) _ _ E0) in H. inversion H; subst. eapply mt0; eauto.
  - destruct (g_new _ _ _ _ (w_grown _ _ _ _ _ W) _ _ E0 H) as (_ & l & r' & _ & _ & _ & M & _). exact M.
Qed.
(** *** What the table gives *)
Lemma all_read m f vs : gives c m f vs -> exists r, read_as n x m r (energies c f (length vs)) vs.
Proof.
  intros G. destruct (rd_gives _ _ _ (w_read _ _ _ _ _ W) _ _ _ G) as (r & H & M & E & V & _). pose proof (g_old _ _ _ _ (w_grown _ _ _ _ _ W) _ _ H) as H1.
  destruct (final_lookup m) as (h & Eh & Fh). exists (h r). unfold read_as. rewrite Eh, H1. cbn [option_map]. destruct (Fh r) as [->| ->]; cbn [option_map flag r_mt r_energy r_xs]; auto.
Qed.
Lemma channel_read i h : nth_error (c_channels c) i = Some h -> ~ ignored (c_mt h) ->
  exists r p, read_as n x (c_mt h) r (energies c (c_first h) (length (c_values h))) (map clip (c_values h)) /\ r_q r = (c_q h * qz 1000000)%Qc /\ (r_cm r = true <-> c_ty h < 0) /\
    values_at a0 c (S i) p /\ r_xs r = View p (p + Z.of_nat (length (c_values h))) /\
    exists r0, fits R a0 c (S i) r0 /\ r_products r = r_products r0 /\ r_derived r = r_derived r0.
Proof.
  intros Eh Ig. assert (Hi : (i < length (c_channels c))%nat) by (eapply err_lt; eauto).
  destruct (w_fits _ _ _ _ _ W (S i) ltac:(lia)) as (r0 & F & K). destruct (f_rest _ _ _ _ _ F) as (h' & Eh' & M & Q & Cm & En & _). assert (h' = h) as -> by congruence.
  rewrite M in K. specialize (K Ig). pose proof (g_old _ _ _ _ (w_grown _ _ _ _ _ W) _ _ K) as H1. destruct (f_xs _ _ _ _ _ F) as (p & V & X). cbn [values_of] in X. rewrite Eh in X.
  assert (Gv : gives c (c_mt h) (c_first h) (map clip (c_values h))) by (right; right; right; exists h; repeat split; auto; now apply nth_error_In in Eh).
  destruct (rd_gives _ _ _ (w_read _ _ _ _ _ W) _ _ _ Gv) as (r1 & H & _ & _ & Vl & _). assert (r1 = r0) as -> by congruence.
  destruct (final_lookup (c_mt h)) as (u & Eu & Fu). exists (u r0), p. unfold read_as. rewrite Eu, H1. cbn [option_map].
  destruct (Fu r0) as [->| ->]; cbn [option_map flag r_mt r_energy r_xs r_q r_cm r_products r_derived]; (split; [auto|]); (split; [exact Q|]); (split; [rewrite Cm; apply Z.ltb_lt|]); (split; [exact V|]); (split; [exact X|]); exists r0; auto.
Qed.
Lemma left_cleared : cleared a0 c x.
Proof.
  rewrite (w_xss _ _ _ _ _ W). pose proof (w_inv _ _ _ _ _ W) as I. split; [apply (i_length _ _ _ _ I)|]. intros p v H. destruct (i_word _ _ _ _ I _ _ H) as (v' & E & _ & K1 & K2). rewrite E.
  split; [intros (k & q & Lk & Vk & B)|intros N]; f_equal; auto. apply K1. exists k, q. split; [lia|auto].
Qed.
(** *** Which reactions there are *)
Lemma all_present ms m : lists_photons a0 c ms -> (exists r, lookup m (n_reactions n) = Some r) <-> given c m \/ (summed ms m /\ exists k, Sums_Spec.within m k /\ given c k).
Proof.
  intros Lp. rewrite final_present. split.
  - intros P. destruct (w_only _ _ _ _ _ W ms m Lp P) as [P0|Sm]; [left; now apply present_given|].
    destruct (lookup m d0) as [r0|] eqn:E0; [left; apply present_given; apply present_lookup; eauto|]. right. split; [exact Sm|].
    apply present_lookup in P as (r & P). destruct (g_new _ _ _ _ (w_grown _ _ _ _ _ W) _ _ E0 P) as (_ & l & r' & Hl & C & _). destruct l as [|k l]; [congruence|].
    exists k. apply components_given in C. destruct (proj1 (proj2 C k) (or_introl eq_refl)) as (Wk & Gk & _). auto.
  - intros [G|(Sm & k & Wk & Gk)].
    + apply present_given in G. apply present_lookup in G as (r & G). apply present_lookup. exists r. now apply (g_old _ _ _ _ (w_grown _ _ _ _ _ W)).
    + apply present_given in Gk. destruct (Sums_Proofs.finest_exists (present d0) (S (Sums_Proofs.rank k)) k ltac:(lia) Gk) as (y & Wy & Fy).
      destruct (Sums_Proofs.get_some (present d0) m) as (l & El). apply Sums_Proofs.get_spec in El. apply (w_mts _ _ _ _ _ W ms m l Lp Sm El).
      intros ->. apply (proj2 El y). split; [eapply Sums_Proofs.within_trans; eauto|exact Fy].
Qed.
Lemma all_sums m r : resolved c -> ~ given c m -> lookup m (n_reactions n) = Some r -> exists l, Sums_Spec.components (given c) m l /\ sums c x r l.
Proof.
  intros RES N H. destruct (lookup m d0) as [r0|] eqn:E0; [exfalso; apply N, present_given, present_lookup; eauto|].
  destruct (final_lookup m) as (f & Ef & Ff). rewrite Ef in H. destruct (lookup m d) as [r1|] eqn:E1; [|discriminate]. cbn [option_map] in H. inversion H; subst r; clear H.
  destruct (g_new _ _ _ _ (w_grown _ _ _ _ _ W) _ _ E0 E1) as (_ & l & r' & Hl & C & Rr & M & En & Xs & Rd). exists l. split; [now apply components_given|].
  destruct (sum_of c d0 x (w_read _ _ _ _ _ W) RES m l r') as (Su & _ & _); [intros k Ik; now destruct (proj1 (proj2 C k) Ik) as (_ & P & _)|exact Rr|].
  destruct Su as (f0 & S1 & S2 & S3 & S4 & S5 & S6). exists f0.
  destruct (Ff r1) as [->| ->]; cbn [flag r_energy r_redundant r_xs]; rewrite En, Xs; auto 10.
Qed.
Lemma all_flags m r : lookup m (n_reactions n) = Some r -> (r_redundant r = true <-> m = 101 \/ ~ Sums_Spec.finest (given c) m).
Proof.
  intros H. pose proof (mark_lookup _ _ (w_mark _ _ _ _ _ W) m) as E. rewrite H in E. destruct (lookup m d) as [r1|] eqn:E1; [|discriminate]. cbn [option_map] in E. inversion E as [E']; clear E. rewrite (mt1 _ _ E1) in *.
  assert (Pm : present d m = true) by (apply present_lookup; eauto).
  destruct (Sums_Proofs.get_some (present d) m) as (l & El). rewrite El in *. apply Sums_Proofs.get_spec in El. pose proof (same_finest (present d) m l Pm El) as SF.
  assert (FG : Sums_Spec.finest (fun k => present d k = true) m <-> Sums_Spec.finest (given c) m).
  { rewrite <- finest_given. apply finest_same.
    - intros k Hk. apply present_lookup in Hk as (v & Hk). apply present_lookup. exists v. now apply (g_old _ _ _ _ (w_grown _ _ _ _ _ W)).
    - intros k Hk Nk. apply present_lookup in Hk as (v & Hk). apply present_not in Nk. destruct (g_new _ _ _ _ (w_grown _ _ _ _ _ W) _ _ Nk Hk) as (_ & l' & r' & Hl & C & _). eauto. }
  rewrite FG in SF. subst r. destruct (same l m).
  - assert (Fm : Sums_Spec.finest (given c) m) by (now apply SF). split; [|intros [->|N]; [|contradiction]].
    + intros Rr. destruct (lookup m d0) as [r0|] eqn:E0.
      * rewrite (g_old _ _ _ _ (w_grown _ _ _ _ _ W) _ _ E0) in E1. inversion E1; subst r1. destruct (w_flags _ _ _ _ _ W _ _ E0 Rr) as [->| ->]; [|auto]. exfalso.
        destruct Fm as [_ Fm]. assert (2 = 1); [|lia]. apply Fm; [apply Sums_Proofs.within_part; left; lia|]. exists O, (map clip (c_elastic c)). right. left. auto.
      * exfalso. destruct Fm as [Gm _]. apply present_given, present_lookup in Gm as (v & Gm). congruence.
    + destruct Fm as [Gm _]. apply present_given, present_lookup in Gm as (v & Gm). rewrite (g_old _ _ _ _ (w_grown _ _ _ _ _ W) _ _ Gm) in E1. inversion E1; subst r1. eapply (w_abs _ _ _ _ _ W); eauto.
  - cbn [flag r_redundant]. split; [|reflexivity]. intros _. right. intros Fm. apply SF in Fm. discriminate.
Qed.
End Facts.
End Final.
