(** Photons, proofs. *)
From Coq Require Import ZArith QArith Qcanon List Bool Arith Lia.
From Verif Require Import Num Neut_Model Neut_Spec Neut_Proofs NeutSum_Proofs NeutAll_Proofs NeutFinal_Proofs NeutRun_Proofs Nubar_Spec Nubar_Proofs Photon_Spec.
From Verif Require AceEdit_Model.
Import ListNotations.
Local Open Scope Z_scope.
Local Notation lookup := AceEdit_Model.lookup.

Lemma quotient_spec prod xs : forall j, (j < length prod)%nat -> length xs = length prod ->
  ((0 < nth j xs 0)%Qc -> (nth j (quotients prod xs) 0 * nth j xs 0)%Qc = nth j prod 0%Qc) /\ (~ (0 < nth j xs 0)%Qc -> nth j (quotients prod xs) 0%Qc = 0%Qc).
Proof.
  revert xs. induction prod as [|p prod IH]; intros [|s xs] j Hj L; cbn [length] in *; try lia. unfold quotients. cbn [combine map fst snd].
  destruct j as [|j]; cbn [nth]; [|apply IH; lia]. destruct (qltb 0 s) eqn:E.
  - apply qltb_lt in E. split; [intros _; field; intros ->; discriminate E|tauto].
  - split; [intros P; apply qltb_lt in P; congruence|reflexivity].
Qed.
Lemma quotients_length prod xs : length xs = length prod -> length (quotients prod xs) = length prod.
Proof. intros L. unfold quotients. rewrite map_length, combine_length. lia. Qed.

Section Photons.
Context {D A : Type} (R : readers D A).
Variables (a0 : ace) (c : content).
Hypothesis (S0 : says a0 c) (AP : apart a0 c).
Lemma at_last {T} (l : list T) v : at_ l (-1) = Some v -> nth_error l (length l - 1) = Some v.
Proof.
  unfold at_. change (0 <=? -1) with false. cbv iota. destruct (- Z.of_nat (length l) <=? -1) eqn:E; [|discriminate]. apply Z.leb_le in E.
  intros H. rewrite <- H. f_equal. lia.
Qed.
Lemma one_photon k a i h m t p : inv a0 c k a -> glows a0 c i h -> gl_from h = m -> photon R a (Z.of_nat i) m t = Some p -> seen R a0 c (xss a) (AceEdit_Model.tab_at t) h p.
Proof.
  intros I (F & (loca & W1 & W2) & W3 & W4) M H. unfold photon in H.
  destruct (photon_yield a (Z.of_nat i) m t) as [y|] eqn:Y; [|discriminate].
  assert (NY : number_of c (AceEdit_Model.tab_at t) (gl_source h) y).
  { unfold photon_yield in Y. rewrite (i_jxs _ _ _ _ I) in Y. rewrite (int_at_stands _ _ loca [] (kept_stands _ _ _ _ _ _ I W1)) in Y. cbv zeta in Y. pose proof (kept_stands _ _ _ _ _ _ I W2) as W. clear W2.
    unfold glow_words in W. destruct (gl_source h) as [kd t0|f vs]; cbn [number_of].
    - destruct F as [Hk F]. apply stands_cons in W as [V0 W]. apply stands_cons in W as [V1 W]. rewrite (int_at_stands _ _ _ [] V0) in Y.
      replace ((kd =? 12) || (kd =? 16)) with true in Y by (destruct Hk as [->| ->]; reflexivity). rewrite (int_at_stands _ _ _ [] V1) in Y. rewrite M, Z.eqb_refl in Y.
      rewrite (fn_reads _ _ _ W F) in Y. now inversion Y.
    - apply stands_cons in W as [V0 W]. apply stands_cons in W as [V1 W]. apply stands_cons in W as [V2 W]. rewrite (int_at_stands _ _ _ [] V0) in Y. change ((13 =? 12) || (13 =? 16)) with false in Y. change (13 =? 13) with true in Y. cbv iota in Y.
      rewrite (int_at_stands _ _ _ [] V1) in Y. rewrite (int_at_stands _ _ _ [] V2) in Y.
      assert (En : mega (slice (xss a) (jxs a0 1 + (Z.of_nat f + 1 - 1)) (jxs a0 1 + (Z.of_nat f + 1 - 1) + Z.of_nat (length vs))) = energies c f (length vs)).
      { destruct (s_grid _ _ S0) as [_ G]. apply stands_app in G as [G _].
        assert (G' : stands (xss a) (jxs a0 1) (c_grid c)) by (apply (stands_kept _ _ _ _ _ _ I G); intros j Hj; apply (a_grid _ _ AP); lia).
        assert (Sp : c_grid c = firstn f (c_grid c) ++ firstn (length vs) (skipn f (c_grid c)) ++ skipn (length vs) (skipn f (c_grid c))) by now rewrite firstn_skipn, firstn_skipn.
        rewrite Sp in G'. apply stands_app in G' as [_ G']. apply stands_app in G' as [G' _]. rewrite firstn_length_le in G' by lia.
        replace (Z.of_nat f + 1 - 1) with (Z.of_nat f) by lia. rewrite (slice_stands _ _ _ _ G') by (rewrite firstn_length_le by (rewrite skipn_length; lia); reflexivity).
        unfold mega, energies, EV_PER_MEV. reflexivity. }
      rewrite En in Y. replace (jxs a0 15 + loca - 1 + 1 + 2) with (jxs a0 15 + loca - 1 + 1 + 1 + 1) in Y by lia. rewrite (slice_stands _ _ vs _ W eq_refl) in Y.
      unfold AceEdit_Model.tab_call in Y. destruct (AceEdit_Model.tx t) eqn:Et; [discriminate|]. inversion Y; subst y; clear Y. unfold linear. cbn [fx fy fbp fint].
      assert (Le : length (energies c f (length vs)) = length vs) by (apply energies_length; lia).
      assert (L1 : length (map (AceEdit_Model.tab_at t) (energies c f (length vs))) = length vs) by now rewrite map_length.
      split; [reflexivity|]. rewrite Le. split; [reflexivity|]. split; [reflexivity|]. split; [now apply quotients_length|]. intros j Hj. cbv zeta.
      pose proof (quotient_spec vs _ j Hj L1) as Q. rewrite (nth_indep _ 0%Qc (AceEdit_Model.tab_at t 0%Qc)) in Q by lia. rewrite map_nth in Q. exact Q. }
  rewrite (i_jxs _ _ _ _ I) in H. rewrite (int_at_stands _ _ _ [] (kept_stands _ _ _ _ _ _ I W4)) in H. destruct (dist_at R (xss a) (jxs a0 19) (gl_law h) None) as [d|] eqn:Ed; [|discriminate].
  destruct (plain R d) eqn:Pl; [|discriminate]. rewrite (int_at_stands _ _ _ [] (kept_stands _ _ _ _ _ _ I W3)) in H.
  match type of H with match ?u with _ => _ end = _ => destruct u as [g|] eqn:Eg; [|discriminate] end. inversion H; subst p; clear H.
  unfold seen. cbn [p_neutron p_mode p_rate p_app p_yield p_dist]. repeat (split; [reflexivity|]). exists y, d, g. repeat (split; [solve [auto]|]). split.
  - intros E0. rewrite E0 in Eg. change (0 =? 0) with true in Eg. cbv iota in Eg. destruct (at_ (fx y) 0) as [e0|] eqn:A0; [|discriminate]. destruct (at_ (fx y) (-1)) as [en|] eqn:A1; [|discriminate]. inversion Eg.
    exists e0, en. split; [exact A0|]. split; [now apply at_last|reflexivity].
  - intros E0. rewrite (proj2 (Z.eqb_neq _ _) E0) in Eg. exact Eg.
Qed.
Lemma mts_kept k a hs : inv a0 c k a -> shines a0 c hs -> photon_mts a = map gl_mt hs.
Proof.
  intros I (L & W & _). unfold photon_mts. rewrite (i_nxs _ _ _ _ I), (i_jxs _ _ _ _ I), L. rewrite (slice_stands _ _ _ _ (kept_stands _ _ _ _ _ _ I W)) by (rewrite map_length; reflexivity).
  rewrite map_map. apply map_ext. intros h. apply int_qz.
Qed.
Lemma all_photons k a hs m t gs : inv a0 c k a -> shines a0 c hs -> photons R a m t = Some gs -> Forall2 (seen R a0 c (xss a) (AceEdit_Model.tab_at t)) (from m hs) gs.
Proof.
  intros I Sh H. unfold photons, range in H. rewrite (i_nxs _ _ _ _ I), (proj1 Sh), Nat2Z.id in H. pose proof (mts_kept k a hs I Sh) as Pm. destruct Sh as (_ & _ & G).
  assert (K : forall s gs', photons_from R a m t (map Z.of_nat (seq s (length hs - s))) = Some gs' -> Forall2 (seen R a0 c (xss a) (AceEdit_Model.tab_at t)) (from m (skipn s hs)) gs').
  { intros s. remember (length hs - s)%nat as q eqn:Q. revert s Q. induction q as [|q IH]; intros s Q gs' Hs; cbn [seq map photons_from] in Hs.
    - inversion Hs. rewrite skipn_all2 by lia. constructor.
    - destruct (err_ex hs s ltac:(lia)) as (h & E). assert (Sk : skipn s hs = h :: skipn (S s) hs).
      { clear - E. revert hs E. induction s as [|s IH]; intros [|h' hs] E; cbn in *; try discriminate; [congruence|]. now apply IH. }
      rewrite Pm in Hs. unfold at_ in Hs. rewrite (proj2 (Z.leb_le 0 (Z.of_nat s))) in Hs by lia. rewrite Nat2Z.id, err_map, E in Hs. cbn [option_map] in Hs. fold (gl_from h) in Hs.
      rewrite Sk. unfold from. cbn [filter]. destruct (Z.eqb_spec (gl_from h) m) as [Em|Em]; cbn [negb] in Hs.
      + destruct (photon R a (Z.of_nat s) m t) as [p|] eqn:Ep; [|discriminate]. destruct (photons_from R a m t _) as [ps|] eqn:Es in Hs; [|discriminate]. inversion Hs; subst gs'.
        constructor; [eapply one_photon; eauto|]. apply (IH (S s)); [lia|exact Es].
      + apply (IH (S s)); [lia|exact Hs]. }
  specialize (K 0%nat gs). cbn [skipn] in K. apply K. now rewrite Nat.sub_0_r.
Qed.
Lemma photons_split (ps gs : list (@product D A)) : (forall p, In p ps -> p_neutron p = true) -> (forall p, In p gs -> p_neutron p = false) -> photons_of (ps ++ gs) = gs.
Proof.
  intros H1 H2. unfold photons_of. rewrite filter_app. assert (E1 : filter (fun p => negb (p_neutron p)) ps = []).
  { induction ps as [|p ps IH]; [reflexivity|]. cbn [filter]. rewrite (H1 p) by (cbn; auto). cbn [negb]. apply IH. intros q Hq. apply H1. cbn. auto. }
  assert (E2 : filter (fun p => negb (p_neutron p)) gs = gs).
  { clear - H2. induction gs as [|p gs IH]; [reflexivity|]. cbn [filter]. rewrite (H2 p) by (cbn; auto). cbn [negb]. f_equal. apply IH. intros q Hq. apply H2. cbn. auto. }
  rewrite E1, E2. reflexivity.
Qed.
(** Neutrons are neutrons. *)
Definition dark (ps : list (@product D A)) : Prop := forall p, In p ps -> p_neutron p = true.
Lemma change_dark P f ps : (forall p, p_neutron (f p) = p_neutron p) -> dark ps -> dark (change_first P f ps).
Proof.
  intros F. induction ps as [|p ps IH]; intros H; cbn [change_first]; [exact H|]. destruct (P p); intros q [<-|Hq].
  - rewrite F. apply H. cbn. auto.
  - apply H. cbn. auto.
  - apply H. cbn. auto.
  - apply IH; [|exact Hq]. intros r Hr. apply H. cbn. auto.
Qed.
Lemma angles_dark a i ps ps' : angles R a i ps = Some ps' -> dark ps -> dark ps'.
Proof.
  unfold angles. destruct (i <? nxs a 5 + 1); [|intros H; now inversion H]. destruct (int_at _ _) as [loc|]; [|discriminate]. destruct (loc <=? 0); [intros H; now inversion H|].
  destruct (ang_at R _ _ _) as [g|]; [|discriminate]. intros H. inversion H. apply change_dark. reflexivity.
Qed.
Lemma groups_dark a yd : forall n group idx g, groups R a yd n group idx = Some g -> dark (fst g).
Proof.
  induction n as [|n IH]; intros group idx g H; cbn [groups] in H; [inversion H; subst g; intros p []|].
  destruct (at_ _ _); [|discriminate]. destruct (qltb _ _); [discriminate|]. destruct (fn_from_ace _ _); [|discriminate]. destruct (group_yield R _ _); [|discriminate]. destruct (int_at _ _); [|discriminate]. destruct (int_at _ _); [|discriminate].
  destruct (int_at _ _); [|discriminate]. destruct (dist_at R _ _ _ _); [|discriminate]. destruct (groups R a yd n _ _) as [r|] eqn:E; [|discriminate]. inversion H; subst g. intros p' [<-|Hp]; [reflexivity|]. cbn [fst] in Hp. eapply IH; eauto.
Qed.
Lemma fission_dark a pd : fission_products R a = Some pd -> dark (fst pd).
Proof.
  unfold fission_products. destruct (jxs a 2 =? 0); [discriminate|]. destruct (at_ _ _) as [w|]; [|discriminate].
  match goal with |- match ?u with _ => _ end = _ -> _ => destruct u as [q|] eqn:E; [|discriminate] end.
  assert (Dq : dark (fst q)).
  { destruct (qltb 0 w); [destruct (nu_at _ _); [|discriminate]; inversion E; intros p [<-|[]]; reflexivity|]. destruct (qltb w 0); [|inversion E; intros p []].
    destruct (nu_at _ _); [|discriminate]. destruct (nu_at _ _); [|discriminate]. inversion E; intros p [<-|[]]; reflexivity. }
  destruct (0 <? jxs a 24); [|intros H; now inversion H; subst]. destruct (fn_from_ace _ _); [|discriminate]. destruct (groups R a _ _ _ _) as [g|] eqn:G; [|discriminate].
  intros H. inversion H. cbn [fst]. pose proof (groups_dark _ _ _ _ _ _ G) as Dg. assert (Da : dark (fst q ++ fst g)) by (intros p Hp; apply in_app_or in Hp as [Hp|Hp]; auto).
  unfold renormalize. destruct (qltb 0 (snd g)); [|exact Da]. destruct (fst q ++ fst g) as [|p0 r]; [exact Da|]. intros p1 [<-|Hp]; [apply Da; cbn; auto|].
  apply in_map_iff in Hp as (p2 & <- & Hp). unfold divide. destruct (p_yield p2); cbn [p_neutron]; apply Da; cbn; auto.
Qed.
Lemma neutrons_dark a i mt ty q pd : neutrons R a i mt ty q = Some pd -> dark (fst pd).
Proof.
  unfold neutrons. destruct (i <? nxs a 5 + 1); [|intros H; inversion H; intros p []].
  match goal with |- match ?u with _ => _ end = _ -> _ => destruct u as [po|] eqn:E; [|discriminate] end.
  assert (Dp : dark (fst po)).
  { destruct (negb (ty =? 19)).
    - match type of E with match ?u with _ => _ end = _ => destruct u as [y|]; [|discriminate] end. inversion E. intros p [<-|[]]. reflexivity.
    - destruct (existsb _ _); [|discriminate]. destruct (fission_products R a) as [f|] eqn:F; [|discriminate]. destruct (existsb _ _); [|discriminate]. inversion E; subst. eapply fission_dark; eauto. }
  destruct (int_at _ _); [|discriminate]. destruct (laws R _ _ _ _ _); [|discriminate]. intros H. inversion H. cbn [fst]. apply change_dark; auto.
Qed.

(** *** In the whole table *)
Variables (n : @neutron D A) (x : list Qc).
Hypothesis (ONCE : listed_once c) (OK : from_ace R a0 = Some (n, x)).
Lemma final_elements k a (r : @reaction D A) p : (k <= length (c_channels c))%nat -> inv a0 c (S k) a -> values_at a0 c k p -> r_xs r = View p (p + Z.of_nat (length (values_of c k))) ->
  forall a1, inv a0 c (S (length (c_channels c))) a1 -> xs_of (xss a) r = xs_of (xss a1) r.
Proof.
  intros Hk I V X a1 I1. unfold xs_of. rewrite X. cbn [elements]. f_equal.
  rewrite (slice_stands _ _ (map clip (values_of c k)) _ (values_cleared a0 c S0 k (S k) _ _ ltac:(lia) ltac:(lia) I V)) by (rewrite map_length; reflexivity).
  rewrite (slice_stands _ _ (map clip (values_of c k)) _ (values_cleared a0 c S0 k (S (length (c_channels c))) _ _ ltac:(lia) ltac:(lia) I1 V)) by (rewrite map_length; reflexivity). reflexivity.
Qed.
Lemma xs_flag (r : @reaction D A) : xs_of x (flag r) = xs_of x r. Proof. reflexivity. Qed.
Lemma listed_photons k hs m : (k <= length (c_channels c))%nat -> shines a0 c hs -> (k = 0%nat /\ m = 2 \/ exists i h, k = S i /\ nth_error (c_channels c) i = Some h /\ c_mt h = m /\ ~ ignored m) ->
  exists r x', lookup m (n_reactions n) = Some r /\ partly a0 c x' /\ Forall2 (seen R a0 c x' (AceEdit_Model.tab_at (xs_of x r))) (from m hs) (photons_of (r_products r)).
Proof.
  intros Hk Sh Hm. destruct (whole_ok R a0 c S0 AP ONCE n x OK) as (d0 & d & a1 & W). destruct (w_fits _ _ _ _ _ _ _ _ W k Hk) as (r0 & F & K).
  assert (M : r_mt r0 = m /\ ~ ignored (r_mt r0)).
  { pose proof (f_rest _ _ _ _ _ F) as Fr. destruct Hm as [[-> ->]|(i & h & -> & Eh & <- & Ig)]; [destruct Fr as (-> & _); split; [reflexivity|unfold ignored; lia]|].
    destruct Fr as (h' & Eh' & M & _). assert (h' = h) as -> by congruence. rewrite M. auto. }
  destruct M as [M Ig]. specialize (K Ig). rewrite M in K. pose proof (g_old _ _ _ _ (w_grown _ _ _ _ _ _ _ _ W) _ _ K) as H1.
  destruct (final_lookup R a0 c n x d0 d a1 W m) as (u & Eu & Fu). rewrite H1 in Eu. cbn [option_map] in Eu.
  destruct (f_products _ _ _ _ _ F) as (a & ps & gs & I & P1 & P2 & P3). destruct (f_xs _ _ _ _ _ F) as (p & V & X).
  rewrite (final_elements k a r0 p Hk I V X a1 (w_inv _ _ _ _ _ _ _ _ W)), <- (w_xss _ _ _ _ _ _ _ _ W), M in P2.
  exists (u r0), (xss a). split; [exact Eu|]. split; [apply (partly_inv _ _ _ _ I)|].
  assert (Er : xs_of x (u r0) = xs_of x r0 /\ r_products (u r0) = r_products r0) by (destruct (Fu r0) as [->| ->]; split; reflexivity). destruct Er as [-> ->].
  rewrite P1. rewrite photons_split.
  - now apply (all_photons (S k)).
  - destruct k as [|i].
    + eapply angles_dark; [exact P3|]. intros q [<-|[]]. reflexivity.
    + destruct P3 as (h & pd & _ & N & An & _). eapply angles_dark; [exact An|]. eapply neutrons_dark; eauto.
  - intros q Hq. unfold photons in P2. eapply photons_are; eauto.
Qed.
Lemma sum_photons hs m r : shines a0 c hs -> ~ given c m -> lookup m (n_reactions n) = Some r ->
  exists x', partly a0 c x' /\ Forall2 (seen R a0 c x' (AceEdit_Model.tab_at (xs_of x r))) (from m hs) (r_products r) /\ r_derived r = [].
Proof.
  intros Sh G L. destruct (whole_ok R a0 c S0 AP ONCE n x OK) as (d0 & d & a1 & W). destruct (final_lookup R a0 c n x d0 d a1 W m) as (u & Eu & Fu). rewrite L in Eu.
  destruct (lookup m d) as [r1|] eqn:E1; [|discriminate]. cbn [option_map] in Eu. inversion Eu; subst r; clear Eu.
  assert (E0 : lookup m d0 = None).
  { destruct (lookup m d0) as [v|] eqn:E; [|reflexivity]. exfalso. apply G. apply (rd_only _ _ _ (w_read _ _ _ _ _ _ _ _ W) m v E). }
  destruct (w_sum _ _ _ _ _ _ _ _ W m r1 E0 E1) as [De Ph]. exists x. split; [rewrite (w_xss _ _ _ _ _ _ _ _ W); apply (partly_inv _ _ _ _ (w_inv _ _ _ _ _ _ _ _ W))|].
  assert (Er : xs_of x (u r1) = xs_of x r1 /\ r_products (u r1) = r_products r1 /\ r_derived (u r1) = r_derived r1) by (destruct (Fu r1) as [->| ->]; repeat split). destruct Er as (-> & -> & ->). split; [|exact De].
  rewrite (w_xss _ _ _ _ _ _ _ _ W). destruct Ph as [Ph|[Ph No]].
  - apply (all_photons _ _ _ _ _ _ (w_inv _ _ _ _ _ _ _ _ W) Sh Ph).
  - rewrite Ph. rewrite (mts_kept _ _ _ (w_inv _ _ _ _ _ _ _ _ W) Sh) in No. assert (E : from m hs = []); [|rewrite E; constructor].
    clear - No. unfold from. induction hs as [|h hs IH]; [reflexivity|]. cbn [filter]. rewrite (proj2 (Z.eqb_neq (gl_from h) m)); [|apply No; cbn; auto]. apply IH. intros t Ht. apply No. cbn. auto.
Qed.
Lemma no_photons m r : m = 1 \/ m = 101 -> given c m -> lookup m (n_reactions n) = Some r -> r_products r = [].
Proof.
  intros Hm G L. destruct (whole_ok R a0 c S0 AP ONCE n x OK) as (d0 & d & a1 & W). destruct (final_lookup R a0 c n x d0 d a1 W m) as (u & Eu & Fu). rewrite L in Eu.
  destruct (lookup m d) as [r1|] eqn:E1; [|discriminate]. cbn [option_map] in Eu. inversion Eu; subst r; clear Eu.
  assert (Er : r_products (u r1) = r_products r1) by (destruct (Fu r1) as [->| ->]; repeat split). rewrite Er.
  destruct (lookup m d0) as [v|] eqn:E0.
  - rewrite (g_old _ _ _ _ (w_grown _ _ _ _ _ _ _ _ W) _ _ E0) in E1. inversion E1; subst v. apply (w_none _ _ _ _ _ _ _ _ W). destruct Hm as [->| ->]; auto.
  - exfalso. apply (present_given R a0 c n x d0 d a1 W) in G. apply present_lookup in G as (v & G). congruence.
Qed.
End Photons.
