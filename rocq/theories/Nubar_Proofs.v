(** Neutrons emitted, proofs. *)
From Coq Require Import ZArith QArith Qcanon List Bool Arith Lia.
From Verif Require Import Num Neut_Model Neut_Spec Neut_Proofs NeutSum_Proofs NeutAll_Proofs NeutFinal_Proofs NeutRun_Proofs Nubar_Spec.
From Verif Require AceEdit_Model.
Import ListNotations.
Local Open Scope Z_scope.
Local Notation lookup := AceEdit_Model.lookup.
Local Notation "'do' x <- e ; k" :=
  (match e with Some x => k | None => None end) (at level 60, x pattern, e at level 59, k at level 60).

(** *** Functions *)
Lemma map_int_qz l : map int (map qz l) = l.
Proof. rewrite map_map. transitivity (map (fun z : Z => z) l); [|apply map_id]. apply map_ext. intros z. apply int_qz. Qed.
Lemma fn_reads x p t : stands x p (table_words t) -> table_fine t -> fn_from_ace x p = Some (in_ev t).
Proof.
  intros H [L1 L2]. unfold table_words in H. set (nr := Z.of_nat (length (fbp t))) in H. set (np := Z.of_nat (length (fx t))) in H.
  apply stands_cons in H as [H0 H]. apply stands_app in H as [H1 H]. rewrite map_length in H. apply stands_app in H as [H2 H]. rewrite map_length, L1 in H.
  apply stands_cons in H as [H3 H]. apply stands_app in H as [H4 H5]. fold nr in H2, H3, H4, H5. fold np in H5.
  unfold fn_from_ace. rewrite (int_at_stands _ _ nr []) by exact H0.
  rewrite (int_at_stands _ _ np []) by (replace (p + 1 + 2 * nr) with (p + 1 + nr + nr) by lia; exact H3).
  replace (p + 1 + 2 * nr + 1) with (p + 1 + nr + nr + 1) by lia.
  rewrite (slice_stands _ _ _ np H4) by reflexivity. replace (p + 1 + nr + nr + 1 + 2 * np) with (p + 1 + nr + nr + 1 + np + np) by lia.
  rewrite (slice_stands _ _ _ np H5) by (unfold np; lia). unfold in_ev, mega, EV_PER_MEV.
  destruct (fbp t) as [|b bs] eqn:Eb.
  - change (0 <? nr) with false. cbv iota. reflexivity.
  - assert (0 < nr) by (unfold nr; cbn [length]; lia). destruct (Z.ltb_spec 0 nr); [|lia].
    rewrite (slice_stands _ _ _ nr H1) by (rewrite map_length; reflexivity). replace (p + 1 + 2 * nr) with (p + 1 + nr + nr) by lia.
    rewrite (slice_stands _ _ _ nr H2) by (rewrite map_length, L1; reflexivity). now rewrite !map_int_qz.
Qed.
Lemma mega_pos : EV_PER_MEV <> 0%Qc. Proof. discriminate. Qed.
Lemma power_nz i : Qcpower EV_PER_MEV i <> 0%Qc.
Proof. induction i as [|i IH]; cbn [Qcpower]; [discriminate|]. intros E. apply Qcmult_integral in E as [E|E]; [now apply mega_pos|now apply IH]. Qed.
Lemma descale_length l : forall i, length (descale i l) = length l.
Proof. induction l as [|v l IH]; intros i; cbn [descale length]; [reflexivity|now rewrite IH]. Qed.
Lemma descale_at e l : forall i, (poly_at (descale i l) (e * EV_PER_MEV) * Qcpower EV_PER_MEV i = poly_at l e)%Qc.
Proof.
  induction l as [|v l IH]; intros i; cbn [descale poly_at]; [ring|]. rewrite <- (IH (S i)). cbn [Qcpower]. field. apply power_nz.
Qed.
Lemma nu_reads x p f : stands x p (nu_words f) -> nu_fine f -> exists y, nu_at x p = Some y /\ same_nu f y.
Proof.
  intros H F. unfold nu_at. destruct f as [l|t]; cbn [nu_words nu_fine] in *; apply stands_cons in H as [H0 H].
  - apply stands_cons in H as [H1 H]. rewrite (int_at_stands _ _ 1 [] H0). change (1 =? 1) with true. cbv iota. rewrite (int_at_stands _ _ _ [] H1).
    replace (p + 2) with (p + 1 + 1) by lia. rewrite (slice_stands _ _ _ _ H eq_refl).
    destruct (descale 0 l) as [|v r] eqn:E; [pose proof (descale_length l 0) as L; rewrite E in L; destruct l; [congruence|discriminate]|]. rewrite <- E.
    eexists. split; [reflexivity|]. cbn [same_nu]. split; [apply descale_length|]. intros e. pose proof (descale_at e l 0) as K. cbn [Qcpower] in K. rewrite <- K. unfold EV_PER_MEV. ring.
  - rewrite (int_at_stands _ _ 2 [] H0). change (2 =? 1) with false. change (2 =? 2) with true. cbv iota. rewrite (fn_reads _ _ _ H F). eexists. split; reflexivity.
Qed.
Lemma nu_first x p f : stands x p (nu_words f) -> at_ x p = Some (match f with NuPoly _ => qz 1 | NuTable _ => qz 2 end).
Proof. destruct f; cbn [nu_words]; apply at_stands. Qed.

Section Emitted.
Context {D A : Type} (R : readers D A).

(** *** Delayed groups *)
Definition group_read (yd : fn) (h : Qc * fn) (q : @product D A) (p : Qc) : Prop :=
  exists y d, group_yield R yd (in_ev (snd h)) = Some (y, p) /\ q = mkProduct true Delayed (fst h * qz 100000000)%Qc (Tabd y) [] [(d, None)].
Lemma groups_read a yd : forall gs group idx ps tot, (forall g, In g gs -> table_fine (snd g)) -> stands (xss a) idx (concat (map group_words gs)) ->
  groups R a yd (length gs) group idx = Some (ps, tot) -> exists pr, Forall2 (fun h qp => group_read yd h (fst qp) (snd qp)) gs (combine ps pr) /\ length pr = length ps /\ length ps = length gs /\ tot = sum pr.
Proof.
  induction gs as [|h gs IH]; intros group idx ps tot F W H; cbn [length groups] in H.
  - inversion H. exists []. repeat split. constructor.
  - cbn [map concat] in W. apply stands_app in W as [W1 W2]. unfold group_words in W1 at 1. apply stands_cons in W1 as [W0 W1]. assert (F1 : table_fine (snd h)) by (apply F; cbn; auto).
    rewrite (at_stands _ _ _ _ W0) in H. destruct (qltb _ _); [discriminate|]. rewrite (fn_reads _ _ _ W1 F1) in H.
    destruct (group_yield R yd (in_ev (snd h))) as [(y, p)|] eqn:Ey; [|discriminate]. cbn [fst snd] in H.
    pose proof W1 as W1'. unfold table_words in W1'. apply stands_cons in W1' as [V0 V]. apply stands_app in V as [_ V]. rewrite map_length in V. apply stands_app in V as [_ V]. rewrite map_length, (proj1 F1) in V. apply stands_cons in V as [V3 _].
    rewrite (int_at_stands _ _ _ [] V0) in H.
    replace (idx + 1 + 1 + Z.of_nat (length (fbp (snd h))) + Z.of_nat (length (fbp (snd h)))) with (idx + 2 + 2 * Z.of_nat (length (fbp (snd h)))) in V3 by lia.
    rewrite (int_at_stands _ _ _ [] V3) in H. destruct (int_at _ (jxs a 26 + group)) as [st|]; [|discriminate]. destruct (dist_at R _ _ _ _) as [d|]; [|discriminate].
    destruct (groups R a yd (length gs) _ _) as [(ps', tot')|] eqn:E in H; [|discriminate]. cbn [fst snd] in H. inversion H; subst ps tot; clear H.
    assert (LW : idx + Z.of_nat (length (group_words h)) = idx + 3 + 2 * Z.of_nat (length (fbp (snd h))) + 2 * Z.of_nat (length (fx (snd h)))).
    { unfold group_words, table_words. cbn [length]. rewrite !app_length, !map_length. cbn [length]. rewrite app_length, (proj1 F1), (proj2 F1). lia. }
    rewrite LW in W2. destruct (IH _ _ _ _ ltac:(intros g Hg; apply F; cbn; auto) W2 E) as (pr & G1 & G2 & G3 & ->).
    exists (p :: pr). split; [|cbn [length sum fold_right]; repeat split; auto]. cbn [combine]. constructor; [|exact G1]. exists y, d. cbn [fst snd]. auto.
Qed.
Lemma group_constant yd t p : fy t <> [] -> (forall v, In v (fy t) -> v = p) -> group_yield R yd (in_ev t) = Some (mkFn (fx yd) (map (fun v => v * p)%Qc (fy yd)) (fbp yd) (fint yd), p).
Proof.
  intros N C. unfold group_yield, in_ev. cbn [fy]. destruct (fy t) as [|v l] eqn:E; [congruence|]. rewrite (C v) by (cbn; auto).
  assert (X : forallb (fun w => qeqb w p) (p :: l) = true) by (apply forallb_forall; intros w Hw; apply qeqb_eq; destruct Hw as [<-|Hw]; [reflexivity|apply C; cbn; auto]).
  now rewrite X.
Qed.

(** *** Fission products *)
Definition delayed_read (d : delayed) (dl : list (@product D A)) : Prop :=
  exists pr qs, Forall2 (fun h qp => group_read (in_ev (dl_nu d)) h (fst qp) (snd qp)) (dl_groups d) (combine qs pr) /\ length pr = length qs /\ length qs = length (dl_groups d) /\
    dl = if qltb 0%Qc (sum pr) then map (divide (sum pr)) qs else qs.
(** The number of neutrons is as told, in a table whose words are where they should be. *)
Record stated (a : ace) (f : fission) : Prop := {
  st_block : jxs a 2 <> 0;
  st_nu : match fi_nu f with
         | One nu => nu_fine nu /\ stands (xss a) (jxs a 2) (nu_words nu)
         | Both p t => nu_fine p /\ nu_fine t /\ exists k, 0 < k /\ stands (xss a) (jxs a 2) [qz (- k)] /\
                         stands (xss a) (jxs a 2 + 1) (nu_words p) /\ stands (xss a) (jxs a 2 + k + 1) (nu_words t)
         end;
  st_delayed : match fi_delayed f with
              | None => jxs a 24 <= 0
              | Some d => 0 < jxs a 24 /\ nxs a 8 = Z.of_nat (length (dl_groups d)) /\
                          table_fine (dl_nu d) /\ (forall g, In g (dl_groups d) -> table_fine (snd g)) /\
                          stands (xss a) (jxs a 24 + 1) (table_words (dl_nu d)) /\ stands (xss a) (jxs a 25) (concat (map group_words (dl_groups d)))
              end }.
Lemma fission_reads a f ps ds : stated a f -> fission_products R a = Some (ps, ds) ->
  exists y dl, ps = with_yield (match fi_nu f, fi_delayed f with One _, None => Total | _, _ => Prompt end) y :: dl /\
    match fi_nu f with
    | One nu => same_nu nu y /\ ds = []
    | Both p t => same_nu p y /\ exists z, same_nu t z /\ ds = [with_yield Total z]
    end /\
    match fi_delayed f with None => dl = [] | Some d => delayed_read d dl end.
Proof.
  intros [B NU DL] H. unfold fission_products in H. destruct (Z.eqb_spec (jxs a 2) 0); [contradiction|].
  assert (FIRST : exists w y (z : list (@product D A)), at_ (xss a) (jxs a 2) = Some w /\
     (if qltb 0%Qc w then do y <- nu_at (xss a) (jxs a 2); Some ([@with_yield D A (if 0 <? jxs a 24 then Prompt else Total) y], [])
      else if qltb w 0%Qc then do y <- nu_at (xss a) (jxs a 2 + 1); do z <- nu_at (xss a) (jxs a 2 + int (qabs w) + 1); Some ([@with_yield D A Prompt y], [@with_yield D A Total z])
      else Some ([], [])) =
     Some ([@with_yield D A (match fi_nu f, fi_delayed f with One _, None => Total | _, _ => Prompt end) y], z) /\
    match fi_nu f with One nu => same_nu nu y /\ z = [] | Both p t => same_nu p y /\ exists u, same_nu t u /\ z = [@with_yield D A Total u] end).
  { destruct (fi_nu f) as [nu|p t].
    - destruct NU as [Fi W]. destruct (nu_reads _ _ _ W Fi) as (y & Ey & Sy). eexists _, y, []. split; [apply (nu_first _ _ _ W)|].
      replace (qltb 0 (match nu with NuPoly _ => qz 1 | NuTable _ => qz 2 end)) with true by (destruct nu; reflexivity). rewrite Ey. split; [|auto].
      destruct (fi_delayed f) as [d|]; [destruct DL as [DL _]; rewrite (proj2 (Z.ltb_lt _ _) DL)|rewrite (proj2 (Z.ltb_ge _ _) DL)]; reflexivity.
    - destruct NU as (Fp & Ft & k & Hk & W0 & W1 & W2). destruct (nu_reads _ _ _ W1 Fp) as (y & Ey & Sy). destruct (nu_reads _ _ _ W2 Ft) as (z & Ez & Sz).
      exists (qz (- k)), y, [with_yield Total z]. split; [apply (at_stands _ _ _ _ W0)|].
      assert (Neg : (qz (- k) < 0)%Qc) by (unfold Qclt, qz; cbn [this Q2Qc]; rewrite !Qred_correct; unfold Qlt; cbn; lia).
      replace (qltb 0 (qz (- k))) with false by (symmetry; apply qltb_nlt; apply Qclt_le_weak; exact Neg). rewrite (proj2 (qltb_lt _ _) Neg). rewrite Ey.
      replace (int (qabs (qz (- k)))) with k.
      + rewrite Ez. split; [reflexivity|]. split; [exact Sy|]. eauto.
      + destruct (qabs_spec (qz (- k))) as [[P _]|[_ ->]]; [exfalso; apply Qclt_not_le in Neg; contradiction|].
        rewrite <- (int_qz k) at 1. f_equal. apply Qc_is_canon. unfold qz, Qcopp. cbn [this Q2Qc]. rewrite !Qred_correct. unfold Qeq, Qopp. cbn. lia. }
  destruct FIRST as (w & y & z & Ew & Ef & Sp). rewrite Ew in H. rewrite Ef in H. cbn [fst snd] in H. clear Ew Ef.
  destruct (fi_delayed f) as [d|].
  - destruct DL as (D1 & D2 & D3 & D4 & D5 & D6). rewrite (proj2 (Z.ltb_lt _ _) D1) in H. rewrite (fn_reads _ _ _ D5 D3), D2, Nat2Z.id in H.
    destruct (groups R a (in_ev (dl_nu d)) _ 0 (jxs a 25)) as [(gs, tot)|] eqn:G; [|discriminate]. cbn [fst snd] in H.
    destruct (groups_read a _ _ _ _ _ _ D4 D6 G) as (pr & P1 & P2 & P3 & ->). inversion H; subst ps ds; clear H.
    exists y, (if qltb 0%Qc (sum pr) then map (divide (sum pr)) gs else gs). split; [|split; [exact Sp|exists pr, gs; auto]].
    unfold renormalize. cbn [app]. destruct (qltb 0 (sum pr)); destruct (fi_nu f); reflexivity.
  - rewrite (proj2 (Z.ltb_ge _ _) DL) in H. inversion H; subst ps ds. exists y, []. repeat split. exact Sp.
Qed.

(** *** What is done to the products later *)
Lemma delayed_change f ps : (forall p : @product D A, p_mode (f p) = p_mode p) -> delayed_of (change_first main_neutron f ps) = delayed_of ps.
Proof.
  intros F. induction ps as [|p ps IH]; [reflexivity|]. cbn [change_first]. unfold main_neutron at 1. destruct (p_mode p) eqn:E; unfold delayed_of; cbn [filter]; rewrite ?F, ?E, ?andb_false_r; try reflexivity.
  rewrite andb_true_r. destruct (p_neutron p); [f_equal|]; exact IH.
Qed.
Lemma photons_are a mt xs : forall is gs, photons_from R a mt xs is = Some gs -> forall p, In p gs -> p_neutron p = false.
Proof.
  induction is as [|i is IH]; intros gs H p Hp; cbn [photons_from] in H; [inversion H; subst; easy|].
  destruct (at_ _ _) as [m|]; [|discriminate]. destruct (negb _); [eauto|]. destruct (photon R a i mt xs) as [q|] eqn:E; [|discriminate]. destruct (photons_from R a mt xs is) as [qs|] eqn:E2; [|discriminate].
  inversion H; subst gs. destruct Hp as [<-|Hp]; [|eapply IH; eauto].
  unfold photon in E. destruct (photon_yield a i mt xs); [|discriminate]. destruct (int_at _ _); [|discriminate]. destruct (dist_at R _ _ _ _); [|discriminate]. destruct (plain R _); [|discriminate].
  destruct (int_at _ _); [|discriminate]. match type of E with match ?m with _ => _ end = _ => destruct m; [|discriminate] end. inversion E; subst q. reflexivity.
Qed.
Lemma delayed_photons ps gs : (forall p, In p gs -> p_neutron p = false) -> delayed_of (ps ++ gs) = @delayed_of D A ps.
Proof.
  intros H. unfold delayed_of. rewrite filter_app. assert (E : filter (fun p => p_neutron p && match p_mode p with Delayed => true | _ => false end) gs = []).
  { induction gs as [|g gs IH]; [reflexivity|]. cbn [filter]. rewrite (H g) by (cbn; auto). cbn. apply IH. intros p Hp. apply H. cbn. auto. }
  rewrite E. apply app_nil_r.
Qed.
Lemma angles_delayed a i ps ps' : angles R a i ps = Some ps' -> delayed_of ps' = delayed_of ps.
Proof.
  unfold angles. destruct (i <? nxs a 5 + 1); [|intros H; now inversion H]. destruct (int_at _ _) as [loc|]; [|discriminate]. destruct (loc <=? 0); [intros H; now inversion H|].
  destruct (ang_at R _ _ _) as [g|]; [|discriminate]. intros H. inversion H. now apply delayed_change.
Qed.
(** The first neutron. *)
Definition head_is (ps : list (@product D A)) (m : mode) (y : yield) : Prop := m <> Delayed /\ first_neutron ps m y.
Lemma head_change f ps m y : head_is ps m y -> (forall p, p_neutron (f p) = p_neutron p /\ p_mode (f p) = p_mode p /\ p_rate (f p) = p_rate p /\ p_yield (f p) = p_yield p) -> head_is (change_first main_neutron f ps) m y.
Proof.
  intros [Nm (p & r & -> & P1 & P2 & P3 & P4)] F. split; [exact Nm|]. cbn [change_first]. unfold main_neutron at 1. rewrite P2. destruct (F p) as (F1 & F2 & F3 & F4).
  destruct m; [| |congruence]; exists (f p), r; repeat split; congruence.
Qed.
Lemma head_app ps gs m y : head_is ps m y -> head_is (ps ++ gs) m y.
Proof. intros [Nm (p & r & -> & H)]. split; [exact Nm|]. exists p, (r ++ gs). auto. Qed.
Lemma angles_head a i ps ps' m y : angles R a i ps = Some ps' -> head_is ps m y -> head_is ps' m y.
Proof.
  unfold angles. destruct (i <? nxs a 5 + 1); [|intros H; now inversion H]. destruct (int_at _ _) as [loc|]; [|discriminate]. destruct (loc <=? 0); [intros H; now inversion H|].
  destruct (ang_at R _ _ _) as [g|]; [|discriminate]. intros H. inversion H. intros K. apply head_change; auto.
Qed.

(** *** In the whole table *)
Variables (a0 : ace) (c : content) (n : @neutron D A) (x : list Qc).
Hypothesis (S0 : says a0 c) (AP : apart a0 c) (ONCE : listed_once c) (OK : from_ace R a0 = Some (n, x)).
Lemma kept_stands k a p l : inv a0 c k a -> kept a0 c p l -> stands (xss a) p l.
Proof. intros I [H N]. exact (stands_kept _ _ _ _ _ _ I H N). Qed.
Lemma tells_stated k a f : inv a0 c k a -> tells a0 c f -> stated a f.
Proof.
  intros I [B NU DL]. split; rewrite ?(i_jxs _ _ _ _ I), ?(i_nxs _ _ _ _ I); [exact B| |].
  - destruct (fi_nu f) as [nu|p t]; [destruct NU as [F W]; split; [exact F|now apply (kept_stands k)]|].
    destruct NU as (Fp & Ft & m & Hm & W0 & W1 & W2). split; [exact Fp|]. split; [exact Ft|]. exists m. split; [exact Hm|]. split; [now apply (kept_stands k)|]. split; now apply (kept_stands k).
  - destruct (fi_delayed f) as [d|]; [|exact DL]. destruct DL as (D1 & D2 & D3 & D4 & D5 & D6). split; [exact D1|]. split; [exact D2|]. split; [exact D3|]. split; [intros g Hg; now destruct (D4 g Hg)|]. split; now apply (kept_stands k).
Qed.
(** What is read of a listed reaction, back to the parts. *)
Lemma listed i h : nth_error (c_channels c) i = Some h -> ~ ignored (c_mt h) -> exists a ps gs pd, inv a0 c (S (S i)) a /\ products_of n (c_mt h) (ps ++ gs) (snd pd) /\
  neutrons R a (Z.of_nat (S i)) (c_mt h) (c_ty h) (c_q h * qz 1000000)%Qc = Some pd /\ angles R a (Z.of_nat (S i)) (fst pd) = Some ps /\ forall p, In p gs -> p_neutron p = false.
Proof.
  intros E Ig. destruct (whole_ok R a0 c S0 AP ONCE n x OK) as (d0 & d & a1 & W). destruct (channel_read R a0 c n x d0 d a1 W i h E Ig) as (r & _ & (L & _) & _ & _ & _ & _ & r0 & F & Pr & De).
  destruct (f_products _ _ _ _ _ F) as (a & ps & gs & I & P1 & P2 & h' & pd & E' & P3 & P4 & P5). assert (h' = h) as -> by congruence.
  exists a, ps, gs, pd. split; [exact I|]. split; [exists r; repeat split; [exact L|congruence|congruence]|]. split; [exact P3|]. split; [exact P4|].
  intros p Hp. unfold photons in P2. eapply photons_are; eauto.
Qed.
Lemma not_ignored mt : fissions mt -> ~ ignored mt.
Proof. unfold fissions, ignored. lia. Qed.
Lemma emits_test k a i : inv a0 c k a -> emits a0 i -> (Z.of_nat (S i) <? nxs a 5 + 1) = true.
Proof. intros I E. rewrite (i_nxs _ _ _ _ I). unfold emits in E. apply Z.ltb_lt. lia. Qed.
Lemma fission_in i h f : nth_error (c_channels c) i = Some h -> fissions (c_mt h) -> c_ty h = 19 -> emits a0 i -> tells a0 c f ->
  exists ps ds y dl, products_of n (c_mt h) ps ds /\ head_is ps (match fi_nu f, fi_delayed f with One _, None => Total | _, _ => Prompt end) y /\
    match fi_nu f with
    | One nu => same_nu nu y /\ ds = []
    | Both p t => same_nu p y /\ exists z, same_nu t z /\ ds = [with_yield Total z]
    end /\ delayed_of ps = dl /\ match fi_delayed f with None => dl = [] | Some d => delayed_read d dl end.
Proof.
  intros E Fi Ty Em T. destruct (listed i h E (not_ignored _ Fi)) as (a & ps & gs & pd & I & PO & N & An & G).
  unfold neutrons in N. rewrite (emits_test _ _ _ I Em), Ty in N. change (negb (19 =? 19)) with false in N. cbv iota in N.
  assert (M : existsb (Z.eqb (c_mt h)) [18; 19; 20; 21; 38] = true) by (unfold fissions in Fi; apply existsb_exists; exists (c_mt h); split; [cbn [In]; lia|apply Z.eqb_refl]).
  rewrite M in N. destruct (fission_products R a) as [(fs, ds)|] eqn:FP; [|discriminate]. destruct (existsb main_neutron (fst (fs, ds))); [|discriminate].
  destruct (int_at _ _) as [lnw|]; [|discriminate]. destruct (laws R _ _ _ _ _) as [ls|]; [|discriminate]. inversion N; subst pd; clear N. cbn [fst snd] in *.
  destruct (fission_reads a f fs ds (tells_stated _ _ _ I T) FP) as (y & dl & -> & H1 & H2).
  exists (ps ++ gs), ds, y, dl. split; [exact PO|]. split.
  - apply head_app. eapply angles_head; [exact An|]. apply head_change; [|auto]. split; [destruct (fi_nu f); [destruct (fi_delayed f)|]; discriminate|]. eexists _, dl. repeat split.
  - split; [exact H1|]. split; [|exact H2]. rewrite delayed_photons by exact G. rewrite (angles_delayed _ _ _ _ An). rewrite delayed_change by reflexivity.
    assert (DD : forall q, In q dl -> p_neutron q = true /\ p_mode q = Delayed).
    { destruct (fi_delayed f) as [d|]; [|subst dl; easy]. destruct H2 as (pr & qs & F2 & L1 & L2 & ->).
      assert (Q : forall q, In q qs -> p_neutron q = true /\ p_mode q = Delayed).
      { clear - F2 L1. intros q Hq. destruct (In_nth_error _ _ Hq) as (j & Ej). destruct (err_ex pr j) as (p & Ep); [rewrite L1; eapply err_lt; eauto|].
        assert (Ic : In (q, p) (combine qs pr)).
        { clear - Ej Ep. revert qs pr Ej Ep. induction j as [|j IH]; intros [|a qs] [|b pr] H1 H2; cbn in *; try discriminate; [left; congruence|right; eauto]. }
        destruct (Forall2_In_r _ _ _ _ F2 Ic) as (h & _ & y & d' & _ & Eq). cbn [fst] in Eq. rewrite Eq. auto. }
      destruct (qltb 0 (sum pr)); [|exact Q]. intros q Hq. apply in_map_iff in Hq as (q' & <- & Hq). destruct (Q q' Hq) as [Q1 Q2]. unfold divide. destruct (p_yield q'); cbn; auto. }
    unfold delayed_of. cbn [filter with_yield p_mode p_neutron]. assert (E1 : match (match fi_nu f, fi_delayed f with One _, None => Total | _, _ => Prompt end) with Delayed => true | _ => false end = false) by (destruct (fi_nu f); [destruct (fi_delayed f)|]; reflexivity).
    rewrite E1. cbn [andb]. clear - DD. induction dl as [|q dl IH]; [reflexivity|]. cbn [filter]. destruct (DD q (or_introl eq_refl)) as [-> ->]. cbn [andb]. f_equal. apply IH. intros q' Hq'. apply DD. cbn. auto.
Qed.
(** Groups with constant probabilities. *)
Lemma constant_groups d ps dl : constant (dl_groups d) ps -> delayed_read d dl -> (0 < sum ps)%Qc ->
  Forall2 (fun gp q => p_neutron q = true /\ p_mode q = Delayed /\ p_rate q = (fst (fst gp) * qz 100000000)%Qc /\
     p_yield q = Tabd (mkFn (fx (in_ev (dl_nu d))) (map (fun v => v * snd gp / sum ps)%Qc (fy (dl_nu d))) (fbp (in_ev (dl_nu d))) (fint (in_ev (dl_nu d))))) (combine (dl_groups d) ps) dl.
Proof.
  intros C (pr & qs & F & L1 & L2 & ->) P.
  assert (E : pr = ps /\ Forall2 (fun gp q => exists dd, q = mkProduct true Delayed (fst (fst gp) * qz 100000000)%Qc (Tabd (mkFn (fx (in_ev (dl_nu d))) (map (fun v => v * snd gp)%Qc (fy (in_ev (dl_nu d)))) (fbp (in_ev (dl_nu d))) (fint (in_ev (dl_nu d))))) [] [(dd, None)]) (combine (dl_groups d) ps) qs).
  { clear P. revert ps qs pr C F L1 L2. generalize (dl_groups d) as gs. induction gs as [|h gs IH]; intros ps qs pr C F L1 L2; inversion C; subst.
    - destruct qs; [|discriminate]. destruct pr; [|discriminate]. split; [reflexivity|constructor].
    - destruct qs as [|q qs]; [discriminate|]. destruct pr as [|p pr]; [discriminate|]. cbn [combine] in F. inversion F; subst. cbn [fst snd] in *. destruct H1 as [N1 V1].
      match goal with G : group_read _ _ _ _ |- _ => destruct G as (yy & dd & Gy & ->) end. rewrite (group_constant (in_ev (dl_nu d)) (snd h) y N1 V1) in Gy. inversion Gy; subst; clear Gy.
      destruct (IH l' qs pr ltac:(assumption) ltac:(assumption) ltac:(cbn in *; lia) ltac:(cbn in *; lia)) as [-> F']. split; [reflexivity|]. cbn [combine]. constructor; [|exact F']. cbn [fst snd]. eauto. }
  destruct E as [-> F2]. rewrite (proj2 (qltb_lt _ _) P). clear F C L1 L2. revert F2. generalize (sum ps) as P0. generalize (combine (dl_groups d) ps) as gp. clear. intros gp P0 F. induction F as [|g q gp qs H F IH]; cbn [map]; constructor; auto.
  destruct H as (dd & ->). unfold divide. cbn [p_yield p_neutron p_mode p_rate fx fy fbp fint]. repeat split. f_equal. f_equal. rewrite map_map. reflexivity.
Qed.
Lemma delayed_sum (gs : list (Qc * fn)) ps dl nu P j v : Forall2 (fun gp q => exists bp it, p_yield q = Tabd (mkFn (fx (in_ev nu)) (map (fun v => v * snd gp / P)%Qc (fy nu)) bp it)) (combine gs ps) dl -> length gs = length ps -> (0 < P)%Qc -> P = sum ps -> nth_error (fy nu) j = Some v ->
  sum (map (fun q => match @p_yield D A q with Tabd t => nth j (fy t) 0%Qc | Poly _ => 0%Qc end) dl) = v.
Proof.
  intros F L PP EP Ej. assert (K : sum (map (fun q => match @p_yield D A q with Tabd t => nth j (fy t) 0%Qc | Poly _ => 0%Qc end) dl) = (v * sum ps / P)%Qc).
  { clear EP. revert ps dl L F. induction gs as [|g gs IH]; intros [|p ps] dl L F; try discriminate; cbn [combine] in F; inversion F; subst; cbn [map sum fold_right]; [unfold Qcdiv; ring|].
    match goal with G : exists _ _, _ |- _ => destruct G as (bp & it & ->) end. cbn [fy snd]. rewrite (nth_error_nth (map _ _) _ _ (eq_trans (err_map _ _ _) (f_equal (option_map _) Ej))).
    change (fold_right Qcplus 0%Qc) with sum. rewrite (IH ps l' ltac:(cbn in L; lia) ltac:(assumption)). unfold Qcdiv. ring. }
  rewrite K, EP. field. intros E0. rewrite <- EP in E0. rewrite E0 in PP. discriminate PP.
Qed.
(** Reactions other than fission. *)
Lemma emitted_in i h : nth_error (c_channels c) i = Some h -> ~ ignored (c_mt h) -> c_ty h <> 19 -> emits a0 i ->
  exists ps y, products_of n (c_mt h) ps [] /\ head_is ps Prompt y /\ delayed_of ps = [] /\
    (Z.abs (c_ty h) <= 100 -> y = Poly [qz (Z.abs (c_ty h))]) /\
    (forall t, 100 < Z.abs (c_ty h) -> table_fine t -> kept a0 c (jxs a0 11 + Z.abs (c_ty h) - 101) (table_words t) -> y = Tabd (in_ev t)).
Proof.
  intros E Ig Ty Em. destruct (listed i h E Ig) as (a & ps & gs & pd & I & PO & N & An & G).
  unfold neutrons in N. rewrite (emits_test _ _ _ I Em) in N. destruct (Z.eqb_spec (c_ty h) 19); [contradiction|]. cbn [negb] in N.
  match type of N with context [if 100 <? _ then ?u else ?v] => remember (if 100 <? Z.abs (c_ty h) then u else v) as yo eqn:Ey end. destruct yo as [y|]; [|discriminate]. symmetry in Ey.
  destruct (int_at _ _) as [lnw|]; [|discriminate]. destruct (laws R _ _ _ _ _) as [ls|]; [|discriminate]. inversion N; subst pd; clear N. cbn [fst snd] in *.
  exists (ps ++ gs), y. split; [exact PO|]. split; [apply head_app; eapply angles_head; [exact An|]; cbn [change_first with_yield main_neutron p_mode]; split; [discriminate|]; eexists _, []; repeat split|].
  split; [rewrite delayed_photons by exact G; rewrite (angles_delayed _ _ _ _ An); reflexivity|]. split.
  - intros L. rewrite (proj2 (Z.ltb_ge _ _) L) in Ey. now inversion Ey.
  - intros t L F W. rewrite (proj2 (Z.ltb_lt _ _) L) in Ey. rewrite (i_jxs _ _ _ _ I), (fn_reads _ _ _ (kept_stands _ _ _ _ I W) F) in Ey. now inversion Ey.
Qed.
Lemma silent i h : nth_error (c_channels c) i = Some h -> ~ ignored (c_mt h) -> ~ emits a0 i -> exists ps, products_of n (c_mt h) ps [] /\ forall p, In p ps -> p_neutron p = false.
Proof.
  intros E Ig Em. destruct (listed i h E Ig) as (a & ps & gs & pd & I & PO & N & An & G). unfold neutrons in N. unfold angles in An.
  assert (T : (Z.of_nat (S i) <? nxs a 5 + 1) = false) by (rewrite (i_nxs _ _ _ _ I); unfold emits in Em; apply Z.ltb_ge; lia). rewrite T in N, An. inversion N; subst pd. inversion An; subst ps. exists gs. cbn [fst snd app] in *. auto.
Qed.
(** Laws and angles of the first neutron. *)
Lemma partly_inv k a : inv a0 c k a -> partly a0 c (xss a).
Proof. intros I. split; [apply (i_length _ _ _ _ I)|]. intros p v H. destruct (i_word _ _ _ _ I _ _ H) as (v' & H1 & H2 & _ & H3). eauto. Qed.
Lemma laws_read k a q : inv a0 c k a -> forall lnw l, chained a0 c lnw l -> forall fuel ls, laws R fuel (xss a) (jxs a0 11) q lnw = Some ls ->
  map fst ls = map (fun e => in_ev (snd e)) l /\ Forall2 (fun e s => dist_at R (xss a) (jxs a0 11) (fst e) (Some q) = Some (snd s)) l ls.
Proof.
  intros I lnw l C. induction C as [lnw L|lnw next t l L F W1 W2 C IH]; intros fuel ls H.
  - destruct fuel; cbn [laws] in H; rewrite (proj2 (Z.leb_le _ _) L) in H; inversion H; split; [reflexivity|constructor|reflexivity|constructor].
  - destruct fuel as [|fuel]; cbn [laws] in H; rewrite (proj2 (Z.leb_gt _ _) L) in H; [discriminate|].
    rewrite (fn_reads _ _ _ (kept_stands _ _ _ _ I W2) F) in H. destruct (dist_at R _ _ lnw _) as [d|] eqn:Ed; [|discriminate]. rewrite (int_at_stands _ _ next [] (kept_stands _ _ _ _ I W1)) in H.
    destruct (laws R fuel _ _ _ next) as [r|] eqn:Er; [|discriminate]. inversion H; subst ls. destruct (IH _ _ Er) as [E1 E2]. split; [cbn [map fst snd]; now rewrite E1|constructor; auto].
Qed.
Lemma laws_in i h lnw l loc : nth_error (c_channels c) i = Some h -> ~ ignored (c_mt h) -> (c_ty h = 19 -> fissions (c_mt h) /\ exists f, tells a0 c f) -> emits a0 i -> kept a0 c (jxs a0 10 + Z.of_nat i) [qz lnw] -> chained a0 c lnw l ->
  kept a0 c (jxs a0 8 + Z.of_nat i + 1) [qz loc] ->
  exists x' p ps ds, partly a0 c x' /\ products_of n (c_mt h) (p :: ps) ds /\ p_app p = map (fun e => in_ev (snd e)) l /\
    Forall2 (fun e d => dist_at R x' (jxs a0 11) (fst e) (Some (c_q h * qz 1000000)%Qc) = Some (fst d)) l (p_dist p) /\
    (loc <= 0 -> forall d, In d (p_dist p) -> snd d = None) /\ (0 < loc -> exists g, ang_at R x' (jxs a0 9) loc = Some g /\ forall d, In d (p_dist p) -> snd d = Some g).
Proof.
  intros E Ig Fi Em W1 C W2. destruct (listed i h E Ig) as (a & ps & gs & pd & I & PO & N & An & G).
  unfold neutrons in N. rewrite (emits_test _ _ _ I Em) in N.
  match type of N with match ?u with _ => _ end = _ => remember u as po eqn:Ep end. symmetry in Ep. destruct po as [po|]; [|discriminate].
  assert (H1 : exists m y r, fst po = with_yield m y :: r /\ m <> Delayed).
  { destruct (Z.eqb_spec (c_ty h) 19) as [T|T]; cbn [negb] in Ep.
    - destruct (existsb _ _); [|discriminate]. destruct (fission_products R a) as [(fs, ds)|] eqn:FP; [|discriminate]. destruct (existsb main_neutron _); [|discriminate]. inversion Ep; subst po. destruct (Fi T) as (Fm & f & Tf).
      destruct (fission_reads a f fs ds (tells_stated _ _ _ I Tf) FP) as (y & dl & -> & _). eexists _, y, dl. split; [reflexivity|]. destruct (fi_nu f); [destruct (fi_delayed f)|]; discriminate.
    - match type of Ep with match ?u with _ => _ end = _ => destruct u as [y|]; [|discriminate] end. inversion Ep. eexists _, _, _. split; [reflexivity|discriminate]. }
  destruct H1 as (m & y & r & Hp & Hm). rewrite (i_jxs _ _ _ _ I) in N. replace (jxs a0 10 + Z.of_nat (S i) - 1) with (jxs a0 10 + Z.of_nat i) in N by lia.
  rewrite (int_at_stands _ _ lnw [] (kept_stands _ _ _ _ I W1)) in N. destruct (laws R _ _ _ _ lnw) as [ls|] eqn:El; [|discriminate]. inversion N; subst pd; clear N. cbn [fst snd] in *.
  destruct (laws_read _ _ _ I _ _ C _ _ El) as [L1 L2]. rewrite Hp in An. cbn [change_first] in An. assert (Mn : main_neutron (with_yield (D:=D) (A:=A) m y) = true) by (unfold main_neutron; cbn; destruct m; congruence). rewrite Mn in An.
  unfold angles in An. rewrite (emits_test _ _ _ I Em), (i_jxs _ _ _ _ I) in An. replace (jxs a0 8 + Z.of_nat (S i)) with (jxs a0 8 + Z.of_nat i + 1) in An by lia.
  rewrite (int_at_stands _ _ loc [] (kept_stands _ _ _ _ I W2)) in An. exists (xss a).
  assert (F2 : forall o : option A, Forall2 (fun e d => dist_at R (xss a) (jxs a0 11) (fst e) (Some (c_q h * qz 1000000)%Qc) = Some (fst d)) l (map (fun s : fn * D => (snd s, o)) ls)).
  { intros o. clear - L2. induction L2; cbn [map]; constructor; auto. }
  destruct (Z.leb_spec loc 0) as [Lo|Lo].
  - inversion An; subst ps. eexists _, _, _. split; [apply (partly_inv _ _ I)|]. split; [exact PO|]. unfold add_laws. cbn [p_app p_dist with_yield app]. split; [exact L1|]. split; [apply F2|]. split; [|lia].
    intros _ d Hd. apply in_map_iff in Hd as (s & <- & _). reflexivity.
  - destruct (ang_at R (xss a) (jxs a0 9) loc) as [g|] eqn:Eg; [|discriminate]. cbn [change_first] in An. assert (Mn2 : main_neutron (A:=A) (add_laws ls (with_yield m y)) = true) by (unfold main_neutron; cbn; destruct m; congruence). rewrite Mn2 in An. inversion An; subst ps.
    eexists _, _, _. split; [apply (partly_inv _ _ I)|]. split; [exact PO|]. unfold set_angle, add_laws. cbn [p_app p_dist with_yield app]. split; [exact L1|]. rewrite map_map. cbn [fst]. split; [apply F2|]. split; [lia|].
    intros _. exists g. split; [reflexivity|]. intros d Hd. apply in_map_iff in Hd as (s & <- & _). reflexivity.
Qed.
(** Elastic scattering. *)
Lemma elastic_in loc : 0 <= nxs a0 5 -> kept a0 c (jxs a0 8) [qz loc] -> exists x' p ps, partly a0 c x' /\ products_of n 2 (p :: ps) [] /\
  p_neutron p = true /\ p_mode p = Prompt /\ p_rate p = 0%Qc /\ p_yield p = Poly [1%Qc] /\ p_app p = [] /\ (forall q, In q ps -> p_neutron q = false) /\
  (loc <= 0 -> p_dist p = [(elastic_dist R, None)]) /\ (0 < loc -> exists g, ang_at R x' (jxs a0 9) loc = Some g /\ p_dist p = [(elastic_dist R, Some g)]).
Proof.
  intros N5 W0. destruct (whole_ok R a0 c S0 AP ONCE n x OK) as (d0 & d & a1 & W). destruct (w_fits _ _ _ _ _ _ _ _ W 0%nat ltac:(lia)) as (r0 & F & K).
  destruct (f_rest _ _ _ _ _ F) as (M & _ & _ & _ & _ & De). rewrite M in K. specialize (K ltac:(unfold ignored; lia)). pose proof (g_old _ _ _ _ (w_grown _ _ _ _ _ _ _ _ W) _ _ K) as H1.
  destruct (f_products _ _ _ _ _ F) as (a & ps & gs & I & P1 & P2 & P3). rewrite M in P2. assert (G : forall p, In p gs -> p_neutron p = false) by (intros p Hp; unfold photons in P2; eapply photons_are; eauto).
  destruct (final_lookup R a0 c n x d0 d a1 W 2) as (u & Eu & Fu). rewrite H1 in Eu. cbn [option_map] in Eu.
  assert (PO : products_of n 2 (ps ++ gs) []) by (exists (u r0); destruct (Fu r0) as [E|E]; rewrite E in *; cbn [flag r_products r_derived]; repeat split; auto).
  unfold angles in P3. rewrite (i_nxs _ _ _ _ I) in P3. rewrite (proj2 (Z.ltb_lt 0 (nxs a0 5 + 1))) in P3 by lia. rewrite (i_jxs _ _ _ _ I) in P3. rewrite Z.add_0_r in P3.
  rewrite (int_at_stands _ _ loc [] (kept_stands _ _ _ _ I W0)) in P3. exists (xss a).
  destruct (Z.leb_spec loc 0) as [Lo|Lo].
  - inversion P3; subst ps. eexists _, gs. split; [apply (partly_inv _ _ I)|]. split; [exact PO|]. cbn [p_neutron p_mode p_rate p_yield p_app p_dist]. repeat (split; [auto|]). lia.
  - destruct (ang_at R (xss a) (jxs a0 9) loc) as [g|] eqn:Eg; [|discriminate]. inversion P3; subst ps. eexists _, gs. split; [apply (partly_inv _ _ I)|]. split; [exact PO|].
    cbn [set_angle p_neutron p_mode p_rate p_yield p_app p_dist map fst]. repeat (split; [solve [auto]|]). split; [lia|]. intros _. exists g. auto.
Qed.
(** What the editor holds. *)
Lemma nu_held i h f : nth_error (c_channels c) i = Some h -> c_mt h = 18 -> c_ty h = 19 -> emits a0 i -> tells a0 c f ->
  forall t, nu_of (n_reactions n) = Some t <-> exists p z, fi_nu f = Both p (NuTable z) /\ (exists u v, In u (fy z) /\ In v (fy z) /\ u <> v) /\ AceEdit_Model.tx t = fx (in_ev z) /\ AceEdit_Model.ty t = fy z.
Proof.
  intros E M Ty Em T t. destruct (fission_in i h f E ltac:(unfold fissions; lia) Ty Em T) as (ps & ds & y & dl & (r & L & Pr & De) & _ & H & _). rewrite M in L.
  unfold nu_of. rewrite L. destruct (fi_nu f) as [nu|p z].
  - destruct H as [_ ->]. rewrite De. cbn [nth_error]. split; [discriminate|]. intros (p & z & K & _). discriminate.
  - destruct H as (_ & w & Sw & ->). rewrite De. cbn [nth_error with_yield p_yield]. destruct z as [l|z]; destruct w as [l'|t']; cbn [same_nu] in Sw; try contradiction.
    + split; [discriminate|]. intros (p' & z & K & _). inversion K.
    + subst t'. unfold says_tabulated. change (fy (in_ev z)) with (fy z).
      assert (Eq : (match fy z with [] => false | v :: _ => negb (forallb (fun w => qeqb w v) (fy z)) end) = true <-> exists u v, In u (fy z) /\ In v (fy z) /\ u <> v).
      { destruct (fy z) as [|v l]; [split; [discriminate|intros (u & v & [] & _)]|]. rewrite negb_true_iff. split.
        - intros K. destruct (existsb (fun w => negb (qeqb w v)) (v :: l)) eqn:X.
          + apply existsb_exists in X as (w & Iw & Nw). exists w, v. split; [exact Iw|]. split; [cbn; auto|]. intros ->. rewrite (proj2 (qeqb_eq v v) eq_refl) in Nw. discriminate.
          + exfalso. assert (forallb (fun w => qeqb w v) (v :: l) = true); [|congruence]. apply forallb_forall. intros w Iw. destruct (qeqb w v) eqn:Q; [reflexivity|].
            assert (existsb (fun w => negb (qeqb w v)) (v :: l) = true) by (apply existsb_exists; exists w; rewrite Q; auto). congruence.
        - intros (u & w & Iu & Iw & N). destruct (forallb _ _) eqn:K; [|reflexivity]. rewrite forallb_forall in K. exfalso. apply N. pose proof (K u Iu) as K1. pose proof (K w Iw) as K2. apply qeqb_eq in K1, K2. congruence. }
      set (b := match fy z with [] => false | v :: _ => negb (forallb (fun w => qeqb w v) (fy z)) end) in *. destruct b.
      * split; [intros K; inversion K; subst t; exists p, z; split; [reflexivity|]; split; [now apply Eq|]; split; reflexivity|].
        intros (p' & z' & K & _ & X & Y). inversion K; subst p' z'. destruct t as [tx0 ty0]. cbn in X, Y. subst tx0 ty0. reflexivity.
      * split; [discriminate|]. intros (p' & z' & K & D0 & _). inversion K; subst p' z'. apply Eq in D0. discriminate.
Qed.
(** Refused. *)
Lemma no_nu_in i h : nth_error (c_channels c) i = Some h -> ~ ignored (c_mt h) -> c_ty h = 19 -> emits a0 i -> fissions (c_mt h) /\ jxs a0 2 <> 0.
Proof.
  intros E Ig Ty Em. destruct (listed i h E Ig) as (a & ps & gs & pd & I & _ & N & _). unfold neutrons in N. rewrite (emits_test _ _ _ I Em), Ty in N. change (negb (19 =? 19)) with false in N. cbv iota in N.
  destruct (existsb (Z.eqb (c_mt h)) [18; 19; 20; 21; 38]) eqn:M; [|discriminate]. split.
  - apply existsb_exists in M as (m & Im & Em'). apply Z.eqb_eq in Em'. unfold fissions. cbn [In] in Im. lia.
  - intros J. unfold fission_products in N. rewrite (i_jxs _ _ _ _ I), J in N. discriminate.
Qed.
End Emitted.

(** *** Words behind a table *)
Section Behind.
Variables (c : content) (nxs' jxs' : nat -> Z) (w : list Qc).
Hypotheses (K : consistent c) (HN : forall i, (i = 3 \/ i = 4)%nat -> nxs' i = nxs (lay c) i) (HJ : forall i, (i = 1 \/ 3 <= i <= 7)%nat -> jxs' i = jxs (lay c) i).
Let a := mkAce nxs' jxs' (xss (lay c) ++ w).
Lemma put_stands p l : stands (xss (lay c)) p l -> stands (xss a) p l.
Proof. intros (u & v & E & L). exists u, (v ++ w). split; [cbn [xss a]; rewrite E, <- !app_assoc; reflexivity|exact L]. Qed.
Lemma put_says : says a c.
Proof.
  pose proof (lay_says c K) as S. split.
  - apply (s_lengths _ _ S).
  - cbn [nxs jxs a]. rewrite HN, HJ by lia. split; [apply (s_grid _ _ S)|apply put_stands, (s_grid _ _ S)].
  - cbn [nxs a]. rewrite HN by lia. apply (s_count _ _ S).
  - intros i r E. destruct (s_channel _ _ S i r E) as (H1 & H2 & H3 & H4 & loc & H5 & H6). cbn [jxs a]. rewrite !HJ by lia. repeat (split; [auto using put_stands|]). exists loc. auto using put_stands.
Qed.
Lemma put_values k p : (k <= length (c_channels c))%nat -> values_at a c k p -> values_at (lay c) c k p.
Proof.
  intros Hk V. pose proof (lay_says c K) as S. destruct k as [|i]; cbn [values_at] in *; [cbn [jxs a] in V; now rewrite <- HJ by lia|].
  destruct V as (loc & H & ->). cbn [jxs a] in H. cbn [jxs a]. rewrite HJ in H by lia. rewrite (HJ 7%nat) by lia.
  destruct (s_channel _ _ S i (nth i (c_channels c) (mkChannel 0 0 0 0 []))) as (_ & _ & _ & _ & loc' & H5 & _); [apply nth_error_nth'; lia|].
  pose proof (stands_one _ _ _ _ _ _ H (put_stands _ _ H5)) as E. apply qz_inj in E. subst loc'. exists loc. auto.
Qed.
Lemma put_valued p : valued a c p -> valued (lay c) c p.
Proof. intros (k & q & Hk & V & B). exists k, q. split; [exact Hk|]. split; [now apply put_values|exact B]. Qed.
Lemma put_apart : apart a c.
Proof.
  pose proof (lay_apart c K) as P. split.
  - intros p Hp Vp. apply put_valued in Vp. revert Vp. apply (a_grid _ _ P). cbn [jxs a] in Hp. rewrite HJ in Hp by lia. exact Hp.
  - intros i Hi. destruct (a_lists _ _ P i Hi) as (A1 & A2 & A3 & A4 & A5). cbn [jxs a]. rewrite !HJ by lia. repeat (split; [intros X; apply put_valued in X; tauto|]).
    intros p V. destruct (A5 p (put_values (S i) p ltac:(lia) V)) as [B1 B2]. split; intros X; apply put_valued in X; tauto.
Qed.
Lemma put_kept p l : Z.of_nat (length (xss (lay c))) <= p -> stands (xss a) p l -> kept a c p l.
Proof.
  intros L St. split; [exact St|]. intros j Hj Vj. apply put_valued in Vj as (k & q & Hk & V & B).
  destruct (values_stand (lay c) c (lay_says c K) k Hk) as (q' & V' & (u & v & E & Lu)). assert (q' = q).
  { destruct k as [|i]; cbn [values_at] in *; [congruence|]. destruct V as (loc & H & ->). destruct V' as (loc' & H' & ->). pose proof (stands_one _ _ _ _ _ _ H H') as X. apply qz_inj in X. congruence. }
  subst q'. apply (f_equal (@length Qc)) in E. rewrite !app_length in E. lia.
Qed.
End Behind.
