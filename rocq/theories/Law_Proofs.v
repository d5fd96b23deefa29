(** Secondary distributions read from an ACE table, proofs. *)
From Coq Require Import ZArith QArith Qcanon List Bool Arith Lia.
From Verif Require Import Num Neut_Model Neut_Spec Neut_Proofs Nubar_Spec Nubar_Proofs Law_Model Law_Spec.
From Verif Require Cont_Model Cont_Spec Cont_Proofs.
Import ListNotations.
Local Open Scope Z_scope.

Lemma some_all {A B} (f : A -> option B) l l' : Forall2 (fun a b => f a = Some b) l l' -> all_some (map f l) = Some l'.
Proof. induction 1 as [|a b l l' H F IH]; [reflexivity|]. cbn [map all_some]. now rewrite H, IH. Qed.
Lemma all_of {A} (l : list A) : all_some (map (at_ l) (range (Z.of_nat (length l)))) = Some l.
Proof.
  unfold range. rewrite Nat2Z.id, map_map. assert (G : forall m k, (k + length m = length l)%nat -> skipn k l = m -> all_some (map (fun i => at_ l (Z.of_nat i)) (seq k (length m))) = Some m).
  { induction m as [|v m IH]; intros k L E; [reflexivity|]. cbn [length seq map]. unfold at_ at 1. rewrite (proj2 (Z.leb_le 0 _)) by lia. rewrite Nat2Z.id.
    assert (E0 : nth_error l k = Some v). { pose proof (err_skipn l k 0) as N. rewrite E, Nat.add_0_r in N. cbn in N. congruence. } rewrite E0. cbn [all_some]. rewrite IH; [reflexivity|cbn in L; lia|].
    apply ext_err. intros j. rewrite err_skipn. replace (S k + j)%nat with (k + S j)%nat by lia. rewrite <- err_skipn, E. reflexivity. }
  apply (G l 0%nat); [lia|reflexivity].
Qed.
Lemma heading_reads x p i locs : stands x p (in_words i locs) -> in_fine i -> length locs = length (in_es i) ->
  exists bp it, heading x p = Some (bp, it, map (fun e => e * ev)%Qc (in_es i), locs) /\ regions_of i bp it.
Proof.
  intros H L1 L2. unfold in_words in H. unfold in_fine in L1. unfold len in *. set (nr := Z.of_nat (length (in_bp i))) in H. set (np := Z.of_nat (length (in_es i))) in H.
  apply stands_cons in H as [H0 H]. apply stands_app in H as [H1 H]. rewrite map_length in H. apply stands_app in H as [H2 H]. rewrite map_length, L1 in H.
  apply stands_cons in H as [H3 H]. apply stands_app in H as [H4 H5]. fold nr in H2, H3, H4, H5. fold np in H5.
  unfold heading. rewrite (int_at_stands _ _ nr []) by exact H0.
  rewrite (int_at_stands _ _ np []) by (replace (p + 1 + 2 * nr) with (p + 1 + nr + nr) by lia; exact H3).
  replace (p + 1 + 2 * nr + 1) with (p + 1 + nr + nr + 1) by lia.
  rewrite (slice_stands _ _ _ np H4) by reflexivity.
  rewrite (slice_stands _ _ _ np H5) by (rewrite map_length, L2; reflexivity). rewrite map_int_qz. unfold np. rewrite <- L2, all_of. unfold regions_of, mega, EV_PER_MEV, ev, len.
  destruct (in_bp i) as [|b bs] eqn:Eb.
  - change (0 <? nr) with false. cbv iota. eexists _, _. split; [reflexivity|]. left. now rewrite L2.
  - assert (0 < nr) by (unfold nr; cbn [length]; lia). destruct (Z.ltb_spec 0 nr); [|lia].
    rewrite (slice_stands _ _ _ nr H1) by (rewrite map_length; reflexivity). replace (p + 1 + 2 * nr) with (p + 1 + nr + nr) by lia.
    rewrite (slice_stands _ _ _ nr H2) by (rewrite map_length, L1; reflexivity). rewrite !map_int_qz. eexists _, _. split; [reflexivity|]. right. split; [discriminate|tauto].
Qed.
Lemma array_reads x k p n data : stands x p (qz (Z.of_nat n) :: data) -> length data = (k * n)%nat -> array_at x k p = Some (n, data).
Proof.
  intros H L. apply stands_cons in H as [H0 H]. unfold array_at. rewrite (int_at_stands _ _ _ [] H0). destruct (Z.ltb_spec (Z.of_nat n) 0); [lia|].
  rewrite (slice_stands _ _ _ (Z.of_nat k * Z.of_nat n) H) by (rewrite L; lia). rewrite L, Nat2Z.id, Nat.eqb_refl. reflexivity.
Qed.
Lemma row_0 n a b : length a = n -> row n 0 (a ++ b) = a.
Proof. intros <-. unfold row. cbn. now rewrite firstn_app, firstn_all, Nat.sub_diag, app_nil_r. Qed.
Lemma row_S n r a b : length a = n -> row n (S r) (a ++ b) = row n r b.
Proof. intros <-. unfold row. f_equal. apply ext_err. intros j. rewrite !err_skipn, err_app. destruct (Nat.ltb_spec (S r * length a + j) (length a)); [lia|]. f_equal. lia. Qed.
Lemma row_last n a : length a = n -> row n 0 a = a.
Proof. intros <-. unfold row. cbn. apply firstn_all. Qed.
Lemma triples_map {T} (f g h : T -> Qc) l : triples (map f l) (map g l) (map h l) = map (fun t => (f t, g t, h t)) l.
Proof. induction l as [|t l IH]; [reflexivity|]. cbn [map triples]. now rewrite IH. Qed.
Lemma nonneg_iff l : Cont_Model.nonneg l = true <-> nonnegative l.
Proof.
  unfold Cont_Model.nonneg, nonnegative. rewrite forallb_forall. split; intros H t I; specialize (H t I); [now apply qleb_le|now apply qleb_le].
Qed.
Lemma ev_pos : (0 < ev)%Qc. Proof. reflexivity. Qed.
Lemma slice_mid {T} (a b : list T) : slice (a ++ b) (Z.of_nat (length a)) (Z.of_nat (length (a ++ b))) = b.
Proof.
  rewrite app_length. replace (Z.of_nat (length a + length b)) with (Z.of_nat (length a) + Z.of_nat (length b)) by lia.
  rewrite slice_in; [|lia|lia|rewrite app_length; lia]. rewrite !Nat2Z.id, skipn_app, skipn_all, Nat.sub_diag. cbn. apply firstn_all.
Qed.
Lemma slice_front {T} (a b : list T) : slice (a ++ b) 0 (Z.of_nat (length a)) = a.
Proof.
  replace (Z.of_nat (length a)) with (0 + Z.of_nat (length a)) by lia. rewrite slice_in; [|lia|lia|rewrite app_length; lia]. rewrite Nat2Z.id. cbn. now rewrite firstn_app, firstn_all, Nat.sub_diag, app_nil_r.
Qed.
Lemma spectrum_reads ignore x k p s more : stands x p (sp_words s more) -> sp_fine s -> (ignore = true \/ nonnegative (sp_cont s)) ->
  length (concat more) = (k * length (sp_points s))%nat ->
  exists d, spectrum_at ignore x (3 + k) p = Some (d, length (sp_points s), map (fun t => Cont_Model.px t * ev)%Qc (sp_points s) ++ map Cont_Model.pp (sp_points s) ++ map Cont_Model.pc (sp_points s) ++ concat more) /\ spectrum_read s d.
Proof.
  intros H [I PL] IG LM. unfold sp_words in H. apply stands_cons in H as [H0 H]. unfold spectrum_at. rewrite (int_at_stands _ _ _ [] H0).
  set (L := len (sp_lines s)) in *. set (n := length (sp_points s)) in *.
  assert (M : (10 * L + sp_int s) mod 10 = sp_int s) by (rewrite Z.add_comm, Z.mul_comm, Z.mod_add by lia; apply Z.mod_small; lia). rewrite M.
  replace (10 * L + sp_int s - sp_int s) with (L * 10) by lia. rewrite Z.div_mul by lia.
  assert (A : array_at x (3 + k) (p + 1) = Some (n, map Cont_Model.px (sp_points s) ++ map Cont_Model.pp (sp_points s) ++ map Cont_Model.pc (sp_points s) ++ concat more)).
  { apply array_reads; [exact H|]. rewrite !app_length, !map_length, LM. fold n. lia. }
  rewrite A. cbv zeta. set (px' := map Cont_Model.px (sp_points s)) in *. assert (Lx : length px' = n) by (unfold px'; apply map_length).
  rewrite firstn_app, skipn_app. rewrite (firstn_all2 px') by lia. rewrite (skipn_all2 px') by lia. rewrite Lx, Nat.sub_diag. cbn [firstn skipn app]. rewrite app_nil_r.
  set (E := map (fun t => Cont_Model.px t * ev)%Qc (sp_points s)). assert (EM : mega px' = E) by (unfold mega, px', E; now rewrite map_map). rewrite EM.
  set (P := map Cont_Model.pp (sp_points s)) in *. set (C := map Cont_Model.pc (sp_points s)) in *.
  rewrite (row_0 n E) by apply map_length. rewrite (row_S n 0 E) by apply map_length. rewrite (row_0 n P) by apply map_length. rewrite (row_S n 1 E), (row_S n 0 P) by apply map_length. rewrite (row_0 n C) by apply map_length.
  assert (T : triples E P C = map (fun t => (Cont_Model.px t * ev, Cont_Model.pp t, Cont_Model.pc t)%Qc) (sp_points s)) by apply triples_map. rewrite T.
  set (g := fun t => (Cont_Model.px t * ev, Cont_Model.pp t, Cont_Model.pc t)%Qc). set (h := fun t : Cont_Model.point => (Cont_Model.px t, Cont_Model.pp t / EV_PER_MEV, Cont_Model.pc t)%Qc).
  assert (Sp : map g (sp_points s) = map g (sp_lines s) ++ map g (sp_cont s)) by apply map_app. rewrite Sp.
  assert (EL : L = Z.of_nat (length (map g (sp_lines s)))) by (unfold L, len; now rewrite map_length). assert (EN : Z.of_nat n = Z.of_nat (length (map g (sp_lines s) ++ map g (sp_cont s)))) by (rewrite <- Sp, map_length; reflexivity).
  rewrite EN, EL, slice_mid, slice_front. rewrite <- EN, <- EL.
  assert (F1 : Forall2 (Cont_Spec.in_ev ev) (sp_lines s) (map g (sp_lines s))) by (clear; induction (sp_lines s); cbn; constructor; [repeat split | assumption]).
  assert (F2 : Forall2 (Cont_Spec.per_ev ev) (sp_cont s) (map h (map g (sp_cont s)))).
  { clear. induction (sp_cont s) as [|t cs IH]; cbn; constructor; [|exact IH]. unfold Cont_Spec.per_ev, h, g, Cont_Model.px, Cont_Model.pp, Cont_Model.pc. cbn [fst snd]. split; [reflexivity|]. split; [|reflexivity]. change EV_PER_MEV with ev. field. discriminate. }
  assert (N1 : ignore || Cont_Model.nonneg (map h (map g (sp_cont s))) = true).
  { destruct IG as [->|N]; [reflexivity|]. rewrite (proj2 (nonneg_iff _)); [apply orb_true_r|]. intros t It. rewrite map_map in It. apply in_map_iff in It. destruct It as (u & <- & Iu). unfold h, g, Cont_Model.pp, Cont_Model.px. cbn [fst snd]. specialize (N u Iu). unfold Cont_Model.pp in N.
    replace 0%Qc with (0 * (/ EV_PER_MEV))%Qc by ring. apply Qcmult_le_compat_r; [exact N|]. apply qleb_le. reflexivity. }
  rewrite N1. assert (N2 : Cont_Model.nonneg (map g (sp_lines s)) = true). { apply nonneg_iff. intros t It. apply in_map_iff in It. destruct It as (u & <- & Iu). exact (PL u Iu). } rewrite N2. unfold spectrum_read. set (sc := if sp_int s =? 1 then _ else _).
  assert (Ln : n = (length (sp_lines s) + length (sp_cont s))%nat) by (unfold n, sp_points; apply app_length).
  destruct (Z.ltb_spec 0 L) as [Lp|Lp].
  - assert (NE : sp_lines s <> []) by (intros Q; unfold L, len in Lp; rewrite Q in Lp; cbn in Lp; lia).
    destruct (Z.eqb_spec L (Z.of_nat n)) as [Q|Q]; eexists; (split; [reflexivity|]); cbn [Cont_Spec.ace_dist].
    + split; [exact NE|]. split; [|exact F1]. unfold L, len in Q. destruct (sp_cont s); [reflexivity|cbn in *; lia].
    + split; [exact NE|]. split; [intros K; unfold L, len in Q; rewrite K in Ln; cbn in Ln; lia|]. split; [reflexivity|]. split; [exact F1|]. split; [exact F2|]. eexists. split; [reflexivity|]. cbn zeta. rewrite map_map. change (fun x => Cont_Model.pp (g x)) with Cont_Model.pp.
      destruct (qleb_spec (qsum (map Cont_Model.pp (sp_lines s))) 1) as [Y|Y]; [left; auto | right; split; [now apply Qcnot_le_lt | reflexivity]].
  - eexists. split; [reflexivity|]. cbn [Cont_Spec.ace_dist]. split; [|split; [reflexivity|exact F2]]. unfold L, len in Lp. destruct (sp_lines s); [reflexivity|cbn in Lp; lia].
Qed.
Lemma cosine_reads x l lc m : cosine_stands x l lc m -> (forall k pts, m = Some (k, pts) -> 1 <= k <= 5 /\ nonnegative pts) -> exists c, cosine_at x l lc = Some c /\ cosine_read m c.
Proof.
  intros H F. unfold cosine_at. destruct m as [(k, pts)|]; cbn [cosine_stands] in H.
  - destruct H as [Lp H]. destruct (F k pts eq_refl) as [K N]. destruct (Z.ltb_spec 0 lc); [|lia]. rewrite Z.abs_eq by lia. apply stands_cons in H as [Hk H]. rewrite (int_at_stands _ _ _ [] Hk).
    rewrite (array_reads x 3 _ (length pts) _ H) by (rewrite !app_length, !map_length; lia).
    rewrite row_0, (row_S _ 0), row_0, (row_S _ 1), (row_S _ 0), row_last by apply map_length. rewrite triples_map.
    assert (E : map (fun t : Cont_Model.point => (Cont_Model.px t, Cont_Model.pp t, Cont_Model.pc t)) pts = pts) by (clear; induction pts as [|((a, b), c) r IH]; cbn; [reflexivity|now rewrite IH]). rewrite E.
    assert (S : exists s, scheme_of_int k = Some s /\ k = scheme_number s). { unfold scheme_of_int. destruct (Z.ltb_spec k 0); [lia|]. assert (C : k = 1 \/ k = 2 \/ k = 3 \/ k = 4 \/ k = 5) by lia. destruct C as [->|[->|[->|[->| ->]]]]; eexists; split; try reflexivity; reflexivity. }
    destruct S as (s & -> & Es). rewrite (proj2 (nonneg_iff _) N). eexists. split; [reflexivity|]. now split.
  - destruct (Z.ltb_spec 0 lc); [lia|]. eexists. split; [reflexivity|exact I].
Qed.
Lemma after_reads x p t : stands x p (table_words t) -> table_fine t -> after_fn x p = Some (p + Z.of_nat (length (table_words t))).
Proof.
  intros H [L1 L2]. unfold table_words in *. set (nr := Z.of_nat (length (fbp t))) in *. set (np := Z.of_nat (length (fx t))) in *.
  assert (Ln : Z.of_nat (length (qz nr :: map qz (fbp t) ++ map qz (fint t) ++ qz np :: fx t ++ fy t)) = 2 + 2 * nr + 2 * np).
  { cbn [length]. rewrite !app_length. cbn [length]. rewrite app_length, !map_length. unfold nr, np. lia. }
  rewrite Ln. apply stands_cons in H as [H0 H]. apply stands_app in H as [H1 H]. rewrite map_length in H. apply stands_app in H as [H2 H]. rewrite map_length, L1 in H. apply stands_cons in H as [H3 _]. fold nr in H3.
  unfold after_fn. rewrite (int_at_stands _ _ nr []) by exact H0. rewrite (int_at_stands _ _ np []) by (replace (p + 1 + 2 * nr) with (p + 1 + nr + nr) by lia; exact H3). f_equal. lia.
Qed.
Lemma times_same k t : same_fn k t (times_y k (in_ev t)).
Proof. unfold same_fn, times_y, in_ev. cbn. auto. Qed.
Lemma over_same t : same_fn (/ ev) t (over_y ev (in_ev t)).
Proof. unfold same_fn, over_y, in_ev. cbn [fx fy fbp fint]. auto. Qed.
Lemma theta_reads x p t u : stands x p (table_words t ++ [u]) -> table_fine t -> theta_from_ace x p = Some (times_y ev (in_ev t), (u * ev)%Qc).
Proof.
  intros H F. apply stands_app in H as [H1 H2]. unfold theta_from_ace. rewrite (fn_reads _ _ _ H1 F), (after_reads _ _ _ H1 F), (at_stands _ _ _ _ H2). reflexivity.
Qed.
Lemma watt_reads x p a b u : stands x p (table_words a ++ table_words b ++ [u]) -> table_fine a -> table_fine b -> watt_from_ace x p = Some (Watt (times_y ev (in_ev a)) (over_y ev (in_ev b)) (u * ev)%Qc).
Proof.
  intros H F G. apply stands_app in H as [H1 H]. apply stands_app in H as [H2 H3]. unfold watt_from_ace. rewrite (fn_reads _ _ _ H1 F), (after_reads _ _ _ H1 F), (fn_reads _ _ _ H2 G), (after_reads _ _ _ H2 G), (at_stands _ _ _ _ H3). reflexivity.
Qed.
Lemma F2_split {A B} (P : A -> B -> Prop) l l' : Forall2 P l l' -> forall Q : B -> Prop, (forall b, In b l' -> Q b) -> Forall2 (fun a b => P a b /\ Q b) l l'.
Proof. induction 1 as [|a b l l' H F IH]; intros Q HQ; constructor; [split; [exact H|apply HQ; now left]|apply IH; intros; apply HQ; now right]. Qed.
Lemma F2_choose {A B C} (P : A -> B -> Prop) (R : A -> C -> Prop) (S : B -> C -> Prop) l l' : Forall2 P l l' -> (forall a b, In b l' -> P a b -> exists c, R a c /\ S b c) -> exists l'', Forall2 R l l'' /\ Forall2 S l' l''.
Proof.
  induction 1 as [|a b l l' H F IH]; intros K; [exists []; split; constructor|]. destruct (K a b (or_introl eq_refl) H) as (c & R1 & S1). destruct IH as (r & R2 & S2); [intros; apply K; [now right|assumption]|]. exists (c :: r). split; constructor; assumption.
Qed.
Lemma F2_map {A B C} (P : A -> C -> Prop) (f : B -> C) l l' : Forall2 (fun a b => P a (f b)) l l' -> Forall2 P l (map f l').
Proof. induction 1; constructor; assumption. Qed.
Lemma F2_impl {A B} (P Q : A -> B -> Prop) l l' : (forall a b, P a b -> Q a b) -> Forall2 P l l' -> Forall2 Q l l'.
Proof. intros I. induction 1; constructor; auto. Qed.
Lemma F2_mapl {A B C} (P : C -> B -> Prop) (f : A -> C) l l' : Forall2 (fun a b => P (f a) b) l l' -> Forall2 P (map f l) l'.
Proof. induction 1; constructor; assumption. Qed.
Lemma F2_len {A B} (P : A -> B -> Prop) l l' : Forall2 P l l' -> length l = length l'.
Proof. induction 1; cbn; congruence. Qed.

Lemma reads awr x l start q t : law_stands x l start t -> law_fine awr t -> (forall n m, t = TNBody n m -> q <> None) ->
  exists d, law_from_ace awr x l start q = Some d /\ law_read awr q t d.
Proof.
  intros (next & number & place & H & N & Dt) Fi Q. unfold law_from_ace. apply stands_cons in H as [_ H]. apply stands_cons in H as [H1 H2].
  rewrite (int_at_stands x (l + start - 1 + 1) number [] H1). replace (l + start - 1 + 2) with (l + start - 1 + 1 + 1) by lia. rewrite (int_at_stands x _ place [] H2).
  set (p := l + place - 1) in *. destruct t as [primary e|th ra|i out|f u|f u|a b u|i out|i out|n m]; cbn [numbered data_stands law_fine] in N, Dt, Fi.
  - subst number. cbn [Z.eqb orb Pos.eqb]. unfold photon_from_ace. apply stands_cons in Dt as [D1 D2]. rewrite (int_at_stands _ _ _ _ D1), (at_stands _ _ _ _ D2). eexists. split; [reflexivity|]. cbn. auto.
  - assert (E : (number =? 2) = false /\ ((number =? 3) || (number =? 33)) = true) by (destruct N as [->| ->]; split; reflexivity). destruct E as [-> ->]. unfold level_from_ace. apply stands_cons in Dt as [D1 D2]. rewrite (at_stands _ _ _ _ D1), (at_stands _ _ _ _ D2). eexists. split; [reflexivity|]. cbn. auto.
  - subst number. cbn [Z.eqb orb Pos.eqb]. destruct Dt as (locs & Ll & Hh & Hs). destruct Fi as [Fi Fo]. destruct (heading_reads x p i locs Hh Fi Ll) as (bp & it & Eh & Rg). unfold continuous_from_ace. rewrite Eh.
    destruct (F2_choose _ (fun k (r : Cont_Model.dist * nat * list Qc) => spectrum_at false x 3 (l + k - 1) = Some r) (fun s r => spectrum_read s (fst (fst r))) _ _ Hs) as (rs & F1 & F2).
    { intros k s Is St. destruct (Fo s Is) as [S1 S2]. destruct (spectrum_reads false x 0 _ s [] St S1 (or_intror S2) eq_refl) as (d & E & R). eexists. split; [exact E|exact R]. }
    rewrite (some_all _ _ _ F1). eexists. split; [reflexivity|]. cbn. split; [exact Rg|]. split; [reflexivity|]. apply F2_map. exact F2.
  - subst number. cbn [Z.eqb orb Pos.eqb]. rewrite (theta_reads _ _ _ _ Dt Fi). eexists. split; [reflexivity|]. cbn [law_read fst snd]. split; [apply times_same|reflexivity].
  - subst number. cbn [Z.eqb orb Pos.eqb]. rewrite (theta_reads _ _ _ _ Dt Fi). eexists. split; [reflexivity|]. cbn [law_read fst snd]. split; [apply times_same|reflexivity].
  - subst number. cbn [Z.eqb orb Pos.eqb]. destruct Fi as [Fa Fb]. rewrite (watt_reads _ _ _ _ _ Dt Fa Fb). eexists. split; [reflexivity|]. cbn [law_read fst snd]. split; [apply times_same|]. split; [apply over_same|reflexivity].
  - subst number. cbn [Z.eqb orb Pos.eqb]. destruct Dt as (locs & Ll & Hh & Hs). destruct Fi as [Fi Fo]. destruct (heading_reads x p i locs Hh Fi Ll) as (bp & it & Eh & Rg). unfold kalbach_from_ace. rewrite Eh.
    destruct (F2_choose _ (fun k (r : Cont_Model.dist * nat * list Qc) => spectrum_at true x 5 (l + k - 1) = Some r)
      (fun s r => spectrum_read (fst s) (fst (fst r)) /\ along (fst s) (fst (snd s)) (linear (row (snd (fst r)) 0 (snd r)) (row (snd (fst r)) 3 (snd r))) /\ along (fst s) (snd (snd s)) (linear (row (snd (fst r)) 0 (snd r)) (row (snd (fst r)) 4 (snd r)))) _ _ Hs) as (rs & F1 & F2).
    { intros k s Is St. destruct (Fo s Is) as (S1 & L1 & L2). destruct (spectrum_reads true x 2 _ (fst s) [fst (snd s); snd (snd s)] St S1 (or_introl eq_refl)) as (d & E & R); [cbn [concat]; rewrite !app_length; cbn [length]; lia|]. eexists. split; [exact E|]. cbn [fst snd]. split; [exact R|].
      set (n := length (sp_points (fst s))) in *. cbn [concat]. rewrite app_nil_r. rewrite (row_0 n) by apply map_length.
      rewrite !(row_S n _ (map _ _)) by apply map_length. rewrite (row_0 n (fst (snd s))) by exact L1. rewrite (row_S n 0 (fst (snd s))) by exact L1. rewrite (row_last n (snd (snd s))) by exact L2.
      unfold along, linear, len. cbn. rewrite map_length. repeat split; reflexivity. }
    rewrite (some_all _ _ _ F1). eexists. split; [reflexivity|]. cbn [law_read]. split; [exact Rg|]. split; [reflexivity|]. split; [|split].
    + apply F2_map, F2_mapl. revert F2. apply F2_impl. tauto.
    + apply F2_map. revert F2. apply F2_impl. tauto.
    + apply F2_map. revert F2. apply F2_impl. tauto.
  - subst number. cbn [Z.eqb orb Pos.eqb]. destruct Dt as (locs & Ll & Hh & Hs). destruct Fi as [Fi Fo]. destruct (heading_reads x p i locs Hh Fi Ll) as (bp & it & Eh & Rg). unfold correlated_from_ace. rewrite Eh.
    match goal with |- context [all_some (map ?f locs)] => set (G := f) end.
    destruct (F2_choose _ (fun k (r : Cont_Model.dist * list cosine) => G k = Some r)
      (fun s r => spectrum_read (fst s) (fst r) /\ Forall2 cosine_read (snd s) (snd r)) _ _ Hs) as (rs & F1 & F2).
    { intros k s Is (lcs & St & Sc). destruct (Fo s Is) as (S1 & L1 & Fc). assert (L2 : length lcs = length (sp_points (fst s))) by (rewrite (F2_len _ _ _ Sc); exact L1).
      destruct (spectrum_reads true x 1 _ (fst s) [map qz lcs] St S1 (or_introl eq_refl)) as (d & E & R); [cbn [concat]; rewrite app_nil_r, map_length; lia|].
      destruct (F2_choose _ (fun lc c => cosine_at x l lc = Some c) cosine_read _ _ Sc) as (cs & C1 & C2). { intros lc m Im Sm. apply (cosine_reads x l lc m Sm). intros k' pts ->. exact (Fc k' pts Im). }
      exists (d, cs). split; [|split; assumption]. unfold G. change (3 + 1)%nat with 4%nat in E. rewrite E. cbn [fst snd concat]. rewrite app_nil_r. set (n := length (sp_points (fst s))) in *.
      rewrite !(row_S n _ (map _ (sp_points (fst s)))) by apply map_length. rewrite (row_last n) by (rewrite map_length; exact L2). rewrite map_int_qz, (some_all _ _ _ C1). reflexivity. }
    rewrite (some_all _ _ _ F1). eexists. split; [reflexivity|]. cbn [law_read]. split; [exact Rg|]. split; [reflexivity|]. split.
    + apply F2_map, F2_mapl. revert F2. apply F2_impl. tauto.
    + apply F2_map. revert F2. apply F2_impl. tauto.
  - subst number. cbn [Z.eqb orb Pos.eqb]. destruct q as [q|]; [|now destruct (Q n m eq_refl)]. unfold nbody_from_ace. apply stands_cons in Dt as [D1 D2]. rewrite (int_at_stands _ _ _ _ D1), (at_stands _ _ _ _ D2). destruct Fi as (G1 & G2 & G3).
    rewrite (proj2 (qltb_lt _ _) G2), (proj2 (Z.ltb_lt _ _) G1), (proj2 (qltb_lt _ _) G3). eexists. split; [reflexivity|]. cbn. auto.
Qed.

(** ** Refusals *)
Lemma not_all {A B} (f : A -> option B) l a : In a l -> f a = None -> all_some (map f l) = None.
Proof. induction l as [|b l IH]; intros I0 E; [destruct I0|]; destruct I0 as [->|I]; cbn [map all_some]; [now rewrite E|]. destruct (f b); [|reflexivity]. now rewrite (IH I E). Qed.
Lemma spectrum_refused x p s : stands x p (sp_words s []) -> 0 <= sp_int s < 10 -> ~ nonnegative (sp_cont s) -> spectrum_at false x 3 p = None.
Proof.
  intros H I NN. destruct (spectrum_at false x 3 p) as [r|] eqn:E; [exfalso|reflexivity]. apply NN. clear NN.
  unfold sp_words in H. apply stands_cons in H as [H0 H]. unfold spectrum_at in E. rewrite (int_at_stands _ _ _ [] H0) in E.
  set (L := len (sp_lines s)) in *. set (n := length (sp_points s)) in *.
  assert (M : (10 * L + sp_int s) mod 10 = sp_int s) by (rewrite Z.add_comm, Z.mul_comm, Z.mod_add by lia; apply Z.mod_small; lia). rewrite M in E.
  replace (10 * L + sp_int s - sp_int s) with (L * 10) in E by lia. rewrite Z.div_mul in E by lia.
  assert (A : array_at x 3 (p + 1) = Some (n, map Cont_Model.px (sp_points s) ++ map Cont_Model.pp (sp_points s) ++ map Cont_Model.pc (sp_points s) ++ concat [])).
  { apply array_reads; [exact H|]. rewrite !app_length, !map_length. cbn [concat length]. fold n. lia. }
  rewrite A in E. cbv zeta in E. set (px' := map Cont_Model.px (sp_points s)) in *. assert (Lx : length px' = n) by (unfold px'; apply map_length).
  rewrite firstn_app, skipn_app, (firstn_all2 px'), (skipn_all2 px'), Lx, Nat.sub_diag in E by lia. cbn [firstn skipn app concat] in E. rewrite !app_nil_r in E.
  set (X := map (fun t => Cont_Model.px t * ev)%Qc (sp_points s)) in *. assert (EM : mega px' = X) by (unfold mega, px', X; now rewrite map_map). rewrite EM in E.
  set (P := map Cont_Model.pp (sp_points s)) in *. set (C := map Cont_Model.pc (sp_points s)) in *.
  rewrite (row_0 n X), (row_S n 0 X), (row_0 n P), (row_S n 1 X), (row_S n 0 P), (row_last n C) in E by apply map_length. unfold X, P, C in E. rewrite triples_map in E.
  set (g := fun t => (Cont_Model.px t * ev, Cont_Model.pp t, Cont_Model.pc t)%Qc) in *.
  assert (Sp : map g (sp_points s) = map g (sp_lines s) ++ map g (sp_cont s)) by apply map_app. rewrite Sp in E.
  assert (EL : L = Z.of_nat (length (map g (sp_lines s)))) by (unfold L, len; now rewrite map_length). assert (EN : Z.of_nat n = Z.of_nat (length (map g (sp_lines s) ++ map g (sp_cont s)))) by (rewrite <- Sp, map_length; reflexivity).
  rewrite EN, EL, slice_mid in E. match type of E with context [false || Cont_Model.nonneg ?c] => set (K := c) in E; destruct (Cont_Model.nonneg K) eqn:NK; [|discriminate E] end. clear E.
  apply nonneg_iff in NK. intros t It. specialize (NK _ (in_map (fun t => (Cont_Model.px t, Cont_Model.pp t / EV_PER_MEV, Cont_Model.pc t)%Qc) _ _ (in_map g _ _ It))). unfold g in NK. unfold Cont_Model.pp at 1 in NK. cbn [fst snd] in NK. unfold Cont_Model.pp in NK. cbn [fst snd] in NK.
  apply Qcnot_lt_le. intros Lt. apply (Qcle_not_lt _ _ NK). unfold Cont_Model.pp in Lt. replace 0%Qc with (0 * (/ EV_PER_MEV))%Qc by ring. apply Qcmult_lt_compat_r; [reflexivity|exact Lt].
Qed.
Lemma negative_refused awr x l start q i out s : law_stands x l start (TContinuous i out) -> in_fine i -> In s out -> 0 <= sp_int s < 10 -> ~ nonnegative (sp_cont s) -> law_from_ace awr x l start q = None.
Proof.
  intros (next & number & place & H & N & Dt) Fi Is Ii NN. unfold law_from_ace. apply stands_cons in H as [_ H]. apply stands_cons in H as [H1 H2].
  rewrite (int_at_stands x (l + start - 1 + 1) number [] H1). replace (l + start - 1 + 2) with (l + start - 1 + 1 + 1) by lia. rewrite (int_at_stands x _ place [] H2).
  cbn [numbered] in N. subst number. cbn [Z.eqb orb Pos.eqb]. destruct Dt as (locs & Ll & Hh & Hs). destruct (heading_reads x _ i locs Hh Fi Ll) as (bp & it & Eh & _). unfold continuous_from_ace. rewrite Eh.
  assert (K : exists k, In k locs /\ stands x (l + k - 1) (sp_words s [])).
  { clear - Hs Is. induction Hs as [|k s' ks ss Hk Hs IH]; [destruct Is|]. destruct Is as [->|Is]; [exists k; split; [now left|exact Hk]|]. destruct (IH Is) as (k' & I & W). exists k'. split; [now right|exact W]. }
  destruct K as (k & Ik & St). rewrite (not_all _ locs k Ik); [reflexivity|]. now apply (spectrum_refused x _ s).
Qed.
Lemma unsupported awr x l start q next number place : stands x (l + start - 1) [next; qz number; qz place] ->
  ~ In number [2; 3; 33; 4; 7; 9; 11; 44; 61; 66] -> law_from_ace awr x l start q = None.
Proof.
  intros H N. unfold law_from_ace. apply stands_cons in H as [_ H]. apply stands_cons in H as [H1 H2].
  rewrite (int_at_stands x (l + start - 1 + 1) number [] H1). replace (l + start - 1 + 2) with (l + start - 1 + 1 + 1) by lia. rewrite (int_at_stands x _ place [] H2).
  repeat match goal with |- context [number =? ?k] => destruct (Z.eqb_spec number k); [first [reflexivity|exfalso; apply N; subst; cbn; tauto]|] end. reflexivity.
Qed.
Lemma nbody_alone awr x l start n m : law_stands x l start (TNBody n m) -> law_from_ace awr x l start None = None.
Proof.
  intros (next & number & place & H & N & Dt). unfold law_from_ace. apply stands_cons in H as [_ H]. apply stands_cons in H as [H1 H2].
  rewrite (int_at_stands x (l + start - 1 + 1) number [] H1). replace (l + start - 1 + 2) with (l + start - 1 + 1 + 1) by lia. rewrite (int_at_stands x _ place [] H2). cbn [numbered] in N. subst number. reflexivity.
Qed.
(** ** Units *)
Lemma area_same i cs l : Forall2 (Cont_Spec.per_ev ev) cs l -> area i l = area i cs.
Proof.
  induction 1 as [|t u cs l (H1 & H2 & _) F IH]; [reflexivity|]. destruct F as [|t' u' cs l (H1' & H2' & _) F]; [reflexivity|]. cbn [area]. cbn [area] in IH. rewrite IH, H1, H1', <- H2, <- H2'. f_equal. destruct i; field; discriminate.
Qed.
Lemma spectra awr q t d : law_read awr q t d -> Forall2 spectrum_read (spectra_told t) (spectra_of d).
Proof.
  destruct t, d as [[[]|]| | |]; cbn [law_read spectra_told spectra_of]; intros H; try constructor; try (now destruct H); try (now destruct H as (_ & _ & H)); now destruct H as (_ & _ & H & _).
Qed.
Lemma continuous_area s d i l : spectrum_read s d -> continuous_in d i l -> area i l = area i (sp_cont s) /\ i = (if sp_int s =? 1 then Cont_Model.Histogram else Cont_Model.LinLin) /\ length l = length (sp_cont s).
Proof.
  intros R C. destruct C as [->|(w & a & ->)]; cbn [spectrum_read Cont_Spec.ace_dist] in R; [destruct R as (_ & -> & F) | destruct R as (_ & _ & -> & _ & F & _)];
    (split; [now apply area_same|]; split; [reflexivity|]; symmetry; exact (F2_len _ _ _ F)).
Qed.
(** ** Words at a place *)
Lemma there (x l : list Qc) k : firstn (length l) (skipn k x) = l -> (k <= length x)%nat -> stands x (Z.of_nat k) l.
Proof.
  intros E L. exists (firstn k x), (skipn (length l) (skipn k x)). split; [|f_equal; now apply firstn_length_le]. rewrite <- E at 1. rewrite firstn_skipn. now rewrite firstn_skipn.
Qed.
Lemma inside (x w l : list Qc) p k : stands x p w -> firstn (length l) (skipn k w) = l -> (k <= length w)%nat -> stands x (p + Z.of_nat k) l.
Proof.
  intros (u & v & -> & Lu) E L. destruct (there w l k E L) as (u' & v' & -> & Lk). exists (u ++ u'), (v' ++ v). split; [now rewrite <- !app_assoc|]. rewrite app_length. lia.
Qed.
Lemma partly_kept a c x p l : partly a c x -> kept a c p l -> stands x p l.
Proof.
  intros [Ln P] [H N]. apply stands_iff in H as (P0 & L & H). apply stands_iff. rewrite Ln. split; [exact P0|]. split; [exact L|].
  intros j Hj. pose proof (H j Hj) as E. destruct (err_ex l j Hj) as (v & Ev). rewrite Ev in *. destruct (P _ _ E) as (v' & E' & _ & K). rewrite E'. f_equal. apply K. apply N. lia.
Qed.
