(** The deck as text and the deck as a sequence of modules (C32) are the same deck. *)
From Coq Require Import List Bool Arith Lia ZArith Ascii String.
From Verif Require Import Text Dec Deck_Model Deck_Spec Deck_Proofs Deck_RunProofs.
From Verif Require Njoy_Model.
Import ListNotations.
Local Open Scope nat_scope.
Local Open Scope list_scope.

(** From [s] the module calls [cs] are added, writing the tapes [ks], up to unit [n]. *)
Definition grows (a : args) (s s' : Njoy_Model.state) (cs : list call) (ks : list nat) (n : nat) : Prop :=
  Njoy_Model.deck s' = Njoy_Model.deck s ++ flat_map (asks a) cs /\ map fst (Njoy_Model.tapeout s') = map fst (Njoy_Model.tapeout s) ++ ks /\ Njoy_Model.nlast s' = n.
Definition under (n : nat) (s : Njoy_Model.state) : Prop := Forall (fun k => k <= n) (map fst (Njoy_Model.tapeout s)).
Lemma under_fresh n k s : under n s -> n < k -> ~ In k (map fst (Njoy_Model.tapeout s)).
Proof. unfold under. rewrite Forall_forall. intros H L I. apply H in I. lia. Qed.
Lemma grows_under a s s' cs ks n m : grows a s s' cs ks n -> under m s -> m <= n -> Forall (fun k => k <= n) ks -> under n s'.
Proof. intros (_ & E & _) U L F. unfold under in *. rewrite E. apply Forall_app. split; [|easy]. revert U. apply Forall_impl. intros; lia. Qed.
Lemma grows_trans a s1 s2 s3 x y k l n m : grows a s1 s2 x k n -> grows a s2 s3 y l m -> grows a s1 s3 (x ++ y) (k ++ l) m.
Proof. intros (A & B & _) (C & D & E). split; [|split; [|easy]]. now rewrite C, A, flat_map_app, app_assoc. now rewrite D, B, app_assoc. Qed.

Lemma set_keys {A} k (v : A) d : ~ In k (map fst d) -> map fst (Njoy_Model.set_item k v d) = map fst d ++ [k].
Proof. intros H. rewrite set_fresh by easy. now rewrite map_app. Qed.

(** One temperature, and the part for nu or chi, written out. *)
Lemma one_eq o nb d t n : Njoy_Model.one_temperature o nb {| Njoy_Model.deck := d; Njoy_Model.tapeout := t; Njoy_Model.nlast := n |} =
  let t1 := Njoy_Model.set_item (S (S (S n))) Njoy_Model.Boxer t in
  let d1 := ((d ++ [Njoy_Model.groupr_call o (Njoy_Model.iwt1 o) nb (S n)]) ++ [Njoy_Model.errorr33 o (S n) (S (S n))]) ++ [Njoy_Model.covr_lib (S (S n)) (S (S (S n)))] in
  if Njoy_Model.plot o
  then {| Njoy_Model.deck := (d1 ++ [Njoy_Model.covr_plot (S (S n)) (S (S (S (S n))))]) ++ [Njoy_Model.viewr (S (S (S (S n)))) (S (S (S (S (S n)))))];
          Njoy_Model.tapeout := Njoy_Model.set_item (S (S (S (S (S n))))) Njoy_Model.Eps t1; Njoy_Model.nlast := S (S (S (S (S n)))) |}
  else {| Njoy_Model.deck := d1; Njoy_Model.tapeout := t1; Njoy_Model.nlast := S (S (S n)) |}.
Proof. unfold Njoy_Model.one_temperature. destruct (Njoy_Model.plot o); reflexivity. Qed.
Lemma part_eq o nb f d t n : Njoy_Model.fission_part o nb f {| Njoy_Model.deck := d; Njoy_Model.tapeout := t; Njoy_Model.nlast := n |} =
  {| Njoy_Model.deck := (((d ++ [Njoy_Model.errorr31 o nb f (S n)]) ++ [Njoy_Model.covr_plot (S n) (S (S n))]) ++ [Njoy_Model.viewr (S (S n)) (S (S (S n)))]) ++ [Njoy_Model.covr_lib (S n) (S (S (S (S n))))];
     Njoy_Model.tapeout := Njoy_Model.set_item (S (S (S n))) Njoy_Model.Eps (Njoy_Model.set_item (S (S (S (S n)))) Njoy_Model.Boxer t); Njoy_Model.nlast := S (S (S (S n))) |}.
Proof. reflexivity. Qed.
Lemma n_temp' a t nb b s : under b s -> Njoy_Model.nlast s = b ->
  grows a s (Njoy_Model.one_temperature (options_of a) nb s)
    ([Xsec nb (b + 1); Cov33 (b + 1) (b + 2) t; CovLib (b + 2) (b + 3)] ++ (if plotted a then [CovPlot (b + 2) (b + 4) (covr_plot_mts a); View (b + 4) (b + 5)] else []))
    (b + 3 :: if plotted a then [b + 5] else []) (b + width a).
Proof.
  intros U E. unfold grows, under, width in *.
  destruct s as [d o n]. cbn [Njoy_Model.nlast Njoy_Model.tapeout] in E, U. subst n. rewrite one_eq. cbv zeta. change (Njoy_Model.plot (options_of a)) with (plotted a).
  assert (forall k, b < k -> ~ In k (map fst o)) as F. { intros k L I. rewrite Forall_forall in U. apply U in I. lia. }
  replace (b + 1) with (S b) by lia. replace (b + 2) with (S (S b)) by lia. replace (b + 3) with (S (S (S b))) by lia.
  replace (b + 4) with (S (S (S (S b)))) by lia. replace (b + 5) with (S (S (S (S (S b))))) by lia.
  destruct (plotted a); cbn [Njoy_Model.deck Njoy_Model.tapeout Njoy_Model.nlast].
  - split; [|split].
    + rewrite <- !app_assoc. reflexivity.
    + assert (map fst (Njoy_Model.set_item (S (S (S b))) Njoy_Model.Boxer o) = map fst o ++ [S (S (S b))]) as K by (apply set_keys, F; lia).
      rewrite set_keys; rewrite K; [now rewrite <- app_assoc|]. rewrite in_app_iff. intros [I|[I|[]]]; [|lia]. apply F in I; [easy|lia].
    + lia.
  - split; [|split].
    + rewrite <- !app_assoc. reflexivity.
    + apply set_keys, F. lia.
    + lia.
Qed.
Lemma n_temp a t i s : under (Njoy_Model.nlast s) s -> Njoy_Model.nlast s = 22 + width a * i ->
  grows a s (Njoy_Model.one_temperature (options_of a) 22 s) (at_temperature a i t) (map fst (temp_files a i t)) (22 + width a * S i).
Proof.
  intros U E. rewrite E in U. replace (22 + width a * S i) with (22 + width a * i + width a) by lia.
  pose proof (n_temp' a (shown t) 22 (22 + width a * i) s U E) as G. unfold at_temperature, temp_files.
  destruct (plotted a); exact G.
Qed.
Lemma mapi_cons {A B} (f : nat -> A -> B) i x l : mapi f i (x :: l) = f i x :: mapi f (S i) l. Proof. reflexivity. Qed.
Lemma temp_files_under a i t : Forall (fun k => k <= 22 + width a * S i) (map fst (temp_files a i t)).
Proof. unfold temp_files, width. destruct (plotted a); cbn [map fst]; repeat (apply Forall_cons; [lia|]); apply Forall_nil. Qed.
Lemma n_temps a l : forall i s, under (Njoy_Model.nlast s) s -> Njoy_Model.nlast s = 22 + width a * i ->
  grows a s (Njoy_Model.temperatures (List.length l) (options_of a) 22 s) (concat (mapi (at_temperature a) i l)) (map fst (concat (mapi (temp_files a) i l))) (22 + width a * (i + List.length l))
  /\ under (22 + width a * (i + List.length l)) (Njoy_Model.temperatures (List.length l) (options_of a) 22 s).
Proof.
  induction l as [|t l IH]; intros i s U E.
  - cbn [List.length Njoy_Model.temperatures mapi concat map]. rewrite Nat.add_0_r. rewrite <- E. split; [|easy]. unfold grows. cbn [flat_map]. now rewrite !app_nil_r.
  - cbn [List.length Njoy_Model.temperatures]. rewrite !mapi_cons. cbn [concat]. rewrite map_app.
    pose proof (n_temp a t i s U E) as G. set (s1 := Njoy_Model.one_temperature _ _ s) in *.
    assert (Njoy_Model.nlast s1 = 22 + width a * S i) as E1 by apply G.
    assert (under (Njoy_Model.nlast s1) s1) as U1. { rewrite E1. eapply grows_under; [apply G|apply U|rewrite E; lia|apply temp_files_under]. }
    destruct (IH (S i) s1 U1 E1) as [G2 U2]. replace (i + S (List.length l)) with (S i + List.length l) by lia. split; [|easy]. eapply grows_trans; eassumption.
Qed.
Lemma n_part' a mf mts nb f b s : under b s -> Njoy_Model.nlast s = b ->
  grows a s (Njoy_Model.fission_part (options_of a) nb f s)
    [Cov3x mf nb f (b + 1) (last_temp a); CovPlot (b + 1) (b + 2) mts; View (b + 2) (b + 3); CovLib (b + 1) (b + 4)] [b + 4; b + 3] (b + 4).
Proof.
  intros U E. unfold grows, under in *. destruct s as [d o n]. cbn [Njoy_Model.nlast Njoy_Model.tapeout] in E, U. subst n. rewrite part_eq.
  assert (forall k, b < k -> ~ In k (map fst o)) as F. { intros k L I. rewrite Forall_forall in U. apply U in I. lia. }
  replace (b + 1) with (S b) by lia. replace (b + 2) with (S (S b)) by lia. replace (b + 3) with (S (S (S b))) by lia. replace (b + 4) with (S (S (S (S b)))) by lia.
  cbn [Njoy_Model.deck Njoy_Model.tapeout Njoy_Model.nlast].
  split; [|split].
  - rewrite <- !app_assoc. reflexivity.
  - assert (map fst (Njoy_Model.set_item (S (S (S (S b)))) Njoy_Model.Boxer o) = map fst o ++ [S (S (S (S b)))]) as K by (apply set_keys, F; lia).
    rewrite set_keys; rewrite K; [now rewrite <- app_assoc|]. rewrite in_app_iff. intros [I|[I|[]]]; [|lia]. apply F in I; [easy|lia].
  - lia.
Qed.
Lemma n_part a mf mts f b s : under b s -> Njoy_Model.nlast s = b ->
  grows a s (Njoy_Model.fission_part (options_of a) 22 f s) (fission_calls a mf mts f b) [b + 4; b + 3] (b + 4)
  /\ under (b + 4) (Njoy_Model.fission_part (options_of a) 22 f s).
Proof.
  intros U E. pose proof (n_part' a mf mts 22 f b s U E) as G. split; [exact G|].
  eapply grows_under; [apply G|apply U|lia|]. apply Forall_cons; [lia|]. apply Forall_cons; [lia|]. apply Forall_nil.
Qed.
Lemma n_cov a s : temps_of a <> [] -> cov_energy_groups a <> None -> (own_weights a = true -> user_flux_weight_vals a <> None) ->
  under 22 s -> Njoy_Model.nlast s = 22 ->
  exists s', Njoy_Model.covariances (options_of a) (Some 22) s = Njoy_Model.Ok s' /\ grows a s s' (covariance_calls a) (map fst (cov_files a)) (after_chi a) /\ under (after_chi a) s'.
Proof.
  intros T Gs W U E. unfold Njoy_Model.covariances. cbn [Njoy_Model.groups Njoy_Model.iwt1 Njoy_Model.weights Njoy_Model.temps Njoy_Model.nu Njoy_Model.chi options_of].
  destruct (cov_energy_groups a); [|easy]. cbn [negb].
  assert (own_weights a && negb (match user_flux_weight_vals a with Some _ => true | None => false end) = false) as ->.
  { destruct (own_weights a); [|easy]. destruct (user_flux_weight_vals a); [easy|]. now destruct W. }
  destruct (List.length (temps_of a)) as [|m] eqn:L. { now destruct (temps_of a). } rewrite <- L. clear L m.
  destruct (n_temps a (temps_of a) 0 s) as [G1 U1]. { now rewrite E. } { now rewrite Nat.mul_0_r. }
  rewrite Nat.add_0_l in G1, U1.
  change (22 + width a * List.length (temps_of a)) with (after_temps a) in *.
  set (s1 := Njoy_Model.temperatures _ _ _ s) in *.
  unfold covariance_calls, cov_files, after_chi, after_nu, after_groups, fissile. rewrite !map_app.
  destruct G1 as (D1 & K1 & E1).
  destruct (nu a) eqn:Hn; destruct (chi a) eqn:Hc; cbn [orb].
  1-3: assert (under (after_temps a + 1) (Njoy_Model.groupr_fission (options_of a) 22 s1)) as U2 by (unfold under in *; cbn [Njoy_Model.groupr_fission Njoy_Model.up Njoy_Model.add Njoy_Model.tapeout]; revert U1; apply Forall_impl; intros; lia);
    assert (Njoy_Model.nlast (Njoy_Model.groupr_fission (options_of a) 22 s1) = after_temps a + 1) as E2 by (cbn [Njoy_Model.groupr_fission Njoy_Model.up Njoy_Model.add Njoy_Model.nlast]; rewrite E1; lia);
    assert (Njoy_Model.deck (Njoy_Model.groupr_fission (options_of a) 22 s1) = Njoy_Model.deck s1 ++ asks a (Fission 22 (after_temps a + 1))) as D2 by (unfold Njoy_Model.groupr_fission, Njoy_Model.groupr_call, Njoy_Model.weighted; cbn [Njoy_Model.deck Njoy_Model.add Njoy_Model.up Njoy_Model.nlast asks Njoy_Model.iwt1 options_of]; rewrite E1, Nat.add_1_r; reflexivity);
    set (s2 := Njoy_Model.groupr_fission _ _ _) in *; assert (map fst (Njoy_Model.tapeout s2) = map fst (Njoy_Model.tapeout s1)) as K2 by reflexivity; clearbody s2; rewrite E1;
    replace (S (after_temps a)) with (after_temps a + 1) by lia.
  - destruct (n_part a 31 [452]%Z (after_temps a + 1) _ s2 U2 E2) as [(D3 & K3 & E3) U3]. set (s3 := Njoy_Model.fission_part _ _ _ s2) in *.
    destruct (n_part a 35 [] (after_temps a + 1) _ s3 U3 E3) as [(D4 & K4 & E4) U4].
    eexists. split; [reflexivity|]. split; [|apply U4]. split; [|split; [|apply E4]].
    + rewrite D4, D3, D2, D1. rewrite !flat_map_app. cbn [flat_map asks]. rewrite !app_nil_r, <- !app_assoc. reflexivity.
    + rewrite K4, K3, K2, K1. cbn [map fst]. now rewrite <- !app_assoc.
  - destruct (n_part a 31 [452]%Z (after_temps a + 1) _ s2 U2 E2) as [(D3 & K3 & E3) U3].
    eexists. rewrite Nat.add_0_r. split; [reflexivity|]. split; [|apply U3]. split; [|split; [|apply E3]].
    + rewrite D3, D2, D1. rewrite !flat_map_app. cbn [flat_map asks]. rewrite !app_nil_r, <- !app_assoc. reflexivity.
    + rewrite K3, K2, K1. cbn [map fst]. now rewrite <- !app_assoc, ?app_nil_r.
  - rewrite !Nat.add_0_r. destruct (n_part a 35 [] (after_temps a + 1) _ s2 U2 E2) as [(D3 & K3 & E3) U3].
    eexists. split; [reflexivity|]. split; [|apply U3]. split; [|split; [|apply E3]].
    + rewrite D3, D2, D1. rewrite !flat_map_app. cbn [flat_map asks app]. rewrite <- !app_assoc. reflexivity.
    + rewrite K3, K2, K1. cbn [map fst]. now rewrite <- !app_assoc, ?app_nil_r.
  - rewrite !Nat.add_0_r. eexists. split; [reflexivity|]. split; [|apply U1]. split; [|split; [|apply E1]].
    + rewrite D1. now rewrite !app_nil_r.
    + rewrite K1. cbn [map]. now rewrite !app_nil_r.
Qed.
Lemma n_acers a n l : forall i s, under (n + 2 * i) s ->
  Njoy_Model.deck (Njoy_Model.acers (List.length l) i n s) = Njoy_Model.deck s ++ flat_map (asks a) (acer_calls n i l) /\
  map fst (Njoy_Model.tapeout (Njoy_Model.acers (List.length l) i n s)) = map fst (Njoy_Model.tapeout s) ++ map fst (acer_files a n i l).
Proof.
  induction l as [|t l IH]; intros i s U.
  - cbn. now rewrite !app_nil_r.
  - cbn [List.length Njoy_Model.acers]. unfold acer_calls, acer_files in *. rewrite !mapi_cons.
    cbv zeta. replace (n + 1 + 2 * i) with (n + 2 * i + 1) by lia. replace (S (n + 2 * i + 1)) with (n + 2 * i + 2) by lia.
    match goal with |- context [Njoy_Model.acers (List.length l) (S i) n ?x] => set (s1 := x) end.
    assert (map fst (Njoy_Model.tapeout s1) = map fst (Njoy_Model.tapeout s) ++ [n + 2 * i + 1; n + 2 * i + 2]) as K.
    { unfold s1, Njoy_Model.out, Njoy_Model.add. cbn [Njoy_Model.tapeout]. rewrite !set_keys; rewrite ?set_keys, ?in_app_iff; cbn [In]; repeat (intros [?|?]); try lia; try tauto;
        try (eapply (under_fresh _ _ _ U); [|eassumption]; lia); try (apply (under_fresh _ _ _ U); lia).
      rewrite <- app_assoc. reflexivity. }
    destruct (IH (S i) s1) as [D2 K2].
    { unfold under. rewrite K. apply Forall_app. split; [revert U; apply Forall_impl; intros; lia|]. apply Forall_cons; [lia|]. apply Forall_cons; [lia|]. apply Forall_nil. }
    rewrite D2, K2, K. cbn [flat_map asks concat map fst app]. rewrite <- !app_assoc. cbn [app]. split; [|easy].
    unfold s1, Njoy_Model.out, Njoy_Model.add, Njoy_Model.acer_call, Njoy_Model.mk. cbn [Njoy_Model.deck]. rewrite <- app_assoc. reflexivity.
Qed.

Lemma njoy_deck a : temps_of a <> [] -> (heatr a = true -> broadr a = true) ->
  (errorr a = true -> broadr a = true /\ cov_energy_groups a <> None /\ (own_weights a = true -> user_flux_weight_vals a <> None)) ->
  exists tapes, Njoy_Model.make_njoy_run (options_of a) = (if Deck_Model.run a then Njoy_Model.Raised Njoy_Model.NotCallable else Njoy_Model.Ok (flat_map (asks a) (calls a), tapes)) /\ map fst tapes = map fst (files a).
Proof.
  intros T H1 H2. unfold Njoy_Model.make_njoy_run. cbn [Njoy_Model.pendf Njoy_Model.broadr Njoy_Model.errorr Njoy_Model.heatr Njoy_Model.purr Njoy_Model.acer Njoy_Model.run Njoy_Model.temps options_of].
  set (s0 := {| Njoy_Model.deck := [Njoy_Model.reconr]; Njoy_Model.tapeout := _; Njoy_Model.nlast := _ |}).
  set (s1 := match (if broadr a then _ else _) with Some n => _ | None => s0 end).
  assert (Njoy_Model.deck s1 = flat_map (asks a) ([Reconr 21] ++ if broadr a then [Broadr 21 22] else [])) as D1.
  { unfold s1. destruct (broadr a); reflexivity. }
  assert (map fst (Njoy_Model.tapeout s1) = map fst (match pendf a with Some f => [(21, f)] | None => [] end)) as K1.
  { unfold s1, s0. destruct (broadr a), (pendf a); reflexivity. }
  assert (Njoy_Model.nlast s1 = if broadr a then 22 else 21) as E1. { unfold s1. destruct (broadr a); reflexivity. }
  assert (under 21 s1) as U1. { unfold under. rewrite K1. destruct (pendf a); cbn; repeat constructor. }
  assert (exists s2, (if errorr a then Njoy_Model.covariances (options_of a) (if broadr a then Some (S (Njoy_Model.nlast s0)) else None) s1 else Njoy_Model.Ok s1) = Njoy_Model.Ok s2 /\
    Njoy_Model.deck s2 = Njoy_Model.deck s1 ++ flat_map (asks a) (if errorr a then covariance_calls a else []) /\
    map fst (Njoy_Model.tapeout s2) = map fst (Njoy_Model.tapeout s1) ++ map fst (if errorr a then cov_files a else []) /\ Njoy_Model.nlast s2 = after_cov a /\ under (after_cov a) s2) as (s2 & -> & D2 & K2 & E2 & U2).
  { unfold after_cov. destruct (errorr a) eqn:He.
    - destruct (H2 eq_refl) as (B & G & W). rewrite B in *. change (S (Njoy_Model.nlast s0)) with 22.
      destruct (n_cov a s1 T G W) as (s' & -> & (A & Bq & C) & U); [unfold under in *; revert U1; apply Forall_impl; intros; lia|easy|]. exists s'. easy.
    - exists s1. cbn. rewrite !app_nil_r. repeat split; [easy|]. destruct (broadr a); [|easy]. unfold under in *. revert U1. apply Forall_impl. intros; lia. }
  assert (exists s3, (if heatr a then match (if broadr a then Some (S (Njoy_Model.nlast s0)) else None) with None => Njoy_Model.Raised Njoy_Model.Unset | Some i => Njoy_Model.Ok (Njoy_Model.up (S (Njoy_Model.nlast s2)) (Njoy_Model.add (Njoy_Model.heatr_call i (S (Njoy_Model.nlast s2))) s2)) end else Njoy_Model.Ok s2) = Njoy_Model.Ok s3 /\
    Njoy_Model.deck s3 = Njoy_Model.deck s2 ++ flat_map (asks a) (if heatr a then [Heatr 22 (after_cov a + 1)] else []) /\ Njoy_Model.tapeout s3 = Njoy_Model.tapeout s2 /\ Njoy_Model.nlast s3 = after_heat a) as (s3 & E & D3 & K3 & E3).
  { unfold after_heat. destruct (heatr a) eqn:Hh.
    - rewrite (H1 eq_refl). eexists. split; [reflexivity|]. cbn [Njoy_Model.deck Njoy_Model.tapeout Njoy_Model.nlast Njoy_Model.up Njoy_Model.add flat_map asks app]. rewrite E2, Nat.add_1_r. easy.
    - exists s2. cbn. now rewrite app_nil_r, Nat.add_0_r. }
  cbv zeta. rewrite E. clear E.
  set (s4 := if purr a then _ else s3).
  assert (Njoy_Model.deck s4 = Njoy_Model.deck s3 ++ flat_map (asks a) (if purr a then [Purr (after_heat a) (after_heat a + 1)] else [])) as D4.
  { unfold s4. destruct (purr a); cbn [Njoy_Model.deck Njoy_Model.tapeout Njoy_Model.nlast Njoy_Model.up Njoy_Model.add flat_map asks app]; [|now rewrite app_nil_r]. rewrite E3, Nat.add_1_r. easy. }
  assert (Njoy_Model.tapeout s4 = Njoy_Model.tapeout s2) as K4. { unfold s4. rewrite <- K3. now destruct (purr a). }
  assert (Njoy_Model.nlast s4 = after_purr a) as E4. { unfold s4, after_purr. destruct (purr a); cbn; lia. }
  assert (Njoy_Model.deck (if acer a then Njoy_Model.acers (List.length (temps_of a)) 0 (Njoy_Model.nlast s4) s4 else s4) = Njoy_Model.deck s4 ++ flat_map (asks a) (if acer a then acer_calls (after_purr a) 0 (temps_of a) else []) /\
    map fst (Njoy_Model.tapeout (if acer a then Njoy_Model.acers (List.length (temps_of a)) 0 (Njoy_Model.nlast s4) s4 else s4)) = map fst (Njoy_Model.tapeout s4) ++ map fst (if acer a then acer_files a (after_purr a) 0 (temps_of a) else [])) as [D5 K5].
  { destruct (acer a); [|cbn; now rewrite !app_nil_r]. rewrite E4. apply n_acers. unfold under in *. rewrite K4. revert U2. apply Forall_impl. intros x Hx. unfold after_purr, after_heat. lia. }
  set (s5 := if acer a then _ else s4) in *. exists (Njoy_Model.tapeout s5). split.
  - rewrite D5, D4, D3, D2, D1. unfold calls. rewrite !flat_map_app, <- !app_assoc. reflexivity.
  - rewrite K5, K4, K2, K1. unfold files, cov_files, acer_files. rewrite !map_app.
    destruct (errorr a), (acer a); cbn [map]; rewrite ?map_app, <- ?app_assoc; reflexivity.
Qed.

(** And no deck in either when there is none in the other, for the same reason. *)
Lemma njoy_fails a : temps_of a <> [] ->
  (errorr a = true -> cov_energy_groups a = None -> Njoy_Model.make_njoy_run (options_of a) = Njoy_Model.Raised Njoy_Model.NoGroups) /\
  (errorr a = true -> cov_energy_groups a <> None -> own_weights a = true -> user_flux_weight_vals a = None -> Njoy_Model.make_njoy_run (options_of a) = Njoy_Model.Raised Njoy_Model.NoWeights) /\
  (errorr a = true -> cov_energy_groups a <> None -> (own_weights a = true -> user_flux_weight_vals a <> None) -> broadr a = false -> Njoy_Model.make_njoy_run (options_of a) = Njoy_Model.Raised Njoy_Model.Unset) /\
  (errorr a = false -> heatr a = true -> broadr a = false -> Njoy_Model.make_njoy_run (options_of a) = Njoy_Model.Raised Njoy_Model.Unset).
Proof.
  intros T. unfold Njoy_Model.make_njoy_run, Njoy_Model.covariances. cbn [Njoy_Model.pendf Njoy_Model.broadr Njoy_Model.errorr Njoy_Model.heatr Njoy_Model.purr Njoy_Model.acer Njoy_Model.run Njoy_Model.temps Njoy_Model.groups Njoy_Model.iwt1 Njoy_Model.weights Njoy_Model.nu Njoy_Model.chi options_of].
  split; [|split; [|split]].
  - intros -> ->. reflexivity.
  - intros -> G -> ->. destruct (cov_energy_groups a); [|easy]. reflexivity.
  - intros -> G W ->. destruct (cov_energy_groups a); [|easy]. cbn [negb].
    assert (own_weights a && negb (match user_flux_weight_vals a with Some _ => true | None => false end) = false) as ->.
    { destruct (own_weights a); [|easy]. destruct (user_flux_weight_vals a); [easy|]. now destruct W. }
    destruct (temps_of a); [easy|]. reflexivity.
  - intros -> -> ->. reflexivity.
Qed.
