(** Proofs about whole NJOY decks as text. *)
From Coq Require Import List Bool Arith ZArith Ascii String Lia.
From Verif Require Import Text Dec Deck_Model Deck_Spec Deck_Proofs.
From Verif Require Njoy_Model.
Import ListNotations.
Local Open Scope nat_scope.
Local Open Scope list_scope.

(** *** The run *)
Lemma set_same e k v : set k v e (str k) = Some v.
Proof. unfold set. now rewrite eqt_refl. Qed.
Definition apart (k : string) (l : list string) : bool := forallb (fun g => negb (eqt (str g) (str k))) l.
Definition global_names : list string := ["nendf"; "npendf"; "mat"; "library"; "zsymam"; "error"; "num_temp"; "temps"; "iwt_fluxweight"]%string.
Definition group_names : list string := ["cov_ngroups"; "user_flux_weight"]%string.
Lemma apart_other k l g : apart k l = true -> In g l -> eqt (str g) (str k) = false.
Proof. unfold apart. rewrite forallb_forall. intros H I. specialize (H g I). now destruct (eqt (str g) (str k)). Qed.
Lemma globals_set a e k v : apart k global_names = true -> globals a e -> globals a (set k v e).
Proof.
  intros H G. destruct G. split; (rewrite set_other; [assumption|]); apply (apart_other k global_names); try exact H; cbn; tauto.
Qed.
Lemma groups_set a e k v : apart k group_names = true -> groups a e -> groups a (set k v e).
Proof.
  intros H G. destruct G as [A B C]. split; [easy| |].
  - rewrite set_other; [easy|]. apply (apart_other k group_names); [easy|cbn; tauto].
  - intros O. destruct (C O) as (D & E & F). split; [|easy]. rewrite set_other; [easy|]. apply (apart_other k group_names); [easy|cbn; tauto].
Qed.
Lemma alias_some k k' v s : env s (str k') = Some v -> alias k k' s = Some (put k v s).
Proof. intros H. unfold alias. now rewrite H. Qed.
Lemma emit_some t s cs : yields2 (env s) t cs -> exists x, emit t s = Some (say x s) /\ whole x cs /\ unbraced x.
Proof. intros (x & A & B). exists x. split; [|easy]. unfold emit. now rewrite A. Qed.
Lemma emit_plot_some a s i o mts : env s (str "mat") = Some (decZ (mat a)) -> env s (str "nerr") = Some (num i) -> env s (str "covr_plot_out") = Some (num o) ->
  exists x, emit_plot mts s = Some (say x s) /\ whole x (cards_of a (CovPlot i o mts)) /\ unbraced x.
Proof.
  intros A B C. destruct (t_covr_plot a (env s) i o mts A B C) as (t & T & Y). unfold emit_plot. rewrite T. now apply emit_some.
Qed.
Lemma say_weights_some a s : groups a (env s) ->
  exists x, say_weights a s = Some (if own_weights a then say x s else s) /\ whole x (table_if a) /\ unbraced x.
Proof.
  intros G. unfold say_weights, table_if, own_weights. destruct (iwt_fluxweight a =? 1)%Z eqn:E.
  - destruct (h_weights a _ G E) as (H & N & F). destruct (whole_weights _ N F) as [W U]. rewrite H. cbn [option_map].
    exists (flux_weight (weights_of a) ++ str "/" ++ [nl]). split; [easy|]. split; [easy|]. apply unbraced_app; [easy|]. split; cbn; intuition discriminate.
  - exists []. split; [easy|]. split; [easy|apply unbraced_nil].
Qed.
(** The state with its parts told apart. *)
Lemma say_if (b : bool) x s : (if b then say x s else s) = say (if b then x else []) s.
Proof. destruct b; [easy|]. unfold say. rewrite app_nil_r. now destruct s. Qed.

Definition adds (s s' : st) (cs : list card) : Prop := exists x, cmds s' = cmds s ++ x /\ whole x cs /\ unbraced x.
Lemma adds_refl s s' : cmds s' = cmds s -> adds s s' [].
Proof. intros H. exists []. rewrite H, app_nil_r. split; [easy|]. split; [easy|apply unbraced_nil]. Qed.
Lemma adds_trans s1 s2 s3 x y : adds s1 s2 x -> adds s2 s3 y -> adds s1 s3 (x ++ y).
Proof. intros (p & A & B & C) (q & D & E & F). exists (p ++ q). rewrite D, A, app_assoc. split; [easy|]. split; [now apply whole_app|now apply unbraced_app]. Qed.
Definition below (n : nat) (d : list (nat * text)) : Prop := Forall (fun x => fst x <= n) d.
Lemma set_fresh {A} k (v : A) d : ~ In k (map fst d) -> Njoy_Model.set_item k v d = d ++ [(k, v)].
Proof.
  induction d as [|[k' v'] d IH]; intros H; [easy|]. cbn in *. destruct (Nat.eqb_spec k k') as [->|]; [tauto|]. now rewrite IH by tauto.
Qed.
Lemma below_fresh n k d : below n d -> n < k -> ~ In k (map fst d).
Proof. intros B L I. apply in_map_iff in I. destruct I as ((k' & v) & <- & I). unfold below in B. rewrite Forall_forall in B. specialize (B _ I). cbn in *. lia. Qed.
Lemma below_app n m d e : below n d -> n <= m -> below m e -> below m (d ++ e).
Proof. intros A L B. apply Forall_app. split; [|easy]. eapply Forall_impl; [|exact A]. cbn. lia. Qed.

Ltac exec := cbn [bind]; unfold say, tape, put, up; cbn [env cmds outs nlast].
Ltac look := repeat (rewrite set_same || rewrite set_other by reflexivity); try assumption; try reflexivity.
Ltac kept := repeat (apply globals_set; [reflexivity|]); repeat (apply groups_set; [reflexivity|]); try assumption.

Lemma one_temp a t s : sensible a -> globals a (env s) -> groups a (env s) -> env s (str "nbroadr") = Some (num 22) -> numeral (shown t) -> below (nlast s) (outs s) ->
  exists s', one_temperature a (bounds_of a) t s = Some s' /\
    globals a (env s') /\ groups a (env s') /\ env s' (str "nbroadr") = Some (num 22) /\ bounds_set a (env s') /\ env s' (str "temperature") = Some (shown t) /\
    nlast s' = nlast s + width a /\
    outs s' = outs s ++ (nlast s + 3, w "covr_" ++ shown t ++ w ".txt") :: (if plotted a then [(nlast s + 5, w "viewr_" ++ shown t ++ w ".eps")] else []) /\
    adds s s' (flat_map (cards_of a) ([Xsec 22 (nlast s + 1); Cov33 (nlast s + 1) (nlast s + 2) (shown t); CovLib (nlast s + 2) (nlast s + 3)]
       ++ if plotted a then [CovPlot (nlast s + 2) (nlast s + 4) (covr_plot_mts a); View (nlast s + 4) (nlast s + 5)] else [])).
Proof.
  intros H G K NB NT B. unfold one_temperature.
  destruct s as [e c d n]. cbn [env cmds outs nlast] in *.
  rewrite (alias_some _ _ (num 22)) by (cbn [env put]; look). cbn [bind].
  rewrite (alias_some _ _ (num (n + 1))) by (cbn [env put up nlast]; look). cbn [bind].
  exec.
  match goal with |- context [emit _ ?s] => destruct (emit_some (if (iwt_fluxweight a =? 1)%Z then T_GROUPR_USER (List.length (temps_of a)) else T_GROUPR_XSEC (List.length (temps_of a))) s (cards_of a (Xsec 22 (n + 1)))) as (x1 & -> & W1 & U1) end.
  { cbn [env]. apply t_xsec; [easy|kept|kept| |look|look]. unfold bounds_set. look. }
  exec.
  match goal with |- context [emit T_ERRORR_33 ?s] => destruct (emit_some T_ERRORR_33 s _ (t_errorr33 a (env s) (n + 1) (n + 1 + 1) (shown t) H ltac:(kept) ltac:(kept) ltac:(unfold bounds_set; look) ltac:(look) ltac:(look) ltac:(look) NT)) as (x2 & -> & W2 & U2) end.
  exec.
  match goal with |- context [say_weights a ?s] => destruct (say_weights_some a s ltac:(kept)) as (x3 & -> & W3 & U3) end.
  rewrite say_if. exec.
  match goal with |- context [emit T_COVR_LIB ?s] => destruct (emit_some T_COVR_LIB s _ (t_covr_lib a (env s) (n + 1 + 1) (n + 1 + 1 + 1) ltac:(kept) ltac:(look) ltac:(look))) as (x4 & -> & W4 & U4) end.
  exec.
  assert (forall k, k <> 0 -> ~ In (n + k) (map fst d)) as FR by (intros k Hk; apply (below_fresh n); [easy|lia]).
  rewrite set_fresh by (replace (n + 1 + 1 + 1) with (n + 3) by lia; now apply FR).
  assert (whole (x1 ++ x2 ++ (if own_weights a then x3 else []) ++ x4)
     (flat_map (cards_of a) [Xsec 22 (n + 1); Cov33 (n + 1) (n + 2) (shown t); CovLib (n + 2) (n + 3)])) as WW.
  { cbn [flat_map]. rewrite app_nil_r. replace (n + 1 + 1 + 1) with (n + 3) in * by lia. replace (n + 1 + 1) with (n + 2) in * by lia.
    rewrite (app_assoc x2). apply whole_app; [exact W1|]. apply whole_app; [|exact W4]. cbn [cards_of]. rewrite app_assoc. apply whole_app; [exact W2|].
    destruct (own_weights a) eqn:E; [exact W3|]. unfold table_if. rewrite E. apply whole_nil. }
  assert (unbraced (x1 ++ x2 ++ (if own_weights a then x3 else []) ++ x4)) as UU.
  { repeat apply unbraced_app; try assumption. destruct (own_weights a); [easy|apply unbraced_nil]. }
  unfold plotted. destruct (covr_plot_mts a) as [|m mts] eqn:MT.
  - eexists. split; [reflexivity|]. cbn [env nlast outs cmds]. unfold width, plotted. rewrite MT.
    split; [kept|]. split; [kept|]. split; [look|]. split; [unfold bounds_set; look|]. split; [look|]. split; [lia|].
    split. { replace (n + 1 + 1 + 1) with (n + 3) by lia. reflexivity. }
    exists (x1 ++ x2 ++ (if own_weights a then x3 else []) ++ x4). cbn [cmds]. rewrite !app_assoc. rewrite <- (app_assoc c). rewrite <- !app_assoc in *. now rewrite app_nil_r.
  - match goal with |- context [emit_plot _ ?s] => destruct (emit_plot_some a s (n + 1 + 1) (n + 1 + 1 + 1 + 1) (m :: mts)) as (x5 & -> & W5 & U5) end;
      [cbn [env]; look; apply G | cbn [env]; look | cbn [env]; look |].
    exec.
    match goal with |- context [emit T_VIEWR ?s] => destruct (emit_some T_VIEWR s _ (t_viewr a (env s) (n + 1 + 1 + 1 + 1) (n + 1 + 1 + 1 + 1 + 1) ltac:(look) ltac:(look))) as (x6 & -> & W6 & U6) end.
    eexists. split; [reflexivity|]. exec. unfold width, plotted. rewrite MT.
    split; [kept|]. split; [kept|]. split; [look|]. split; [unfold bounds_set; look|]. split; [look|]. split; [lia|].
    replace (n + 1 + 1 + 1 + 1 + 1) with (n + 5) in * by lia. replace (n + 1 + 1 + 1 + 1) with (n + 4) in * by lia.
    replace (n + 1 + 1 + 1) with (n + 3) in * by lia. replace (n + 1 + 1) with (n + 2) in * by lia.
    split. { rewrite set_fresh; [rewrite <- app_assoc; reflexivity|]. rewrite map_app, in_app_iff. intros [I|[I|[]]]; [revert I; now apply FR|cbn in I; lia]. }
    exists ((x1 ++ x2 ++ (if own_weights a then x3 else []) ++ x4) ++ x5 ++ x6). cbn [cmds]. split; [rewrite <- !app_assoc; reflexivity|].
    rewrite flat_map_app. split; [apply whole_app; [exact WW|]|apply unbraced_app; [exact UU|now apply unbraced_app]].
    cbn [flat_map]. rewrite app_nil_r. now apply whole_app.
Qed.

(** All temperatures: from the [i]-th on. *)
Lemma all_temps a l : forall i s, sensible a -> globals a (env s) -> groups a (env s) -> env s (str "nbroadr") = Some (num 22) ->
  Forall (fun t => numeral (shown t)) l -> below (nlast s) (outs s) -> nlast s = 22 + width a * i ->
  exists s', each (one_temperature a (bounds_of a)) l s = Some s' /\
    globals a (env s') /\ groups a (env s') /\ env s' (str "nbroadr") = Some (num 22) /\
    (l <> [] -> bounds_set a (env s') /\ env s' (str "temperature") = Some (last (map shown l) [])) /\
    nlast s' = 22 + width a * (i + List.length l) /\ below (nlast s') (outs s') /\
    outs s' = outs s ++ concat (mapi (temp_files a) i l) /\
    adds s s' (flat_map (cards_of a) (concat (mapi (at_temperature a) i l))).
Proof.
  induction l as [|t l IH]; intros i s H G K NB F B N.
  - exists s. cbn. rewrite app_nil_r, Nat.add_0_r. repeat (split; [easy|]). now apply adds_refl.
  - inversion F as [|? ? Ft Fl]; subst. destruct (one_temp a t s H G K NB Ft B) as (s1 & E1 & G1 & K1 & NB1 & BS1 & T1 & N1 & O1 & A1).
    assert (below (nlast s1) (outs s1)) as B1.
    { rewrite O1. apply (below_app (nlast s)); [easy|lia|]. rewrite N1. unfold width. destruct (plotted a); repeat constructor; cbn; lia. }
    destruct (IH (S i) s1 H G1 K1 NB1 Fl B1) as (s2 & E2 & G2 & K2 & NB2 & T2 & N2 & B2 & O2 & A2); [lia|].
    exists s2. cbn [each bind]. rewrite E1. cbn [bind]. split; [exact E2|]. repeat (split; [assumption|]).
    split. { intros _. destruct l as [|t' l]; [|exact (T2 ltac:(discriminate))]. cbn in E2. injection E2 as <-. now split. }
    split; [rewrite N2; cbn [List.length]; lia|]. split; [easy|].
    split. { rewrite O2, O1, <- app_assoc. cbn [mapi concat]. f_equal. f_equal. unfold temp_files. now rewrite <- N. }
    cbn [mapi concat]. rewrite flat_map_app. apply (adds_trans s s1); [|exact A2]. unfold at_temperature. rewrite <- N. exact A1.
Qed.
Lemma whole_remark : whole ([nl] ++ str "-- Nu-bar / Chi groupr" ++ [nl]) [([w "--"; w "Nu-bar"], true)] /\ whole (str "-- Chi info" ++ [nl]) [([w "--"; w "Chi"; w "info"], false)].
Proof. split; vm_compute; reflexivity. Qed.
Lemma fission_groups_some a s : sensible a -> globals a (env s) -> groups a (env s) -> env s (str "nbroadr") = Some (num 22) -> bounds_set a (env s) ->
  exists s', fission_groups a s = Some s' /\ globals a (env s') /\ groups a (env s') /\ env s' (str "nbroadr") = Some (num 22) /\ bounds_set a (env s') /\
    env s' (str "ngroupr_out") = Some (num (nlast s + 1)) /\ env s' (str "temperature") = env s (str "temperature") /\
    nlast s' = nlast s + 1 /\ outs s' = outs s /\
    adds s s' (flat_map (cards_of a) [Remark [w "--"; w "Nu-bar"] true; Fission 22 (nlast s + 1)]).
Proof.
  intros H G K NB BS. unfold fission_groups. destruct s as [e c d n]. cbn [env cmds outs nlast] in *.
  rewrite (alias_some _ _ (num 22)) by (cbn [env say]; look). exec.
  match goal with |- context [emit ?t ?s] => destruct (emit_some t s (cards_of a (Fission 22 (n + 1)))) as (x1 & -> & W1 & U1) end.
  { cbn [env]. apply t_fission; [easy|kept|kept| |look|look]. unfold bounds_set. look. }
  exec. eexists. split; [reflexivity|]. cbn [env cmds outs nlast].
  split; [kept|]. split; [kept|]. split; [look|]. split; [unfold bounds_set; look|]. split; [look|]. split; [look|]. split; [easy|]. split; [easy|].
  exists (([nl] ++ str "-- Nu-bar / Chi groupr" ++ [nl]) ++ x1). cbn [cmds]. split; [now rewrite <- !app_assoc|]. split.
  - cbn [flat_map]. rewrite app_nil_r. apply whole_app; [apply whole_remark|exact W1].
  - apply unbraced_app; [|easy]. split; cbn; intuition discriminate.
Qed.
Lemma fission_part_some a s remark rcs mf mts cn vn g t : mf = 31 \/ mf = 35 -> whole remark rcs -> unbraced remark -> sensible a -> globals a (env s) -> groups a (env s) -> env s (str "nbroadr") = Some (num 22) -> bounds_set a (env s) ->
  env s (str "ngroupr_out") = Some (num g) -> env s (str "temperature") = Some t -> numeral t -> below (nlast s) (outs s) ->
  exists s', fission_part a remark (T_ERRORR mf) mts cn vn s = Some s' /\ globals a (env s') /\ groups a (env s') /\ env s' (str "nbroadr") = Some (num 22) /\ bounds_set a (env s') /\
    env s' (str "ngroupr_out") = Some (num g) /\ env s' (str "temperature") = Some t /\
    nlast s' = nlast s + 4 /\ outs s' = outs s ++ [(nlast s + 4, named cn t ".txt"); (nlast s + 3, named vn t ".eps")] /\
    adds s s' (rcs ++ flat_map (cards_of a) [Cov3x mf 22 g (nlast s + 1) t; CovPlot (nlast s + 1) (nlast s + 2) mts; View (nlast s + 2) (nlast s + 3); CovLib (nlast s + 1) (nlast s + 4)]).
Proof.
  intros MF WR UR H G K NB BS GO T NT B. unfold fission_part. destruct s as [e c d n]. cbn [env cmds outs nlast] in *.
  rewrite (alias_some _ _ (num 22)) by (cbn [env say]; look). exec.
  match goal with |- context [emit ?tt ?s] => destruct (emit_some tt s _ (t_errorr3x a (env s) mf 22 g (n + 1) t MF H ltac:(kept) ltac:(kept) ltac:(unfold bounds_set; look) ltac:(look) ltac:(look) ltac:(look) ltac:(look) NT)) as (x1 & -> & W1 & U1) end.
  exec.
  match goal with |- context [say_weights a ?s] => destruct (say_weights_some a s ltac:(kept)) as (x2 & -> & W2 & U2) end.
  rewrite say_if. exec.
  match goal with |- context [emit_plot _ ?s] => destruct (emit_plot_some a s (n + 1) (n + 1 + 1) mts) as (x3 & -> & W3 & U3) end;
    [cbn [env]; look; apply G | cbn [env]; look | cbn [env]; look |].
  exec.
  match goal with |- context [emit T_VIEWR ?s] => destruct (emit_some T_VIEWR s _ (t_viewr a (env s) (n + 1 + 1) (n + 1 + 1 + 1) ltac:(look) ltac:(look))) as (x4 & -> & W4 & U4) end.
  exec.
  match goal with |- context [bind ?l _] => replace l with (Some t) by (symmetry; look) end. exec.
  match goal with |- context [emit T_COVR_LIB ?s] => destruct (emit_some T_COVR_LIB s _ (t_covr_lib a (env s) (n + 1) (n + 1 + 1 + 1 + 1) ltac:(kept) ltac:(look) ltac:(look))) as (x5 & -> & W5 & U5) end.
  exec. eexists. split; [reflexivity|]. cbn [env cmds outs nlast].
  replace (n + 1 + 1 + 1 + 1) with (n + 4) in * by lia. replace (n + 1 + 1 + 1) with (n + 3) in * by lia. replace (n + 1 + 1) with (n + 2) in * by lia.
  split; [kept|]. split; [kept|]. split; [look|]. split; [unfold bounds_set; look|]. split; [look|]. split; [look|]. split; [easy|]. split.
  { assert (forall k, k <> 0 -> ~ In (n + k) (map fst d)) as FR by (intros k Hk; apply (below_fresh n); [easy|lia]).
    rewrite (set_fresh (n + 4)) by now apply FR. rewrite set_fresh; [now rewrite <- app_assoc|].
    rewrite map_app, in_app_iff. intros [I|[I|[]]]; [revert I; now apply FR|cbn in I; lia]. }
  exists (remark ++ (x1 ++ if own_weights a then x2 else []) ++ x3 ++ x4 ++ x5). cbn [cmds]. split; [now rewrite <- !app_assoc|].
  assert (whole (if own_weights a then x2 else []) (table_if a)) as W2'.
  { destruct (own_weights a) eqn:E; [easy|]. unfold table_if. rewrite E. apply whole_nil. }
  split.
  - apply whole_app; [easy|]. cbn [flat_map]. rewrite app_nil_r. apply whole_app; [|apply whole_app; [exact W3|now apply whole_app]].
    cbn [cards_of]. rewrite app_assoc. now apply whole_app.
  - repeat apply unbraced_app; try assumption. destruct (own_weights a); [easy|apply unbraced_nil].
Qed.

Lemma below2 m p q x y : p <= m -> q <= m -> below m [(p, x); (q, y)].
Proof. intros A B. apply Forall_cons; [exact A|]. apply Forall_cons; [exact B|constructor]. Qed.
Lemma below1 m p x : p <= m -> below m [(p, x)].
Proof. intros A. apply Forall_cons; [exact A|constructor]. Qed.
(** The covariance part. *)
Definition cov_files (a : args) : list (nat * text) :=
  concat (mapi (temp_files a) 0 (temps_of a))
  ++ (if nu a then [(after_groups a + 4, w "covr_nu_" ++ last_temp a ++ w ".txt"); (after_groups a + 3, w "viewr_nu_" ++ last_temp a ++ w ".eps")] else [])
  ++ (if chi a then [(after_nu a + 4, w "covr_chi_" ++ last_temp a ++ w ".txt"); (after_nu a + 3, w "viewr_chi_" ++ last_temp a ++ w ".eps")] else []).
Lemma covariances_some a s l : sensible a -> globals a (env s) -> env s (str "nbroadr") = Some (num 22) -> nlast s = 22 -> below 22 (outs s) ->
  cov_energy_groups a = Some l -> (own_weights a = true -> user_flux_weight_vals a <> None) ->
  exists s', covariances a s = Njoy_Model.Ok s' /\ globals a (env s') /\ env s' (str "nbroadr") = Some (num 22) /\ nlast s' = after_chi a /\ below (nlast s') (outs s') /\
    outs s' = outs s ++ cov_files a /\ adds s s' (flat_map (cards_of a) (covariance_calls a)).
Proof.
  intros H G NB N B CG OW. unfold covariances. rewrite CG.
  set (s1 := put "cov_ngroups" (decZ (Z.of_nat (List.length l) - 1)) s).
  set (s2 := if own_weights a then put "user_flux_weight" (flux_weight (weights_of a)) s1 else s1).
  assert (bounds_of a = l) as BO by (unfold bounds_of; now rewrite CG).
  assert ((if (iwt_fluxweight a =? 1)%Z then option_map (fun l => put "user_flux_weight" (flux_weight l) s1) (user_flux_weight_vals a) else Some s1) = Some s2) as ->.
  { unfold s2, own_weights, weights_of in *. destruct (iwt_fluxweight a =? 1)%Z; [|easy]. specialize (OW eq_refl). now destruct (user_flux_weight_vals a). }
  assert (globals a (env s2)) as G2. { unfold s2, s1, put. destruct (own_weights a); cbn [env]; kept. }
  assert (groups a (env s2)) as K2.
  { split; [rewrite BO; now apply (s_groups a H)| |].
    - rewrite BO. unfold s2, s1, put. destruct (own_weights a); cbn [env]; look.
    - intros O. unfold s2, s1, put. rewrite O. cbn [env]. split; [look|]. unfold weights_of. specialize (OW O).
      destruct (user_flux_weight_vals a) as [v|] eqn:V; [|easy]. now apply (s_weights a H). }
  assert (env s2 (str "nbroadr") = Some (num 22)) as NB2. { unfold s2, s1, put. destruct (own_weights a); cbn [env]; look. }
  assert (nlast s2 = 22) as N2. { unfold s2. now destruct (own_weights a). }
  assert (outs s2 = outs s) as O2. { unfold s2. now destruct (own_weights a). }
  assert (cmds s2 = cmds s) as C2. { unfold s2. now destruct (own_weights a). }
  destruct (s_temps a H) as [TN TF].
  destruct (all_temps a (temps_of a) 0 s2 H G2 K2 NB2 TF) as (s3 & E3 & G3 & K3 & NB3 & T3 & N3 & B3 & O3 & A3); [now rewrite N2, O2|lia|].
  rewrite BO in E3. rewrite E3. cbn [bind]. destruct (T3 TN) as [BS3 TT3]. change (nlast s3 = after_temps a) in N3.
  assert (numeral (last_temp a)) as NT.
  { unfold last_temp. destruct (temps_shown a H) as [Q1 Q2]. rewrite (app_removelast_last [] Q1) in Q2. apply Forall_app in Q2. destruct Q2 as [_ Q2]. now inversion Q2. }
  assert (exists s4, (if nu a || chi a then fission_groups a s3 else Some s3) = Some s4 /\ globals a (env s4) /\ groups a (env s4) /\ env s4 (str "nbroadr") = Some (num 22) /\ bounds_set a (env s4) /\
    (fissile a = true -> env s4 (str "ngroupr_out") = Some (num (after_temps a + 1))) /\ env s4 (str "temperature") = Some (last_temp a) /\
    nlast s4 = after_groups a /\ outs s4 = outs s3 /\
    adds s3 s4 (flat_map (cards_of a) (if fissile a then [Remark [w "--"; w "Nu-bar"] true; Fission 22 (after_temps a + 1)] else []))) as
    (s4 & E4 & G4 & K4 & NB4 & BS4 & GO4 & T4 & N4 & O4 & A4).
  { unfold after_groups, fissile. destruct (nu a || chi a).
    - destruct (fission_groups_some a s3 H G3 K3 NB3 BS3) as (s4 & E4 & G4 & K4 & NB4 & BS4 & GO4 & T4 & N4 & O4 & A4).
      exists s4. rewrite T4, N4, N3 in *. repeat (split; [easy|]). easy.
    - exists s3. repeat (split; [first [easy|assumption]|]). split; [lia|]. split; [easy|]. now apply adds_refl. }
  rewrite E4. cbn [bind].
  assert (below (nlast s4) (outs s4)) as B4.
  { rewrite O4, N4. eapply Forall_impl; [|exact B3]. intros p. cbv beta. unfold after_groups. rewrite N3. lia. }
  assert (exists s5, (if nu a then fission_part a [] T_ERRORR_31 [452]%Z "covr_nu" "viewr_nu" s4 else Some s4) = Some s5 /\ globals a (env s5) /\ groups a (env s5) /\ env s5 (str "nbroadr") = Some (num 22) /\ bounds_set a (env s5) /\
    (fissile a = true -> env s5 (str "ngroupr_out") = Some (num (after_temps a + 1))) /\ env s5 (str "temperature") = Some (last_temp a) /\
    nlast s5 = after_nu a /\ outs s5 = outs s4 ++ (if nu a then [(after_groups a + 4, w "covr_nu_" ++ last_temp a ++ w ".txt"); (after_groups a + 3, w "viewr_nu_" ++ last_temp a ++ w ".eps")] else []) /\
    adds s4 s5 (flat_map (cards_of a) (if nu a then fission_calls a 31 [452]%Z (after_temps a + 1) (after_groups a) else []))) as
    (s5 & E5 & G5 & K5 & NB5 & BS5 & GO5 & T5 & N5 & O5 & A5).
  { unfold after_nu. destruct (nu a) eqn:NU.
    - assert (fissile a = true) as FI by (unfold fissile; now rewrite NU).
      destruct (fission_part_some a s4 [] [] 31 [452]%Z "covr_nu" "viewr_nu" (after_temps a + 1) (last_temp a)) as (s5 & E5 & G5 & K5 & NB5 & BS5 & GO5 & T5 & N5 & O5 & A5); try assumption; [now left|apply whole_nil|apply unbraced_nil|now apply GO4|].
      exists s5. rewrite N5, O5, N4 in *. repeat (split; [easy|]). exact A5.
    - exists s4. rewrite app_nil_r, Nat.add_0_r. repeat (split; [first [easy|assumption]|]). now apply adds_refl. }
  rewrite E5. cbn [bind].
  assert (below (nlast s5) (outs s5)) as B5.
  { rewrite O5. apply (below_app (nlast s4)); [easy|rewrite N5, N4; unfold after_nu; lia|]. rewrite N5. unfold after_nu. destruct (nu a); [apply below2; lia|constructor]. }
  assert (exists s6, (if chi a then fission_part a (str "-- Chi info" ++ [nl]) T_ERRORR_35 [] "covr_chi" "viewr_chi" s5 else Some s5) = Some s6 /\ globals a (env s6) /\ env s6 (str "nbroadr") = Some (num 22) /\
    nlast s6 = after_chi a /\ outs s6 = outs s5 ++ (if chi a then [(after_nu a + 4, w "covr_chi_" ++ last_temp a ++ w ".txt"); (after_nu a + 3, w "viewr_chi_" ++ last_temp a ++ w ".eps")] else []) /\
    adds s5 s6 (flat_map (cards_of a) (if chi a then Remark [w "--"; w "Chi"; w "info"] false :: fission_calls a 35 [] (after_temps a + 1) (after_nu a) else []))) as
    (s6 & E6 & G6 & NB6 & N6 & O6 & A6).
  { unfold after_chi. destruct (chi a) eqn:CH.
    - assert (fissile a = true) as FI by (unfold fissile; rewrite CH; apply orb_true_r).
      destruct (fission_part_some a s5 (str "-- Chi info" ++ [nl]) [([w "--"; w "Chi"; w "info"], false)] 35 [] "covr_chi" "viewr_chi" (after_temps a + 1) (last_temp a)) as (s6 & E6 & G6 & K6 & NB6 & BS6 & GO6 & T6 & N6 & O6 & A6); try assumption;
        [now right|apply whole_remark|split; cbn; intuition discriminate|now apply GO5|].
      exists s6. rewrite N6, O6, N5 in *. repeat (split; [easy|]). exact A6.
    - exists s5. rewrite app_nil_r, Nat.add_0_r. repeat (split; [first [easy|assumption]|]). now apply adds_refl. }
  rewrite E6. exists s6. split; [easy|]. split; [easy|]. split; [easy|]. split; [easy|]. split.
  { rewrite O6. apply (below_app (nlast s5)); [easy|rewrite N6, N5; unfold after_chi; lia|]. rewrite N6. unfold after_chi. destruct (chi a); [apply below2; lia|constructor]. }
  split. { rewrite O6, O5, O4, O3, O2. unfold cov_files. now rewrite <- !app_assoc. }
  unfold covariance_calls. rewrite !flat_map_app.
  apply (adds_trans s s3). { destruct A3 as (x & X1 & X2). exists x. now rewrite <- C2. }
  apply (adds_trans s3 s4); [exact A4|]. now apply (adds_trans s4 s5).
Qed.
(** ACER calls: written after everything has been formatted. *)
Definition acer_calls (n : nat) (i : nat) (l : list temperature) : list call :=
  mapi (fun i t => Acer (i + 1) n (n + 2 * i + 1) (n + 2 * i + 2) (shown t)) i l.
Definition acer_files (a : args) (n i : nat) (l : list temperature) : list (nat * text) :=
  concat (mapi (fun i t => [(n + 2 * i + 1, ace a ++ w "_" ++ tenths t); (n + 2 * i + 2, xsdir a ++ w "_" ++ tenths t)]) i l).
Lemma acers_some a n l : forall i s, sensible a -> globals a (env s) -> env s (str "nacer_in") = Some (num n) -> Forall (fun t => numeral (shown t)) l -> below (n + 2 * i) (outs s) ->
  exists s' x, acers T_ACER n (ace a) (xsdir a) i l s = Some s' /\ cmds s' = cmds s ++ x /\ whole x (flat_map (cards_of a) (acer_calls n i l)) /\ outs s' = outs s ++ acer_files a n i l.
Proof.
  induction l as [|t l IH]; intros i s H G NI F B.
  - exists s, []. cbn. rewrite !app_nil_r. now repeat split.
  - inversion F as [|? ? Ft Fl]; subst. cbn [acers]. destruct s as [e c d m]. cbn [env cmds outs nlast] in *. exec.
    match goal with |- context [emit T_ACER ?s] => destruct (t_acer a (env s) (i + 1) n (n + 1 + 2 * i) (n + 1 + 2 * i + 1) (shown t) H ltac:(kept) ltac:(look) ltac:(look) ltac:(look) ltac:(look) ltac:(look) Ft) as (x & X & W);
      unfold emit; rewrite X end.
    cbn [option_map]. exec.
    replace (n + 1 + 2 * i + 1) with (n + 2 * i + 2) in * by lia. replace (n + 1 + 2 * i) with (n + 2 * i + 1) in * by lia.
    rewrite (set_fresh (n + 2 * i + 1)) by (apply (below_fresh (n + 2 * i)); [easy|lia]).
    rewrite set_fresh. 2: { rewrite map_app, in_app_iff. intros [I|[I|[]]]; [revert I; apply (below_fresh (n + 2 * i)); [easy|lia]|cbn in I; lia]. }
    match goal with |- context [acers _ _ _ _ _ _ ?s] => destruct (IH (S i) s H) as (s' & y & E & C & W' & O); [cbn [env]; kept|cbn [env]; look|easy| |] end.
    { cbn [outs]. apply (below_app (n + 2 * i + 1)); [|lia|apply below1; lia].
      apply (below_app (n + 2 * i)); [easy|lia|apply below1; lia]. }
    exists s', (x ++ y). split; [exact E|]. rewrite C, O. cbn [cmds outs]. split; [now rewrite app_assoc|]. split.
    + cbn [acer_calls mapi flat_map]. now apply whole_app.
    + unfold acer_files. cbn [mapi concat]. now rewrite <- !app_assoc.
Qed.
Lemma acers_keys a n l i : map fst (acer_files a n i l) = flat_map (fun j => [n + 2 * j + 1; n + 2 * j + 2]) (seq i (List.length l)).
Proof. revert i. induction l as [|t l IH]; intros i; [easy|]. unfold acer_files in *. cbn [mapi concat List.length seq flat_map]. rewrite map_app, IH. easy. Qed.

Lemma env_say t s : env (say t s) = env s. Proof. reflexivity. Qed.
Lemma env_put k v s : env (put k v s) = set k v (env s). Proof. reflexivity. Qed.
Lemma started_globals a : globals a (env (started a)).
Proof. split; unfold started; cbv zeta; rewrite ?env_say, ?env_put; look. Qed.
Lemma broadened_eq a : broadened a (started a) = (if broadr a then up 22 (say T_BROADR (put "nbroadr" (num 22) (started a))) else started a).
Proof. unfold broadened. now destruct (broadr a). Qed.
Lemma run_some a : sensible a -> (heatr a = true -> broadr a = true) ->
  (errorr a = true -> broadr a = true /\ cov_energy_groups a <> None /\ (own_weights a = true -> user_flux_weight_vals a <> None)) ->
  exists t, cards t = flat_map (cards_of a) (calls a) ++ [c0 [w "stop"]] /\
    make_njoy_run a = if Deck_Model.run a then Njoy_Model.Raised Njoy_Model.NotCallable else Njoy_Model.Ok (t, [(20, filename a)], files a).
Proof.
  intros H HB EB. unfold make_njoy_run. rewrite broadened_eq.
  set (s0 := if broadr a then _ else _).
  assert (globals a (env s0)) as G0.
  { unfold s0. destruct (broadr a); [|apply started_globals]. unfold up, say, put. cbn [env]. apply globals_set; [reflexivity|]. apply started_globals. }
  assert (outs s0 = match pendf a with Some f => [(21, f)] | None => [] end) as O0. { unfold s0. now destruct (broadr a). }
  assert (nlast s0 = if broadr a then 22 else 21) as N0. { unfold s0. now destruct (broadr a). }
  assert (cmds s0 = T_RECONR ++ if broadr a then T_BROADR else []) as C0. { unfold s0. now destruct (broadr a). }
  assert (broadr a = true -> env s0 (str "nbroadr") = Some (num 22)) as NB0. { unfold s0. intros ->. reflexivity. }
  assert (below (nlast s0) (outs s0)) as B0.
  { rewrite O0, N0. destruct (pendf a); [|constructor]. apply below1. destruct (broadr a); lia. }
  (* covariances *)
  assert (exists s1, (if errorr a then covariances a s0 else Njoy_Model.Ok s0) = Njoy_Model.Ok s1 /\ globals a (env s1) /\ (broadr a = true -> env s1 (str "nbroadr") = Some (num 22)) /\
    nlast s1 = after_cov a /\ below (nlast s1) (outs s1) /\ outs s1 = outs s0 ++ (if errorr a then cov_files a else []) /\
    adds s0 s1 (flat_map (cards_of a) (if errorr a then covariance_calls a else []))) as (s1 & E1 & G1 & NB1 & N1 & B1 & O1 & A1).
  { unfold after_cov. destruct (errorr a).
    - destruct (EB eq_refl) as (BR & CG & OW). destruct (cov_energy_groups a) as [l|] eqn:CL; [|easy]. rewrite BR in N0. rewrite N0 in B0.
      destruct (covariances_some a s0 l H G0 (NB0 BR) N0 B0 CL OW) as (s1 & E1 & G1 & NB1 & N1 & B1 & O1 & A1).
      exists s1. repeat (split; [easy|]). easy.
    - exists s0. rewrite app_nil_r. repeat (split; [easy|]). now apply adds_refl. }
  rewrite E1.
  (* heatr *)
  assert (exists s2, (if heatr a then heat s1 else Some s1) = Some s2 /\ globals a (env s2) /\ nlast s2 = after_heat a /\ outs s2 = outs s1 /\
    (heatr a = true -> env s2 (str "nheatr_in") = Some (num 22) /\ env s2 (str "nheatr") = Some (num (after_cov a + 1))) /\
    cmds s2 = cmds s1 ++ if heatr a then T_HEATR else []) as (s2 & E2 & G2 & N2 & O2 & K2 & C2).
  { unfold after_heat. destruct (heatr a).
    - unfold heat. rewrite (alias_some _ _ (num 22)) by auto. eexists. split; [reflexivity|]. unfold up, say, put. cbn [env nlast outs cmds]. rewrite N1.
      split; [kept|]. split; [easy|]. split; [easy|]. split; [intros _; split; look|easy].
    - exists s1. rewrite app_nil_r, Nat.add_0_r. repeat (split; [easy|]). easy. }
  rewrite E2. cbn [bind].
  (* purr *)
  set (s3 := if purr a then tables s2 else s2).
  assert (globals a (env s3)) as G3. { unfold s3, tables, up, say, put. destruct (purr a); cbn [env]; kept. }
  assert (nlast s3 = after_purr a) as N3. { unfold s3, after_purr. destruct (purr a); cbn; rewrite N2; [easy|lia]. }
  assert (outs s3 = outs s2) as O3. { unfold s3. now destruct (purr a). }
  assert (cmds s3 = cmds s2 ++ if purr a then T_PURR else []) as C3. { unfold s3. destruct (purr a); [easy|now rewrite app_nil_r]. }
  assert (purr a = true -> env s3 (str "npurr_in") = Some (num (after_heat a)) /\ env s3 (str "npurr") = Some (num (after_heat a + 1))) as K3.
  { intros P. unfold s3, tables, up, say, put. rewrite P. cbn [env nlast]. rewrite N2. split; look. }
  assert (heatr a = true -> env s3 (str "nheatr_in") = Some (num 22) /\ env s3 (str "nheatr") = Some (num (after_cov a + 1))) as K3h.
  { intros P. destruct (K2 P). unfold s3, tables, up, say, put. destruct (purr a); cbn [env]; split; look. }
  assert (broadr a = true -> env s3 (str "nbroadr") = Some (num 22)) as NB3.
  { intros P. assert (env s2 (str "nbroadr") = Some (num 22)) as Q.
    { revert E2. destruct (heatr a); [|intros [= <-]; auto]. unfold heat. rewrite (alias_some _ _ (num 22)) by auto. intros [= <-].
      unfold up, say, put. cbn [env]. look. auto. }
    unfold s3, tables, up, say, put. destruct (purr a); cbn [env]; look. }
  destruct A1 as (x & X & WX & UX).
  assert (yields (env s3) (cmds s3) (flat_map (cards_of a) ([Reconr 21] ++ (if broadr a then [Broadr 21 22] else []) ++ (if errorr a then covariance_calls a else [])
      ++ (if heatr a then [Heatr 22 (after_cov a + 1)] else []) ++ (if purr a then [Purr (after_heat a) (after_heat a + 1)] else [])))) as (y & Y & WY).
  { rewrite C3, C2, X, C0, <- !app_assoc, !flat_map_app.
    apply yields_app; [cbn [flat_map]; rewrite app_nil_r; now apply t_reconr|].
    apply yields_app. { destruct (broadr a); [|now exists []]. cbn [flat_map]. rewrite app_nil_r. apply t_broadr; auto. }
    apply yields_app. { exists x. split; [now apply format_unbraced|easy]. }
    apply yields_app. { destruct (heatr a); [|now exists []]. cbn [flat_map]. rewrite app_nil_r. destruct (K3h eq_refl). now apply t_heatr. }
    destruct (purr a); [|now exists []]. cbn [flat_map]. rewrite app_nil_r. destruct (K3 eq_refl). now apply t_purr. }
  unfold reformat. rewrite Y. cbn [option_map bind nlast].
  (* acer *)
  match goal with |- context [put "nacer_in" _ ?s] => set (s4 := s) end.
  assert (exists s5 z, (if acer a then acers T_ACER (nlast s3) (ace a) (xsdir a) 0 (temps_of a) (put "nacer_in" (num (nlast s3)) s4) else Some s4) = Some s5 /\
    cmds s5 = y ++ z /\ whole z (flat_map (cards_of a) (if acer a then acer_calls (after_purr a) 0 (temps_of a) else [])) /\
    outs s5 = outs s3 ++ (if acer a then acer_files a (after_purr a) 0 (temps_of a) else [])) as (s5 & z & E5 & C5 & W5 & O5).
  { destruct (acer a).
    - rewrite N3. destruct (acers_some a (after_purr a) (temps_of a) 0 (put "nacer_in" (num (after_purr a)) s4) H) as (s5 & z & E5 & C5 & W5 & O5).
      + unfold put. cbn [env]. kept.
      + unfold put. cbn [env]. look.
      + apply (s_temps a H).
      + unfold put. cbn [outs s4]. rewrite O3, O2. eapply Forall_impl; [|exact B1]. intros p. cbv beta. rewrite N1. unfold after_purr, after_heat. lia.
      + exists s5, z. repeat (split; [easy|]). easy.
    - exists s4, []. cbn [cmds outs s4]. rewrite !app_nil_r. now repeat split. }
  rewrite E5. cbn [bind]. unfold say. cbn [cmds outs].
  exists (cmds s5 ++ str "stop" ++ [nl]). split.
  - apply whole_cards. rewrite C5, <- app_assoc. unfold calls. rewrite !flat_map_app.
    assert (whole (y ++ z ++ str "stop" ++ [nl])
      (flat_map (cards_of a) ([Reconr 21] ++ (if broadr a then [Broadr 21 22] else []) ++ (if errorr a then covariance_calls a else [])
      ++ (if heatr a then [Heatr 22 (after_cov a + 1)] else []) ++ (if purr a then [Purr (after_heat a) (after_heat a + 1)] else []))
      ++ flat_map (cards_of a) (if acer a then acer_calls (after_purr a) 0 (temps_of a) else []) ++ [c0 [w "stop"]])) as Q.
    { apply whole_app; [exact WY|]. apply whole_app; [exact W5|]. vm_compute. reflexivity. }
    rewrite !flat_map_app in Q. rewrite <- !app_assoc in *. exact Q.
  - destruct (Deck_Model.run a); [easy|]. rewrite O5, O3, O2, O1, O0. unfold files, cov_files. rewrite <- app_assoc. easy.
Qed.
(** When a run fails. *)
Lemma run_none a : sensible a ->
  (errorr a = true -> cov_energy_groups a = None -> make_njoy_run a = Njoy_Model.Raised Njoy_Model.NoGroups) /\
  (errorr a = true -> cov_energy_groups a <> None -> own_weights a = true -> user_flux_weight_vals a = None -> make_njoy_run a = Njoy_Model.Raised Njoy_Model.NoWeights) /\
  (errorr a = true -> cov_energy_groups a <> None -> (own_weights a = true -> user_flux_weight_vals a <> None) -> broadr a = false -> make_njoy_run a = Njoy_Model.Raised Njoy_Model.Unset) /\
  (errorr a = false -> heatr a = true -> broadr a = false -> make_njoy_run a = Njoy_Model.Raised Njoy_Model.Unset).
Proof.
  intros H. unfold make_njoy_run. rewrite broadened_eq. split; [|split; [|split]].
  - intros -> E. unfold covariances. now rewrite E.
  - intros -> E O W. unfold covariances. destruct (cov_energy_groups a); [|easy]. unfold own_weights in O. now rewrite O, W.
  - intros -> E O ->. unfold covariances. destruct (cov_energy_groups a) as [l|]; [|easy]. unfold own_weights in O.
    set (s1 := put "cov_ngroups" _ _).
    assert (exists s2, (if (iwt_fluxweight a =? 1)%Z then option_map (fun l => put "user_flux_weight" (flux_weight l) s1) (user_flux_weight_vals a) else Some s1) = Some s2 /\ env s2 (str "nbroadr") = None) as (s2 & -> & N2).
    { destruct (iwt_fluxweight a =? 1)%Z; [|now exists s1]. destruct (user_flux_weight_vals a) as [v|]; [|now elim (O eq_refl)].
      eexists. split; [reflexivity|]. unfold s1, put. cbn [env]. look. }
    destruct (s_temps a H) as [TN _]. destruct (temps_of a) as [|t ts]; [easy|]. cbn [each].
    assert (one_temperature a l t s2 = None) as ->; [|easy].
    unfold one_temperature, alias, put. cbn [env]. rewrite set_other by reflexivity. now rewrite N2.
  - intros -> -> ->. reflexivity.
Qed.
