(** Proofs about written files. *)
From Verif Require Import Num Text Chi_Model AceEdit_Model AceText_Model AceText_Spec AceText_Proofs Samp_Model Wr_Model Wr_Spec.
From Coq Require Import ZArith.
Local Open Scope list_scope.
Local Open Scope nat_scope.

(** ** Texts as words *)
Definition flat (ws : list text) : text := concat (map (fun w => w ++ [sp]) ws).
Lemma flat_cons w ws : flat (w :: ws) = w ++ sp :: flat ws.
Proof. unfold flat. cbn. now rewrite <- app_assoc. Qed.
Lemma flat_app a b : flat (a ++ b) = flat a ++ flat b.
Proof. unfold flat. now rewrite map_app, concat_app. Qed.
Lemma join_flat old : old <> [] -> forall b, join old ++ sp :: b = flat old ++ b.
Proof.
  induction old as [|o r IH]; [congruence|]. intros _ b. rewrite flat_cons. destruct r as [|o' r]; [cbn; now rewrite <- app_assoc|].
  change (join (o :: o' :: r)) with (o ++ sp :: join (o' :: r)). rewrite <- !app_assoc. cbn [app]. now rewrite (IH ltac:(discriminate)).
Qed.
Lemma words_flat ws : Forall word ws -> words (flat ws) = ws.
Proof.
  induction 1 as [|w r H _ IH]; [reflexivity|]. rewrite flat_cons, words_app_r by reflexivity. rewrite words_cons, is_space_sp, IH. now rewrite words_one.
Qed.
Definition spelled (s : text) (ws : list text) : Prop := Forall word ws /\
  exists lead tail, (lead = [] \/ lead = [sp]) /\ (tail = [] \/ tail = [sp]) /\ s ++ tail = lead ++ flat ws.
Lemma spelled_words s ws : spelled s ws -> words s = ws.
Proof.
  intros (F & lead & tail & L & T & E).
  assert (W : words (s ++ tail) = words s) by (destruct T as [->| ->]; [now rewrite app_nil_r | rewrite words_app_r by reflexivity; cbn; now rewrite app_nil_r]).
  rewrite <- W, E. destruct L as [->| ->]; cbn [app]; [|rewrite words_cons, is_space_sp]; now apply words_flat.
Qed.
(** Squeezed text. *)
Fixpoint neat (s : text) : Prop := match s with [] => True | c :: r => (c = sp -> hd_error r <> Some sp) /\ neat r end.
Lemma hd_squeeze s : hd_error (squeeze s) = hd_error s.
Proof.
  induction s as [|c r IH]; [reflexivity|]. cbn [squeeze]. destruct r as [|d r'].
  - rewrite andb_false_r. reflexivity.
  - destruct (eqc c sp) eqn:E1; cbn [andb]; [|reflexivity]. destruct (eqc d sp) eqn:E2; [|reflexivity].
    rewrite IH. apply eqc_eq in E1, E2. cbn. congruence.
Qed.
Lemma neat_squeeze s : neat (squeeze s).
Proof.
  induction s as [|c r IH]; [exact I|]. cbn [squeeze]. destruct r as [|d r'].
  - rewrite andb_false_r. cbn. split; [discriminate | exact I].
  - destruct (eqc c sp && eqc d sp) eqn:E; [exact IH|]. cbn [neat]. split; [|exact IH].
    intros ->. rewrite hd_squeeze. cbn. intros [= ->]. rewrite eqc_refl in E. discriminate.
Qed.
Lemma in_squeeze s c : In c (squeeze s) -> In c s.
Proof.
  induction s as [|a r IH]; [auto|]. cbn [squeeze]. destruct r as [|d r'].
  - rewrite andb_false_r. auto.
  - destruct (eqc a sp && eqc d sp); [intros H; right; auto|]. intros [<-|H]; [now left | right; auto].
Qed.
Lemma neat_flat s : neat s -> (forall c, In c s -> is_space c = true -> c = sp) ->
  exists tail, (tail = [] \/ tail = [sp]) /\
    s ++ tail = (match s with c :: _ => if is_space c then [sp] else [] | [] => [] end) ++ flat (words s).
Proof.
  induction s as [|c r IH]; [intros _ _; exists []; split; [now left | reflexivity]|].
  intros [N1 N2] B. destruct (IH N2 ltac:(intros; apply B; [now right | auto])) as (tail & T & E).
  cbn [words]. destruct (is_space c) eqn:S1.
  - exists tail. split; [exact T|]. assert (C : c = sp) by (apply B; [now left | exact S1]). subst c. cbn [app]. f_equal.
    rewrite E. destruct r as [|d r']; [reflexivity|]. destruct (is_space d) eqn:S2; [|reflexivity].
    exfalso. apply N1; [reflexivity|]. cbn. f_equal. apply B; [right; now left | exact S2].
  - destruct r as [|d r'].
    + exists [sp]. split; [now right | reflexivity].
    + cbn [head_space]. exists tail. split; [exact T|]. destruct (is_space d) eqn:S2.
      * cbn [app]. rewrite flat_cons. cbn [app]. f_equal. cbn [app] in E. exact E.
      * cbn [app] in E |- *. rewrite E. pose proof (words_nonnil (d :: r') S2) as W. destruct (words (d :: r')) as [|w ws]; [congruence|]. cbn [cons_head]. now rewrite !flat_cons.
Qed.
Lemma read_spelled f w : blanks_only f -> read_ace f = Some w -> spelled (single w) (words (single w)).
Proof.
  intros B R. split; [apply words_Forall|]. unfold read_ace in R. destruct (header_count (lines f)) as [n|]; [|discriminate]. injection R as <-. cbn [single].
  set (u := concat (map nl2sp (skipn n (lines f)))).
  assert (U : forall c, In c u -> is_space c = true -> c = sp).
  { unfold u. rewrite concat_nl2sp. intros c H S1. unfold nl2sp in H. apply in_map_iff in H as (d & E & H). destruct (eqc d nl) eqn:D; [congruence|]. subst d.
    assert (I : In c f). { rewrite <- (concat_lines f). rewrite <- (firstn_skipn n (lines f)), concat_app. apply in_or_app. now right. }
    destruct (B c I S1) as [->| ->]; [reflexivity | now rewrite eqc_refl in D]. }
  destruct (neat_flat (squeeze u) (neat_squeeze u)) as (tail & T & E); [intros c H; apply U; now apply in_squeeze|].
  eexists _, tail. split; [|split; [exact T | exact E]]. destruct (squeeze u) as [|c r]; [now left|]. destruct (is_space c); auto.
Qed.

(** ** Where blocks are met *)
Lemma split_at a b x y : (forall c, In c a -> is_space c = false) -> (forall c, In c b -> is_space c = false) -> a ++ sp :: x = b ++ sp :: y -> a = b /\ x = y.
Proof.
  revert b. induction a as [|c a IH]; intros [|d b] A B E; cbn in E.
  - injection E as ->. auto.
  - injection E as <- _. specialize (B sp (or_introl eq_refl)). discriminate.
  - injection E as -> _. specialize (A sp (or_introl eq_refl)). discriminate.
  - injection E as <- E. destruct (IH b ltac:(intros; apply A; now right) ltac:(intros; apply B; now right) E) as [-> ->]. auto.
Qed.
Lemma prefix_word o c w x : (forall d, In d o -> is_space d = false) -> o ++ c = w ++ sp :: x -> exists s, w = o ++ s /\ c = s ++ sp :: x.
Proof.
  revert w. induction o as [|d o IH]; intros w O E; [now exists w|]. destruct w as [|e w]; cbn in E.
  - injection E as -> _. specialize (O sp (or_introl eq_refl)). discriminate.
  - injection E as <- E. destruct (IH w ltac:(intros; apply O; now right) E) as (s & -> & ->). now exists s.
Qed.
Lemma block_front old : old <> [] -> Forall word old -> forall ws b, Forall word ws -> (forall x c, In x ws -> x = last old [] ++ c -> c = []) ->
  flat ws = join old ++ b -> exists ws2, ws = old ++ ws2 /\ b = sp :: flat ws2.
Proof.
  induction old as [|o r IH]; [congruence|]. intros _ FO ws b FW LA E. inversion FO as [|? ? WO FR]; subst.
  destruct ws as [|w ws].
  { exfalso. symmetry in E. apply app_eq_nil in E as [E _]. destruct WO as [N _]. destruct o; [congruence|]. destruct r; discriminate. }
  inversion FW as [|? ? WW FW']; subst. rewrite flat_cons in E. destruct r as [|o' r].
  - cbn [join] in E. symmetry in E. apply prefix_word in E as (s & -> & ->); [|apply WO]. cbn [last] in LA.
    assert (s = []) by (apply (LA (o ++ s) s); [now left | reflexivity]). subst s. exists ws. rewrite app_nil_r. auto.
  - change (join (o :: o' :: r)) with (o ++ sp :: join (o' :: r)) in E. rewrite <- app_assoc in E. cbn [app] in E.
    apply split_at in E as [-> E]; [|apply WW | apply WO].
    destruct (IH ltac:(discriminate) FR ws b FW' ltac:(intros x c I1 X; apply (LA x c); [now right | exact X]) E) as (ws2 & -> & ->). now exists ws2.
Qed.
Lemma block_met_flat old ws a b : old <> [] -> Forall word old -> Forall word ws -> fenced old ws -> flat ws = a ++ join old ++ b ->
  exists ws1 ws2, ws = ws1 ++ old ++ ws2 /\ a = flat ws1 /\ b = sp :: flat ws2.
Proof.
  intros NE FO. revert a. induction ws as [|w ws IH]; intros a FW FE E.
  { exfalso. symmetry in E. apply app_eq_nil in E as [_ E]. apply app_eq_nil in E as [E _]. destruct old as [|o r]; [congruence|]. inversion FO as [|? ? [N _] _]; subst. destruct o; [congruence|]. destruct r; discriminate. }
  inversion FW as [|? ? WW FW']; subst. rewrite flat_cons in E.
  assert (D : (exists a', a = w ++ sp :: a') \/ (exists s, w = a ++ s)).
  { clear - E. revert a E. generalize (join old ++ b) as z. generalize (flat ws) as y. induction w as [|c w IH]; intros y z a E.
    - destruct a as [|d a]; [right; now exists []|]. cbn in E. injection E as <- _. left. now exists a.
    - destruct a as [|d a]; [right; now exists (c :: w)|]. cbn in E. injection E as <- E. destruct (IH _ _ _ E) as [[a' ->]|[s ->]]; [left; now exists a' | right; now exists s]. }
  destruct D as [[a' ->]|[s ->]].
  - rewrite <- app_assoc in E. cbn [app] in E. apply app_inv_head in E. injection E as E.
    destruct (IH a' FW' ltac:(intros x I1; apply FE; now right) E) as (ws1 & ws2 & -> & -> & ->). exists (w :: ws1), ws2. split; [reflexivity|]. split; [now rewrite flat_cons | reflexivity].
  - rewrite <- app_assoc in E. apply app_inv_head in E.
    destruct old as [|o r]; [congruence|]. inversion FO as [|? ? WO FR]; subst.
    assert (J : exists c, join (o :: r) ++ b = o ++ c /\ (r <> [] -> exists c', c = sp :: c')).
    { destruct r as [|o' r]; [exists b; split; [reflexivity | congruence]|]. exists (sp :: join (o' :: r) ++ b). split; [change (join (o :: o' :: r)) with (o ++ sp :: join (o' :: r)); now rewrite <- app_assoc | intros _; now eexists]. }
    destruct J as (c & Ec & RC). rewrite Ec in E. symmetry in E. pose proof E as E'. apply prefix_word in E as (s' & -> & C); [|apply WO].
    destruct (FE (a ++ o ++ s') (or_introl eq_refl)) as (F1 & F2 & F3).
    assert (S0 : s' = []).
    { destruct s' as [|d s']; [reflexivity|]. exfalso. destruct r as [|o' r].
      - destruct (F3 o a (d :: s') eq_refl eq_refl) as [_ X]. discriminate.
      - destruct (RC ltac:(discriminate)) as [c' ->]. cbn in C. injection C as <- _. destruct WW as [_ WW]. assert (X : is_space sp = false) by (apply WW; apply in_or_app; right; apply in_or_app; right; now left). discriminate. }
    subst s'. rewrite app_nil_r in *. assert (a = []) by (apply F1; reflexivity). subst a.
    destruct (block_front (o :: r) ltac:(discriminate) FO (o :: ws) b FW) as (ws2 & W2 & ->).
    + intros x c0 I1 X. now apply (FE x I1).
    + rewrite flat_cons, Ec. symmetry. exact E'.
    + exists [], ws2. auto.
Qed.
Lemma block_met lead old ws a b : (lead = [] \/ lead = [sp]) -> old <> [] -> Forall word old -> Forall word ws -> fenced old ws -> lead ++ flat ws = a ++ join old ++ b ->
  exists ws1 ws2, ws = ws1 ++ old ++ ws2 /\ a = lead ++ flat ws1 /\ b = sp :: flat ws2.
Proof.
  intros [->| ->] NE FO FW FE E; cbn [app] in *; [now apply block_met_flat|].
  destruct a as [|c a].
  - exfalso. destruct old as [|o r]; [congruence|]. inversion FO as [|? ? [N W] _]; subst. destruct o as [|c o]; [congruence|].
    assert (X : exists z, join ((c :: o) :: r) ++ b = c :: z) by (destruct r; cbn; eexists; reflexivity). destruct X as [z X]. change (sp :: flat ws = join ((c :: o) :: r) ++ b) in E. rewrite X in E. injection E as <- _.
    specialize (W sp (or_introl eq_refl)). discriminate.
  - cbn in E. injection E as <- E. destruct (block_met_flat old ws a b NE FO FW FE E) as (ws1 & ws2 & -> & -> & ->). exists ws1, ws2. auto.
Qed.

(** ** One replacement *)
Lemma flat_length_le a b : length a <= length b -> (exists c, b = a ++ c) -> length (flat a) <= length (flat b).
Proof. intros _ [c ->]. rewrite flat_app, app_length. lia. Qed.
Lemma app_lt {A} (a b x y : list A) : a ++ x = b ++ y -> length a <= length b -> exists z, b = a ++ z /\ x = z ++ y.
Proof.
  revert b. induction a as [|c a IH]; intros b E L; [now exists b|]. destruct b as [|d b]; [cbn in L; lia|]. cbn in E. injection E as <- E.
  destruct (IH b E ltac:(cbn in L; lia)) as (z & -> & ->). now exists z.
Qed.
Lemma held_len ws i b : held ws i b -> exists l r, ws = l ++ b ++ r /\ length l = i /\ firstn i ws = l /\ forall k, k = i + length b -> skipn k ws = r.
Proof.
  intros (l & r & -> & <-). exists l, r. split; [reflexivity|]. split; [reflexivity|]. split; [now rewrite firstn_app, Nat.sub_diag, firstn_O, app_nil_r, firstn_all|].
  intros k ->. rewrite app_assoc, <- app_length. now rewrite skipn_app, Nat.sub_diag, skipn_O, skipn_all.
Qed.
Lemma word_nonnil_join old : old <> [] -> Forall word old -> join old <> [].
Proof. intros N F. destruct F as [|o r [W _] _]; [congruence|]. destruct o; [congruence|]. destruct r; discriminate. Qed.
Lemma replace_home (fmt : Qc -> text) w arr new ws b : (forall v, word (fmt v)) -> spelled (single w) ws -> at_home ws b ->
  b_old b = map fmt arr -> b_new b = map fmt new ->
  match b_at b with
  | Some _ => exists w', replace_array fmt w arr new (if b_all b then 9999 else 1)%Z = Done w' /\ header w' = header w /\ spelled (single w') (put ws b)
  | None => replace_array fmt w arr new (if b_all b then 9999 else 1)%Z = NotFound /\ put ws b = ws
  end.
Proof.
  intros FM SP (NE & LN & FE & H) EO EN.
  assert (FO : Forall word (b_old b)) by (rewrite EO; apply Forall_map, Forall_forall; auto).
  assert (FN : Forall word (b_new b)) by (rewrite EN; apply Forall_map, Forall_forall; auto).
  assert (LL : length arr = length new) by (rewrite EO, EN, !map_length in LN; lia).
  destruct SP as (FW & lead & tail & LE & TA & E).
  assert (MET : forall a c, single w = a ++ join (b_old b) ++ c -> exists ws1 ws2, ws = ws1 ++ b_old b ++ ws2 /\ a = lead ++ flat ws1 /\ c ++ tail = sp :: flat ws2).
  { intros a c X. apply (block_met lead); auto. rewrite <- E, X, <- !app_assoc. reflexivity. }
  assert (FJ : format_mcnp fmt arr = join (b_old b)) by (rewrite EO; reflexivity).
  set (count := (if b_all b then 9999 else 1)%Z).
  assert (CK : forall X : nat, (if Z.ltb count 0 then X else Z.to_nat count) = if b_all b then Z.to_nat 9999 else 1) by (intros X; unfold count; destruct (b_all b); reflexivity).
  destruct (replace_fails fmt w arr new count) as [RF1 RF2]. unfold put.
  destruct (b_at b) as [i|].
  - destruct H as [HE UN].
    destruct (replace_array fmt w arr new count) as [| |w'] eqn:R.
    + exfalso. now apply RF1.
    + exfalso. destruct RF2 as [RF2 _]. destruct (RF2 eq_refl) as [_ NC]. apply NC. destruct HE as (l & r & WS & _). rewrite FJ.
      (* the block at its place is met in the text *)
      destruct TA as [->| ->].
      * rewrite app_nil_r in E. exists (lead ++ flat l), (sp :: flat r). rewrite E, WS, !flat_app, (join_flat _ NE), <- app_assoc. reflexivity.
      * exists (lead ++ flat l), (removelast (sp :: flat r)).
        assert (X : single w ++ [sp] = (lead ++ flat l) ++ join (b_old b) ++ sp :: flat r) by (rewrite E, WS, !flat_app, (join_flat _ NE), <- !app_assoc; reflexivity).
        rewrite (app_removelast_last sp (l := sp :: flat r)) in X by discriminate. rewrite !app_assoc in X. apply app_inj_tail in X as [-> _]. now rewrite <- !app_assoc.
    + exists w'. split; [reflexivity|].
      assert (NJ : format_mcnp fmt arr <> []) by (rewrite FJ; now apply word_nonnil_join).
      destruct (replace_spec fmt w arr new count w' NJ R) as (HD & _ & ps & lst & W1 & W2 & K1 & K2 & LM & _). cbv zeta in *. rewrite CK in *.
      split; [exact HD|]. rewrite FJ in *.
      assert (FJ2 : format_mcnp fmt new = join (b_new b)) by (rewrite EN; reflexivity). rewrite FJ2 in *.
      destruct ps as [|p ps]; [destruct (b_all b); cbn in K2; specialize (K2 ltac:(lia)); lia|]. cbn [weave] in W1, W2.
      destruct (MET p _ W1) as (ws1 & ws2 & WS & P & T2).
      (* its first occurrence is at its place *)
      destruct (held_len _ _ _ HE) as (l & r & WS' & LI & FI & SK).
      assert (LE1 : i <= length ws1).
      { assert (HX : held ws (length ws1) (b_old b)) by (exists ws1, ws2; auto). specialize (UN _ HX). destruct (b_all b); lia. }
      assert (LE2 : length ws1 = i).
      { destruct (Nat.eq_dec (length ws1) i) as [|NQ]; [assumption|]. exfalso.
        assert (LT : length l < length ws1) by lia. inversion LM as [|? ? L1 _]; subst p.
        pose proof WS as Q. rewrite WS' in Q. destruct (app_lt l ws1 _ _ Q ltac:(lia)) as (z & Z1 & Z2).
        assert (TX : (lead ++ flat l) ++ join (b_old b) ++ sp :: flat r = (lead ++ flat ws1) ++ join (b_old b) ++ sp :: flat ws2).
        { rewrite !(join_flat _ NE), <- !app_assoc. f_equal. rewrite <- !flat_app. f_equal. congruence. }
        rewrite (app_assoc (lead ++ flat l)), (app_assoc (lead ++ flat ws1)) in TX.
        assert (ZP : 0 < length (flat z)). { destruct z as [|z0 z]; [rewrite app_nil_r in Z1; subst ws1; lia|]. rewrite flat_cons, app_length. cbn. lia. }
        destruct (app_lt _ _ _ _ TX) as (y & Y1 & Y2). { rewrite Z1, flat_app, !app_length. lia. }
        rewrite <- (app_assoc (lead ++ flat l)) in Y1. pose proof (L1 _ _ Y1) as Y0. subst y. apply (f_equal (@length _)) in Y1. rewrite Z1, flat_app, !app_length in Y1. cbn in Y1. lia. }
      assert (LW : l = ws1 /\ r = ws2).
      { rewrite WS in WS'. destruct (app_lt ws1 l _ _ WS' ltac:(lia)) as (z & Z1 & Z2). assert (z = []) by (apply (f_equal (@length _)) in Z1; rewrite app_length in Z1; destruct z; [reflexivity | cbn in Z1; lia]). subst z.
        rewrite app_nil_r in Z1. cbn in Z2. apply app_inv_head in Z2. auto. }
      destruct LW as [-> ->]. 
      assert (ONE : ps = []).
      { destruct ps as [|q ps]; [reflexivity|]. exfalso. cbn [weave length] in *. destruct (b_all b) eqn:BA; [|lia].
        rewrite (app_assoc p), (app_assoc (p ++ _)) in W1. destruct (MET _ _ W1) as (v1 & v2 & V & VP & _).
        assert (HV : held ws (length v1) (b_old b)) by (exists v1, v2; auto). apply UN in HV.
        assert (v1 = ws1).
        { rewrite WS in V. destruct (app_lt ws1 v1 _ _ V ltac:(lia)) as (z & Z1 & _). assert (z = []) by (apply (f_equal (@length _)) in Z1; rewrite app_length in Z1; destruct z; [reflexivity | cbn in Z1; lia]). subst z. now rewrite app_nil_r in Z1. }
        subst v1. rewrite <- P in VP. apply (f_equal (@length _)) in VP. rewrite !app_length in VP.
        assert (length (join (b_old b)) > 0) by (pose proof (word_nonnil_join _ NE FO); destruct (join (b_old b)); [congruence | cbn; lia]). lia. }
      subst ps. cbn [weave] in W1, W2, T2. rewrite FI, (SK (i + length (b_new b)) ltac:(lia)).
      split. { rewrite WS in FW. apply Forall_app in FW as [F1 FW]. apply Forall_app in FW as [_ F2]. apply Forall_app; split; [exact F1|]. now apply Forall_app. }
      exists lead, tail. split; [exact LE|]. split; [exact TA|]. rewrite W2, P, <- !app_assoc. f_equal. rewrite !flat_app. f_equal.
      rewrite T2. apply join_flat. intros Q. rewrite Q in LN. destruct (b_old b); [congruence | discriminate].
  - split; [|reflexivity]. apply RF2. split; [exact LL|]. rewrite FJ. intros (a & c & X). destruct (MET a c X) as (ws1 & ws2 & -> & _). apply (H (length ws1)). exists ws1, ws2. auto.
Qed.

(** ** One reaction, all reactions *)
Lemma in_turn_app a b ws : in_turn ws (a ++ b) <-> in_turn ws a /\ in_turn (rewritten ws a) b.
Proof. revert ws. induction a as [|x a IH]; intros ws; cbn; [tauto|]. rewrite IH. unfold rewritten. cbn. tauto. Qed.
Lemma rewritten_app a b ws : rewritten ws (a ++ b) = rewritten (rewritten ws a) b.
Proof. apply fold_left_app. Qed.
Lemma replace_pairs_home (fmt : Qc -> text) m ps bs : (forall v, word (fmt v)) ->
  Forall2 (fun p b => b_old b = map fmt (fst p) /\ b_new b = map fmt (snd p) /\ (b_all b = true <-> m = 452%Z)) ps bs ->
  forall w ws, spelled (single w) ws -> in_turn ws (upto bs) ->
  exists w' ok, replace_pairs fmt w ps (max_replaces m) = Some (w', ok) /\ header w' = header w /\ spelled (single w') (rewritten ws (upto bs)).
Proof.
  intros FM F. induction F as [|[b d] bl ps bs (E1 & E2 & E3) _ IH]; intros w ws SP T.
  { exists w, true. auto. }
  cbn [upto in_turn] in T. destruct T as [H T]. pose proof (replace_home fmt w b d ws bl FM SP H E1 E2) as R.
  assert (MX : max_replaces m = (if b_all bl then 9999 else 1)%Z).
  { unfold max_replaces. destruct (Z.eqb_spec m 452) as [E|E]; destruct (b_all bl); try reflexivity; exfalso; intuition congruence. }
  cbn [replace_pairs upto]. rewrite MX. unfold rewritten. cbn [fold_left]. destruct (b_at bl) as [i|] eqn:BA.
  - destruct R as (w1 & -> & HD & SP1). rewrite <- MX. destruct (IH w1 (put ws bl) SP1 T) as (w' & ok & R & HD' & SP'). exists w', ok. rewrite R, HD', HD. auto.
  - destruct R as [-> P]. rewrite P. exists w, false. auto.
Qed.
Lemma combine_nth {A B} (qs : list (A * B)) a b : length a = length b -> length qs = length a ->
  (forall i x y, nth_error a i = Some x -> nth_error b i = Some y -> nth_error qs i = Some (x, y)) -> qs = combine a b.
Proof.
  revert b qs. induction a as [|x a IH]; intros [|y b] [|q qs] L1 L2 H; try discriminate; [reflexivity|]. cbn.
  specialize (H 0 x y eq_refl eq_refl) as H0. cbn in H0. injection H0 as ->. f_equal. apply IH; [now injection L1 | now injection L2|]. intros i u v U V. apply (H (S i)); assumption.
Qed.
Lemma nth_error_map_inv {A B} (f : A -> B) l i y : nth_error (map f l) i = Some y -> exists x, nth_error l i = Some x /\ y = f x.
Proof. rewrite nth_error_map. destruct (nth_error l i) as [x|]; [|discriminate]. cbn. intros [= <-]. now exists x. Qed.
Lemma pairs_arrays t s m ps : arrays t s m ps -> pairs t s m = Some ps.
Proof.
  unfold pairs. intros [(N & b & d & E1 & E2 & ->)|(-> & I & b & d & E1 & E2 & L & qs & cs & -> & LQ & LC & H)].
  - destruct (Z.eqb_spec m 1018); [contradiction|]. now rewrite E1, E2.
  - rewrite Z.eqb_refl. assert (M : mem 18 (all_mts s) = true) by (apply existsb_exists; exists 18%Z; split; [exact I | reflexivity]). rewrite M, E1, E2. do 2 f_equal.
    + symmetry. apply combine_nth; rewrite ?map_length; auto. intros i x y X Y. apply nth_error_map_inv in X as (u & U & ->). apply nth_error_map_inv in Y as (v & V & ->). now apply (H i u v).
    + symmetry. apply combine_nth; rewrite ?map_length; auto. intros i x y X Y. apply nth_error_map_inv in X as (u & U & ->). apply nth_error_map_inv in Y as (v & V & ->). now apply (H i u v).
Qed.
Lemma write_mts_home (fmt : Qc -> text) t s ms bss : (forall v, word (fmt v)) -> Forall2 (blocks fmt t s) ms bss ->
  forall w ws, spelled (single w) ws -> in_turn ws (concat (map upto bss)) ->
  exists w', write_mts fmt t s w ms = Some w' /\ header w' = header w /\ spelled (single w') (rewritten ws (concat (map upto bss))).
Proof.
  intros FM F. induction F as [|m bs ms bss (ps & A & P) _ IH]; intros w ws SP T.
  { exists w. auto. }
  cbn [map concat] in T |- *. apply in_turn_app in T as [T1 T2]. destruct (replace_pairs_home fmt m ps bs FM P w ws SP T1) as (w1 & ok & R & HD & SP1).
  cbn [write_mts]. rewrite (pairs_arrays _ _ _ _ A), R. destruct (IH w1 _ SP1 T2) as (w' & W & HD' & SP'). exists w'. rewrite W, HD', HD, rewritten_app. auto.
Qed.

(** ** Reading the written file *)
Lemma reread_any f n w : header_count (lines f) = Some n -> n < length (lines f) -> header w = firstn n (lines f) ->
  exists w', read_ace (write_ace w) = Some w' /\ header w' = header w /\ words (single w') = words (body 0 (words (single w))).
Proof.
  intros Hn Hl Hh.
  assert (He : Forall ended (header w)) by (rewrite Hh; now apply lines_ended_firstn).
  assert (Hlen : length (header w) = n) by (rewrite Hh; apply firstn_length_le; lia).
  assert (Hc : header_count (header w ++ lines (body 0 (words (single w)))) = Some n).
  { rewrite Hh. destruct (lines f) as [|l ls]; [cbn in Hl; lia|].
    assert (n <> 0). { unfold header_count in Hn. destruct (words l) as [|w0 ?]; [discriminate|].
      destruct (nth_error w0 1) as [c|]; [|discriminate]. destruct (eqc c _); injection Hn as <-; discriminate. }
    destruct n as [|n]; [congruence|]. cbn [firstn app]. rewrite <- Hn. apply header_count_eq. }
  unfold read_ace, write_ace. rewrite lines_ended_all by exact He. rewrite Hc.
  eexists. split; [reflexivity|]. cbn [header single]. rewrite <- Hlen at 1.
  rewrite firstn_app, Nat.sub_diag, firstn_O, app_nil_r, firstn_all. split; [reflexivity|].
  rewrite words_squeeze, concat_nl2sp, words_nl2sp. rewrite <- Hlen.
  rewrite skipn_app, Nat.sub_diag, skipn_all, skipn_O. cbn [app]. now rewrite concat_lines.
Qed.
Lemma put_short (P : text -> Prop) ws b : Forall P ws -> Forall P (b_new b) -> Forall P (put ws b).
Proof.
  intros H1 H2. unfold put. destruct (b_at b); [|exact H1]. apply Forall_app. split; [|apply Forall_app; split; [exact H2|]].
  - rewrite <- (firstn_skipn n ws) in H1. now apply Forall_app in H1.
  - rewrite <- (firstn_skipn (n + length (b_new b)) ws) in H1. now apply Forall_app in H1.
Qed.
Lemma rewritten_short (P : text -> Prop) bs : (forall b, In b bs -> Forall P (b_new b)) -> forall ws, Forall P ws -> Forall P (rewritten ws bs).
Proof.
  induction bs as [|b bs IH]; intros H ws W; [exact W|]. unfold rewritten. cbn [fold_left]. apply IH; [intros c I; apply H; now right|]. apply put_short; [exact W | apply H; now left].
Qed.
Lemma upto_in b bs : In b (upto bs) -> In b bs.
Proof. induction bs as [|c bs IH]; [auto|]. cbn. intros [->|H]; [now left|]. destruct (b_at c); [right; auto | destruct H]. Qed.
Lemma Forall2_in_r {A B} (P : A -> B -> Prop) l r y : Forall2 P l r -> In y r -> exists x, In x l /\ P x y.
Proof. induction 1 as [|a b l r H _ IH]; intros I; [destruct I|]. destruct I as [<-|I]; [exists a; split; [now left | exact H]|]. destruct (IH I) as (x & X & Q). exists x. split; [now right | exact Q]. Qed.
Lemma write_home (fmt : Qc -> text) t s f n bss : (forall v, e11 (fmt v)) -> blanks_only f -> header_count (lines f) = Some n -> n < length (lines f) ->
  Forall2 (blocks fmt t s) (sorted (adjusted s)) bss -> in_turn (data_words n f) (concat (map upto bss)) -> Forall (fun x => length x < 20) (data_words n f) ->
  exists out w', write_one fmt t s f = Some out /\ read_ace out = Some w' /\ header w' = firstn n (lines f) /\ words (single w') = rewritten (data_words n f) (concat (map upto bss)).
Proof.
  intros E11 BO HC HL F T SH. assert (FM : forall v, word (fmt v)) by (intros v; apply e11_word, E11).
  assert (R : exists w, read_ace f = Some w) by (unfold read_ace; rewrite HC; eexists; reflexivity). destruct R as [w R].
  destruct (read_words f w n R HC) as [RW RH]. pose proof (read_spelled f w BO R) as SP. rewrite RW in SP. fold (data_words n f) in SP.
  destruct (write_mts_home fmt t s _ bss FM F w _ SP T) as (w1 & W1 & HD & SP1).
  destruct (reread_any f n w1 HC HL ltac:(congruence)) as (w' & R' & HD' & RW').
  exists (write_ace w1), w'. unfold write_one. rewrite R, W1. split; [reflexivity|]. split; [exact R'|]. split; [congruence|].
  rewrite RW', (spelled_words _ _ SP1). apply body_iff; [apply SP1|]. apply room_Forall. apply rewritten_short; [|exact SH].
  intros b I. apply in_concat in I as (l & I & IB). apply in_map_iff in I as (bs & <- & I). apply upto_in in IB. destruct (Forall2_in_r _ _ _ _ F I) as (m & _ & ps & _ & P).
  destruct (Forall2_in_r _ _ _ _ P IB) as (p & _ & _ & -> & _). apply Forall_map, Forall_forall. intros v _. destruct (e11_word _ (E11 v)). lia.
Qed.

(** ** What rewriting does *)
Lemma put_nth ws b j : at_home ws b -> nth_error (put ws b) j = if match b_at b with Some i => (i <=? j) && (j <? i + length (b_old b)) | None => false end then nth_error (b_new b) (j - match b_at b with Some i => i | None => 0 end) else nth_error ws j.
Proof.
  intros (_ & L & _ & H). unfold put. destruct (b_at b) as [i|]; [|reflexivity]. destruct H as [H _]. apply held_len in H as (l & r & WS & <- & -> & SK). rewrite (SK (length l + length (b_new b))) by lia. rewrite WS.
  destruct (Nat.leb_spec (length l) j) as [G|G]; cbn [andb].
  - rewrite (nth_error_app2 l (b_new b ++ r)) by lia. destruct (Nat.ltb_spec j (length l + length (b_old b))) as [K|K].
    + now rewrite nth_error_app1 by lia.
    + rewrite (nth_error_app2 (b_new b)) by lia. rewrite (nth_error_app2 l) by lia. rewrite (nth_error_app2 (b_old b)) by lia. now rewrite L.
  - now rewrite !nth_error_app1 by lia.
Qed.
Lemma put_length ws b : at_home ws b -> length (put ws b) = length ws.
Proof.
  intros (_ & L & _ & H). unfold put. destruct (b_at b) as [i|]; [|reflexivity]. destruct H as [H _]. apply held_len in H as (l & r & WS & <- & -> & SK). rewrite (SK (length l + length (b_new b))) by lia. rewrite WS. rewrite !app_length. lia.
Qed.
Lemma rewritten_nth bs : forall ws j, in_turn ws bs -> (forall b, In b bs -> ~ inside b j) -> nth_error (rewritten ws bs) j = nth_error ws j.
Proof.
  induction bs as [|b bs IH]; intros ws j T N; [reflexivity|]. cbn [in_turn] in T. destruct T as [H T]. unfold rewritten. cbn [fold_left]. fold (rewritten (put ws b) bs).
  rewrite IH; [|exact T | intros c I; apply N; now right]. rewrite put_nth by exact H. specialize (N b (or_introl eq_refl)). unfold inside in N. destruct (b_at b) as [i|]; [|reflexivity].
  destruct (Nat.leb_spec i j), (Nat.ltb_spec j (i + length (b_old b))); cbn [andb]; try reflexivity. lia.
Qed.
Lemma rewritten_length bs : forall ws, in_turn ws bs -> length (rewritten ws bs) = length ws.
Proof. induction bs as [|b bs IH]; intros ws T; [reflexivity|]. cbn [in_turn] in T. destruct T as [H T]. unfold rewritten. cbn [fold_left]. fold (rewritten (put ws b) bs). rewrite IH by exact T. now apply put_length. Qed.
Lemma skipn_twice {A} (l : list A) : forall i j, skipn j (skipn i l) = skipn (i + j) l.
Proof. induction l as [|a l IH]; intros [|i] j; cbn; [now destruct j | now destruct j | reflexivity | apply IH]. Qed.
Lemma held_nth ws i b : (forall j, j < length b -> nth_error ws (i + j) = nth_error b j) -> i + length b <= length ws -> held ws i b.
Proof.
  intros H L. exists (firstn i ws), (skipn (i + length b) ws). split; [|apply firstn_length_le; lia].
  rewrite <- (firstn_skipn i ws) at 1. f_equal. rewrite <- (firstn_skipn (length b) (skipn i ws)) at 1. rewrite skipn_twice. f_equal.
  assert (K : length (firstn (length b) (skipn i ws)) = length b) by (rewrite firstn_length_le; [reflexivity | rewrite skipn_length; lia]).
  assert (X : forall j, nth_error (firstn (length b) (skipn i ws)) j = nth_error b j).
  { intros j. destruct (Nat.lt_ge_cases j (length b)) as [J|J].
    - rewrite <- (H j J). rewrite <- (firstn_skipn i ws) at 2. rewrite nth_error_app2 by (rewrite firstn_length_le; lia). rewrite firstn_length_le by lia. replace (i + j - i) with j by lia.
      rewrite <- (firstn_skipn (length b) (skipn i ws)) at 2. now rewrite nth_error_app1 by lia.
    - rewrite (proj2 (nth_error_None _ _)) by lia. symmetry. now apply nth_error_None. }
  clear - X. revert X. generalize (firstn (length b) (skipn i ws)) as a. induction b as [|y b IH]; intros [|x a] X.
  - reflexivity.
  - specialize (X 0). discriminate.
  - specialize (X 0). discriminate.
  - pose proof (X 0) as X0. cbn in X0. injection X0 as ->. f_equal. apply IH. intros j. apply (X (S j)).
Qed.
Lemma rewritten_block bs ws b i : in_turn ws bs -> ForallOrdPairs apart bs -> In b bs -> b_at b = Some i -> held (rewritten ws bs) i (b_new b).
Proof.
  intros T A I B. apply in_split in I as (l & r & ->). rewrite in_turn_app in T. destruct T as [T1 [H T2]]. rewrite rewritten_app. unfold rewritten at 1. cbn [fold_left]. fold (rewritten (put (rewritten ws l) b) r).
  pose proof H as (_ & LN & _ & HH). rewrite B in HH. destruct HH as [(l0 & r0 & WS & L0) _].
  apply held_nth.
  - intros j J. rewrite rewritten_nth; [|exact T2|].
    + rewrite put_nth by exact H. rewrite B. destruct (Nat.leb_spec i (i + j)); [|lia]. destruct (Nat.ltb_spec (i + j) (i + length (b_old b))); [|lia]. cbn [andb]. f_equal. lia.
    + intros c IC. assert (AP : apart b c). { clear - A IC. induction l as [|x l IH]; cbn in A; inversion A; subst; [|auto]. rewrite Forall_forall in *. auto. }
      intros IN. apply (AP (i + j)). split; [|exact IN]. unfold inside. rewrite B. lia.
  - rewrite rewritten_length by exact T2. rewrite put_length by exact H. rewrite WS, !app_length. lia.
Qed.

(** ** Sampled files *)
From Verif Require Import AceEdit_Spec Samp_Spec.
From Coq Require Import Permutation Sorted.
Definition quiet (t : table) (s : editor) : Prop :=
  NoDup (adjusted s) /\ forall m, ~ In m (adjusted s) -> m <> 1018%Z -> get_sigma s m None false = get_sigma (open_editor t) m None false.
Lemma mem_In m l : mem m l = true <-> In m l.
Proof. unfold mem. rewrite existsb_exists. split; [intros (x & I & E); apply Z.eqb_eq in E; now subst | intros I; exists m; split; [exact I | apply Z.eqb_refl]]. Qed.
Lemma set_add_in k l m : In m (set_add k l) <-> m = k \/ In m l.
Proof.
  unfold set_add. destruct (mem k l) eqn:E; [apply mem_In in E; split; [auto | intros [->|H]; auto]|]. rewrite in_app_iff. cbn. intuition.
Qed.
Lemma set_add_nodup k l : NoDup l -> NoDup (set_add k l).
Proof.
  unfold set_add. destruct (mem k l) eqn:E; [auto|]. intros N. apply NoDup_rev in N. rewrite <- (rev_involutive (l ++ [k])). apply NoDup_rev. rewrite rev_app_distr. cbn. constructor; [|exact N].
  rewrite <- in_rev, <- mem_In. congruence.
Qed.
Lemma lookup_replace {A} (m k : Z) (v : A) l : m <> k -> lookup m (replace k v l) = lookup m l.
Proof.
  intros N. induction l as [|[a b] l IH]; [reflexivity|]. cbn. destruct (Z.eqb_spec k a) as [<-|D]; cbn; [destruct (Z.eqb_spec m k); [congruence | reflexivity]|]. now rewrite IH.
Qed.
Lemma set_sigma_quiet t s m v s' : quiet t s -> set_sigma s m v = (s', true) -> quiet t s'.
Proof.
  intros [ND Q] H. destruct v as [ys|pdfs]; cbn [set_sigma] in H.
  - destruct (Z.eqb_spec m 1018) as [|N8]; [discriminate|]. destruct (get_energy s m) as [es|]; [|discriminate]. destruct (negb _); [discriminate|]. destruct (get_sigma s m None false) as [o|]; [|discriminate].
    injection H as <-. split; [cbn; now apply set_add_nodup|]. cbn [adjusted]. intros k NI N. rewrite set_add_in in NI. rewrite <- (Q k ltac:(tauto) N). unfold get_sigma; cbn [cur orig].
    destruct (Z.eqb_spec m 452) as [E4|E4]; cbn [reactions nu].
    + destruct (Z.eqb_spec k 452); [exfalso; subst; tauto | reflexivity].
    + destruct (Z.eqb_spec k 452); [reflexivity|]. destruct (lookup m (reactions (cur s))); [|reflexivity]. rewrite lookup_replace; [reflexivity | tauto].
  - destruct (Z.eqb_spec m 1018) as [->|N8]; [|discriminate]. cbn [negb] in H. destruct (chi_energies s) as [es|]; [|discriminate]. destruct (chi (cur s)) as [ds|]; [|discriminate]. destruct (get_sigma_chi s false) as [o|]; [|discriminate].
    destruct (negb _); [discriminate|]. destruct (set_chi ds pdfs) as [ds' ok]. injection H as <- ->. split; [cbn; now apply set_add_nodup|]. cbn [adjusted]. intros k NI N. rewrite set_add_in in NI. rewrite <- (Q k ltac:(tauto) N). reflexivity.
Qed.
Lemma sum_rule_quiet t s r s' : quiet t s -> sum_rule s r = (s', true) -> quiet t s'.
Proof.
  intros Q H. destruct r as [sm parts]. cbn [sum_rule] in H. destruct (mem sm (all_mts s)); [|now injection H as <-]. destruct (present parts (all_mts s)) as [|p0 pr]; [now injection H as <-|].
  destruct (present (adjusted s) (p0 :: pr)) as [|a0 ar]; [now injection H as <-|]. destruct (get_energy s sm); [|discriminate].
  destruct (all_some _); [|discriminate]. destruct (all_some _); [|discriminate]. destruct (get_sigma s sm _ true); [|discriminate].
  destruct (set_sigma s sm _) as [s1 ok] eqn:S1. destruct ok; [|discriminate]. injection H as <-. destruct (set_sigma_quiet _ _ _ _ _ Q S1) as [ND K]. split; cbn [adjusted]; [now apply set_add_nodup|].
  intros m NI N. rewrite set_add_in in NI. rewrite <- (K m ltac:(tauto) N). reflexivity.
Qed.
Lemma sum_rules_quiet t rules : forall s s', quiet t s -> sum_rules rules s = (s', true) -> quiet t s'.
Proof.
  induction rules as [|r rules IH]; intros s s' Q H; cbn [sum_rules] in H; [now injection H as <-|]. destruct (sum_rule s r) as [s1 ok] eqn:S1. destruct ok; [|discriminate]. exact (IH _ _ (sum_rule_quiet _ _ _ _ Q S1) H).
Qed.
Lemma sample_mts_quiet t rs : forall s s', quiet t s -> sample_mts s rs = Some s' -> quiet t s'.
Proof.
  induction rs as [|r rs IH]; intros s s' Q H; cbn [sample_mts] in H; [now injection H as <-|]. destruct (sample_mt s r) as [s1|] eqn:S1; [|discriminate]. apply (IH s1 s'); [|exact H].
  unfold sample_mt in S1. destruct (sampled s r) as [v|]; [|discriminate]. destruct (set_sigma s (rq_mt r) v) as [s2 ok] eqn:S2. destruct ok; [|discriminate].
  destruct (apply_sum_rules s2) as [s3 ok] eqn:S3. destruct ok; [|discriminate]. injection S1 as <-. eapply sum_rules_quiet; [|exact S3]. eapply set_sigma_quiet; eauto.
Qed.
Lemma file_quiet t rs s : sample_file t rs = Some s -> quiet t s.
Proof. intros H. apply (sample_mts_quiet t rs (open_editor t)); [|exact H]. split; [constructor | reflexivity]. Qed.

Lemma insert_perm m l : Permutation (m :: l) (insert m l).
Proof. induction l as [|x l IH]; cbn; [reflexivity|]. destruct (Z.leb m x); [reflexivity|]. rewrite perm_swap. now constructor. Qed.
Lemma sorted_perm l : Permutation l (sorted l).
Proof. induction l as [|m l IH]; cbn; [reflexivity|]. rewrite <- insert_perm. now constructor. Qed.
Lemma insert_sorted m l : StronglySorted Z.lt l -> ~ In m l -> StronglySorted Z.lt (insert m l).
Proof.
  induction 1 as [|x l SL IH FX]; intros N; cbn [insert].
  - constructor; constructor.
  - destruct (Z.leb_spec m x) as [L|L].
    + assert (LT : (m < x)%Z) by (cbn in N; lia). constructor; [constructor; auto|]. constructor; [exact LT|]. eapply Forall_impl; [|exact FX]. cbn. lia.
    + constructor; [apply IH; cbn in N; tauto|]. eapply Permutation_Forall; [apply insert_perm|]. constructor; [lia | exact FX].
Qed.
Lemma sorted_sorted l : NoDup l -> StronglySorted Z.lt (sorted l).
Proof.
  induction 1 as [|m l NI _ IH]; cbn; [constructor|]. apply insert_sorted; [exact IH|]. intros I. apply NI. eapply Permutation_in; [symmetry; apply sorted_perm | exact I].
Qed.
Lemma sorted_unique : forall l l', StronglySorted Z.lt l -> StronglySorted Z.lt l' -> Permutation l l' -> l = l'.
Proof.
  induction l as [|x l IH]; intros [|y l'] H1 H2 P; [reflexivity | apply Permutation_nil in P; discriminate | symmetry in P; apply Permutation_nil in P; discriminate|].
  inversion H1 as [|? ? S1 F1]; inversion H2 as [|? ? S2 F2]; subst. rewrite Forall_forall in F1, F2.
  assert (x = y).
  { assert (A : In x (y :: l')) by (eapply Permutation_in; [exact P | now left]). assert (B : In y (x :: l)) by (eapply Permutation_in; [symmetry; exact P | now left]).
    destruct A as [<-|A]; [reflexivity|]. destruct B as [->|B]; [reflexivity|]. apply F2 in A. apply F1 in B. lia. }
  subst y. f_equal. apply IH; auto. now apply Permutation_cons_inv in P.
Qed.
Lemma upto_single b : upto [b] = [b].
Proof. cbn. now destruct (b_at b). Qed.
Lemma concat_single (bs : list block) : concat (map upto (map (fun b => [b]) bs)) = bs.
Proof. induction bs as [|b bs IH]; [reflexivity|]. cbn [map concat]. rewrite upto_single, IH. reflexivity. Qed.
Lemma get_rdata t m : m <> 1018%Z -> get_sigma (open_editor t) m None false = option_map ty (rdata t m).
Proof. intros _. unfold get_sigma, rdata. cbn. destruct (Z.eqb m 452); [reflexivity|]. now destruct (lookup m (reactions t)). Qed.

Lemma sampled_written (fmt : Qc -> text) t rs s f n pos ms bs : sample_file t rs = Some s -> 
  (forall v, e11 (fmt v)) -> blanks_only f -> header_count (lines f) = Some n -> n < length (lines f) -> Forall (fun x => length x < 20) (data_words n f) ->
  (forall m r0 i, m <> 1018%Z -> rdata t m = Some r0 -> pos m = Some i -> held (data_words n f) i (map fmt (ty r0))) ->
  (forall m m' r0 r0' i i' j, m <> m' -> rdata t m = Some r0 -> rdata t m' = Some r0' -> pos m = Some i -> pos m' = Some i' -> ~ (i <= j < i + length (ty r0) /\ i' <= j < i' + length (ty r0'))) ->
  Permutation ms (adjusted s) -> StronglySorted Z.lt ms ->
  Forall2 (fun m b => m <> 1018%Z /\ exists r0 d, rdata t m = Some r0 /\ get_sigma s m None false = Some d /\ b_at b = pos m /\ b_old b = map fmt (ty r0) /\ b_new b = map fmt d /\ (b_all b = true <-> m = 452%Z)) ms bs ->
  in_turn (data_words n f) bs ->
  exists out w', sample_text fmt t rs f = Some out /\ read_ace out = Some w' /\ header w' = firstn n (lines f) /\ length (words (single w')) = length (data_words n f) /\
    (forall m r0 i, m <> 1018%Z -> rdata t m = Some r0 -> pos m = Some i -> exists d, get_sigma s m None false = Some d /\ held (words (single w')) i (map fmt d)) /\
    (forall j, (forall m r0 i, rdata t m = Some r0 -> pos m = Some i -> ~ (i <= j < i + length (ty r0))) -> nth_error (words (single w')) j = nth_error (data_words n f) j).
Proof.
  intros SF E11 BO HC HL SH HELD AP PM SS F2 T. destruct (file_quiet t rs s SF) as [ND Q].
  assert (MS : ms = sorted (adjusted s)) by (apply sorted_unique; [exact SS | now apply sorted_sorted | rewrite PM; apply sorted_perm]).
  assert (F : Forall2 (blocks fmt t s) (sorted (adjusted s)) (map (fun b => [b]) bs)).
  { rewrite <- MS. clear - F2. induction F2 as [|m b ms bs (N & r0 & d & R & G & _ & O1 & N1 & AL) _ IH]; cbn [map]; constructor; [|exact IH].
    exists [(ty r0, d)]. split; [left; split; [exact N|]; exists (ty r0), d; split; [rewrite get_rdata by exact N; now rewrite R | auto]|]. constructor; [|constructor]. cbn [fst snd]. auto. }
  rewrite <- concat_single in T. destruct (write_home fmt t s f n _ E11 BO HC HL F T SH) as (out & w' & W1 & W2 & W3 & W4). rewrite concat_single in W4, T.
  exists out, w'. unfold sample_text. rewrite SF. split; [exact W1|]. split; [exact W2|]. split; [exact W3|]. rewrite W4. split; [now apply rewritten_length|].
  assert (NM : NoDup ms) by (eapply Permutation_NoDup; [symmetry; exact PM | exact ND]).
  assert (BI : forall b, In b bs -> exists m r0, m <> 1018%Z /\ In m ms /\ rdata t m = Some r0 /\ b_at b = pos m /\ length (b_old b) = length (ty r0)).
  { intros b I. destruct (Forall2_in_r _ _ _ _ F2 I) as (m & IM & N & r0 & d & R & _ & A & O1 & _). exists m, r0. rewrite O1, map_length. auto. }
  assert (APB : ForallOrdPairs apart bs).
  { clear - F2 NM AP. induction F2 as [|m b ms bs (N & r0 & d & R & _ & A & O1 & _) F2 IH]; [constructor|]. inversion NM as [|? ? NI NM']; subst. constructor; [|auto]. apply Forall_forall. intros c I j [J1 J2].
    destruct (Forall2_in_r _ _ _ _ F2 I) as (m' & IM & N' & r0' & d' & R' & _ & A' & O1' & _). unfold inside in J1, J2. rewrite A, O1, map_length in J1. rewrite A', O1', map_length in J2.
    destruct (pos m) as [i|] eqn:P1; [|destruct J1]. destruct (pos m') as [i'|] eqn:P2; [|destruct J2]. apply (AP m m' r0 r0' i i' j); auto. intros ->. contradiction. }
  split.
  - intros m r0 i N R P. destruct (in_dec Z.eq_dec m ms) as [I|NI].
    + assert (X : exists b, In b bs /\ exists r1 d, rdata t m = Some r1 /\ get_sigma s m None false = Some d /\ b_at b = pos m /\ b_new b = map fmt d).
      { clear - F2 I. induction F2 as [|m0 b ms bs (N & r1 & d & R1 & G & A & O1 & N1 & _) _ IH]; [destruct I|]. destruct I as [->|I]; [exists b; split; [now left|]; exists r1, d; auto|]. destruct (IH I) as (b' & IB & X). exists b'. split; [now right | exact X]. }
      destruct X as (b & IB & r1 & d & R1 & G & A & NW). exists d. split; [exact G|]. rewrite <- NW. apply rewritten_block; auto. congruence.
    + assert (NA : ~ In m (adjusted s)) by (intros I; apply NI; eapply Permutation_in; [symmetry; exact PM | exact I]).
      exists (ty r0). split; [rewrite (Q m NA N), get_rdata by exact N; now rewrite R|].
      pose proof (HELD m r0 i N R P) as HL0. pose proof HL0 as (l & r & WS & L0).
      apply held_nth; [|rewrite rewritten_length by exact T; rewrite WS, !app_length; lia].
      intros j J. rewrite map_length in J. rewrite rewritten_nth; [|exact T|].
      * rewrite WS, nth_error_app2 by lia. rewrite nth_error_app1 by (rewrite map_length; lia). f_equal. lia.
      * intros b IB IN. destruct (BI b IB) as (m' & r0' & N' & IM & R' & A' & LO). unfold inside in IN. rewrite A' in IN. destruct (pos m') as [i'|] eqn:P'; [|destruct IN]. apply (AP m m' r0 r0' i i' (i + j)); auto; [intros ->; contradiction | lia].
  - intros j J. apply rewritten_nth; [exact T|]. intros b IB IN. destruct (BI b IB) as (m' & r0' & _ & IM & R' & A' & LO). unfold inside in IN. rewrite A' in IN. destruct (pos m') as [i'|] eqn:P'; [|destruct IN]. apply (J m' r0' i'); auto. lia.
Qed.

Lemma fenced_numbers old ws : Forall (fun x => length x = 17 /\ In "."%char x) old -> old <> [] -> Forall (fun x => length x = 17 \/ ~ In "."%char x) ws -> fenced old ws.
Proof.
  intros FO NE FW x I. rewrite Forall_forall in FO, FW. specialize (FW x I).
  assert (C : forall o a c, In o old -> x = a ++ o ++ c -> a = [] /\ c = []).
  { intros o a c IO ->. destruct (FO o IO) as [L D]. destruct FW as [FW|FW]; [|exfalso; apply FW; rewrite !in_app_iff; auto].
    rewrite !app_length in FW. destruct a, c; cbn in FW; try lia. auto. }
  split; [|split].
  - intros a ->. apply (C (hd [] old) a []); [destruct old; [congruence | now left] | now rewrite app_nil_r].
  - intros c ->. apply (C (last old []) [] c); [|reflexivity]. destruct (exists_last NE) as (l & z & ->). rewrite last_last. apply in_or_app. right. now left.
  - intros o a c -> E. apply (C o); [now left | exact E].
Qed.

(** ** Checking concrete files *)
Fixpoint eqw (a b : list text) : bool := match a, b with [], [] => true | x :: a', y :: b' => eqt x y && eqw a' b' | _, _ => false end.
Lemma eqw_eq a : forall b, eqw a b = true <-> a = b.
Proof. induction a as [|x a IH]; intros [|y b]; cbn; try (split; congruence). rewrite andb_true_iff, eqt_eq, IH. split; [intros [-> ->] | intros [= -> ->]]; auto. Qed.
Definition heldb (ws : list text) (i : nat) (b : list text) : bool := (i + length b <=? length ws) && eqw (firstn (length b) (skipn i ws)) b.
Lemma heldb_held ws i b : heldb ws i b = true <-> held ws i b.
Proof.
  unfold heldb. rewrite andb_true_iff, Nat.leb_le, eqw_eq. split.
  - intros [L E]. exists (firstn i ws), (skipn (i + length b) ws). split; [|apply firstn_length_le; lia]. rewrite <- E at 1. rewrite <- skipn_twice, firstn_skipn. now rewrite firstn_skipn.
  - intros (l & r & -> & <-). split; [rewrite !app_length; lia|]. rewrite skipn_app, Nat.sub_diag, skipn_O, skipn_all. cbn [app]. now rewrite firstn_app, Nat.sub_diag, firstn_O, app_nil_r, firstn_all.
Qed.
Definition dot_in (x : text) : bool := existsb (eqc "."%char) x.
Lemma dot_In x : dot_in x = true <-> In "."%char x.
Proof. unfold dot_in. rewrite existsb_exists. split; [intros (c & I & E); apply eqc_eq in E; now subst | intros I; exists "."%char; split; [exact I | apply eqc_refl]]. Qed.
Definition at_homeb (ws : list text) (b : block) : bool :=
  negb (eqw (b_old b) []) && (length (b_new b) =? length (b_old b)) && forallb (fun x => (length x =? 17) && dot_in x) (b_old b) && forallb (fun x => (length x =? 17) || negb (dot_in x)) ws &&
  match b_at b with
  | Some i => heldb ws i (b_old b) && forallb (fun j => negb (heldb ws j (b_old b)) || if b_all b then j =? i else i <=? j) (seq 0 (S (length ws)))
  | None => forallb (fun j => negb (heldb ws j (b_old b))) (seq 0 (S (length ws)))
  end.
Lemma at_homeb_home ws b : at_homeb ws b = true -> at_home ws b.
Proof.
  unfold at_homeb, at_home. rewrite !andb_true_iff, negb_true_iff, Nat.eqb_eq. intros [[[[H1 H2] H3] H4] H5].
  assert (NE : b_old b <> []) by (intros E; rewrite E in H1; discriminate). split; [exact NE|]. split; [exact H2|]. split.
  - apply fenced_numbers; [|exact NE|]; apply Forall_forall; intros x I.
    + rewrite forallb_forall in H3. apply H3, andb_true_iff in I as [I1 I2]. now rewrite Nat.eqb_eq in I1; apply dot_In in I2.
    + rewrite forallb_forall in H4. apply H4, orb_true_iff in I as [I1|I1]; [left; now apply Nat.eqb_eq|]. right. rewrite <- dot_In. now destruct (dot_in x).
  - assert (B : forall j, held ws j (b_old b) -> In j (seq 0 (S (length ws)))) by (intros j (l & r & E & L); apply in_seq; rewrite E, app_length; lia).
    destruct (b_at b) as [i|].
    + apply andb_true_iff in H5 as [H5 H6]. split; [now apply heldb_held|]. intros j HJ. rewrite forallb_forall in H6. specialize (H6 j (B j HJ)). apply heldb_held in HJ. rewrite HJ in H6. cbn in H6. destruct (b_all b); [now apply Nat.eqb_eq | now apply Nat.leb_le].
    + intros j HJ. rewrite forallb_forall in H5. specialize (H5 j (B j HJ)). apply heldb_held in HJ. rewrite HJ in H5. discriminate.
Qed.
Fixpoint in_turnb (ws : list text) (bs : list block) : bool := match bs with [] => true | b :: r => at_homeb ws b && in_turnb (put ws b) r end.
Lemma in_turnb_turn bs : forall ws, in_turnb ws bs = true -> in_turn ws bs.
Proof. induction bs as [|b r IH]; intros ws; cbn; [auto|]. rewrite andb_true_iff. intros [H1 H2]. split; [now apply at_homeb_home | auto]. Qed.
Definition blanksb (f : text) : bool := forallb (fun c => negb (is_space c) || eqc c sp || eqc c nl) f.
Lemma blanksb_only f : blanksb f = true -> blanks_only f.
Proof. intros H c I S1. unfold blanksb in H. rewrite forallb_forall in H. specialize (H c I). rewrite S1 in H. cbn in H. apply orb_true_iff in H as [H|H]; apply eqc_eq in H; auto. Qed.
