(** Proofs about ACE text editing. *)
From Verif Require Import Text AceText_Model AceText_Spec.
From Coq Require Import ZArith.

(** ** Reading *)
Lemma words_squeeze s : words (squeeze s) = words s.
Proof.
  induction s as [|c r IH]; [reflexivity|]. cbn [squeeze].
  destruct (eqc c sp && _) eqn:E.
  - apply andb_true_iff in E as [E _]. apply eqc_eq in E. subst. rewrite IH.
    rewrite words_cons, is_space_sp. reflexivity.
  - rewrite !words_cons, IH. destruct (is_space c) eqn:Ec; [reflexivity|].
    assert (H : head_space (squeeze r) = head_space r).
    { clear. destruct r as [|d r]; [reflexivity|]. cbn [squeeze].
      destruct (eqc d sp && _) eqn:E; [|reflexivity].
      apply andb_true_iff in E as [E1 E2]. apply eqc_eq in E1. subst d. cbn [head_space].
      rewrite is_space_sp. clear -E2. induction r as [|e r IH]; [discriminate|].
      apply eqc_eq in E2. subst e. cbn [squeeze]. rewrite eqc_refl. cbn [andb].
      destruct r as [|f r]; [reflexivity|]. destruct (eqc f sp) eqn:Ef; [|reflexivity].
      apply IH. reflexivity. }
    rewrite H. reflexivity.
Qed.

Lemma words_nl2sp s : words (nl2sp s) = words s.
Proof.
  induction s as [|c r IH]; [reflexivity|]. unfold nl2sp in *. cbn [map]. rewrite !words_cons.
  destruct (eqc c nl) eqn:E.
  - apply eqc_eq in E. subst. rewrite is_space_sp, is_space_nl. exact IH.
  - rewrite IH. destruct (is_space c); [reflexivity|].
    assert (H : head_space (map (fun c => if eqc c nl then sp else c) r) = head_space r).
    { destruct r as [|d r]; [reflexivity|]. cbn. destruct (eqc d nl) eqn:Ed; [|reflexivity].
      apply eqc_eq in Ed. subst. reflexivity. }
    now rewrite H.
Qed.

Lemma concat_nl2sp ls : concat (map nl2sp ls) = nl2sp (concat ls).
Proof. unfold nl2sp. now rewrite concat_map. Qed.

Lemma read_words f w n : read_ace f = Some w -> header_count (lines f) = Some n ->
  words (single w) = words (concat (skipn n (lines f))) /\ header w = firstn n (lines f).
Proof.
  unfold read_ace. intros H Hn. rewrite Hn in H. injection H as <-. cbn [single header].
  now rewrite words_squeeze, concat_nl2sp, words_nl2sp.
Qed.

(** ** Writing *)
Definition fits (cnt : nat) (ws : list text) : Prop :=
  forall i w, nth_error ws i = Some w -> (i + cnt) mod 4 <> 0 -> length w < 20.

Lemma pad_head w : length w < 20 -> head_space (pad 20 w) = true.
Proof. intros H. unfold pad. destruct (20 - length w) eqn:E; [lia|reflexivity]. Qed.

Lemma head_app a b : a <> [] -> head_space (a ++ b) = head_space a.
Proof. destruct a; [congruence|reflexivity]. Qed.

Lemma pad_nonnil w : word w -> pad 20 w <> [].
Proof. intros [H _] E. unfold pad in E. apply app_eq_nil in E. tauto. Qed.

Lemma body_words ws : forall cnt, cnt < 4 -> Forall word ws -> fits cnt ws -> words (body cnt ws) = ws.
Proof.
  induction ws as [|w ws IH]; intros cnt Hc Hw Hf; [reflexivity|].
  inversion Hw as [|? ? H1 H2]; subst. cbn [body].
  assert (Hf' : forall c', (S cnt =? 4 = true /\ c' = 0) \/ (S cnt =? 4 = false /\ c' = S cnt) -> fits c' ws).
  { intros c' Hc' i x Hi Hm. apply (Hf (S i) x Hi).
    destruct Hc' as [[E ->]|[E ->]].
    - apply Nat.eqb_eq in E. replace (S i + cnt) with (i + 1 * 4) by lia.
      rewrite Nat.mod_add by lia. now replace (i + 0) with i in Hm by lia.
    - now replace (S i + cnt) with (i + S cnt) by lia. }
  destruct (S cnt =? 4) eqn:E.
  - rewrite words_app_r by reflexivity. rewrite words_pad by exact H1.
    rewrite words_cons, is_space_nl, IH; auto with arith.
  - apply Nat.eqb_neq in E. rewrite words_app_r.
    + rewrite words_pad by exact H1. rewrite IH; auto. lia.
    + destruct ws as [|w' ws]; [reflexivity|]. cbn [body]. inversion H2; subst.
      rewrite head_app by now apply pad_nonnil. apply pad_head.
      apply (Hf 1 w' eq_refl). rewrite Nat.mod_small; lia.
Qed.

(** Counting words. *)
Lemma words_app_le a b : length (words (a ++ b)) <= length (words a) + length (words b).
Proof.
  induction a as [|c a IH]; [reflexivity|]. cbn [app]. rewrite !words_cons.
  destruct (is_space c); [exact IH|].
  destruct a as [|d a]; cbn [app head_space] in *.
  - destruct (head_space b) eqn:E; [cbn; lia|]. pose proof (words_nonnil b E).
    destruct (words b); cbn; [congruence|lia].
  - destruct (is_space d) eqn:Ed; [cbn [length] in *; lia|].
    pose proof (words_nonnil (d :: a) Ed). pose proof (words_nonnil (d :: a ++ b) Ed).
    destruct (words (d :: a)); [congruence|]. destruct (words (d :: a ++ b)); [congruence|].
    cbn [cons_head length] in *. lia.
Qed.

Lemma words_app_fuse a b : ends_space a = false -> head_space b = false ->
  length (words (a ++ b)) < length (words a) + length (words b).
Proof.
  unfold ends_space. intros Ha Hb. induction a as [|c a IH]; [discriminate|].
  cbn [app]. rewrite !words_cons.
  destruct a as [|d a]; cbn [app] in *.
  - cbn in Ha. rewrite Ha. cbn [head_space]. rewrite Hb. cbn. pose proof (words_nonnil b Hb).
    destruct (words b); cbn; [congruence|lia].
  - assert (Ha' : head_space (rev (d :: a)) = false).
    { cbn [rev] in Ha. rewrite <- app_assoc in Ha. cbn [rev]. destruct (rev a); cbn in *; exact Ha. }
    specialize (IH Ha'). destruct (is_space c); [exact IH|]. cbn [head_space].
    destruct (is_space d) eqn:Ed; [cbn [length] in *; lia|].
    pose proof (words_nonnil (d :: a) Ed). pose proof (words_nonnil (d :: a ++ b) Ed).
    destruct (words (d :: a)); [congruence|]. destruct (words (d :: a ++ b)); [congruence|].
    cbn [cons_head length] in *. lia.
Qed.

Lemma body_le ws : forall cnt, Forall word ws -> length (words (body cnt ws)) <= length ws.
Proof.
  induction ws as [|w ws IH]; intros cnt Hw; [vm_compute; lia|]. inversion Hw as [|? ? H1 H2]; subst.
  cbn [body]. eapply Nat.le_trans; [apply words_app_le|]. rewrite words_pad by exact H1. cbn [length].
  destruct (S cnt =? 4).
  - rewrite words_cons, is_space_nl. specialize (IH 0 H2). lia.
  - specialize (IH (S cnt) H2). lia.
Qed.

Lemma ends_space_pad w : word w -> ends_space (pad 20 w) = false.
Proof.
  intros [H1 H2]. unfold ends_space, pad. rewrite rev_app_distr.
  destruct (rev w) as [|c r] eqn:E.
  - apply (f_equal (@rev _)) in E. rewrite rev_involutive in E. now subst.
  - cbn. apply H2. rewrite in_rev, E. now left.
Qed.

Lemma body_long ws : forall cnt, cnt < 4 -> Forall word ws ->
  forall i w, nth_error ws i = Some w -> i > 0 -> (i + cnt) mod 4 <> 0 -> 20 <= length w ->
  length (words (body cnt ws)) < length ws.
Proof.
  induction ws as [|w0 ws IH]; intros cnt Hc Hw i w Hi Hi0 Hm Hl; [destruct i; discriminate|].
  inversion Hw as [|? ? H1 H2]; subst. destruct i as [|i]; [lia|]. cbn [nth_error] in Hi.
  cbn [body]. destruct (S cnt =? 4) eqn:E.
  - apply Nat.eqb_eq in E. rewrite words_app_r by reflexivity. rewrite words_pad by exact H1.
    cbn [app length]. rewrite words_cons, is_space_nl.
    assert (i mod 4 <> 0).
    { replace (S i + cnt) with (i + 1 * 4) in Hm by lia. now rewrite Nat.mod_add in Hm by lia. }
    destruct i as [|i]; [cbn in *; congruence|].
    apply -> Nat.succ_lt_mono. apply (IH 0 ltac:(lia) H2 (S i) w Hi); [lia| |exact Hl].
    now rewrite Nat.add_0_r.
  - apply Nat.eqb_neq in E. destruct i as [|i].
    + destruct ws as [|w1 ws]; [discriminate|]. injection Hi as ->. inversion H2 as [|? ? H3 H4]; subst.
      eapply Nat.lt_le_trans.
      * apply words_app_fuse; [now apply ends_space_pad|].
        cbn [body]. rewrite head_app by now apply pad_nonnil. unfold pad.
        replace (20 - length w) with 0 by lia. cbn [repeat app]. destruct H3 as [H31 H32].
        destruct w as [|c w]; [congruence|]. apply H32. now left.
      * rewrite words_pad by exact H1. pose proof (body_le (w :: ws) (S cnt) H2). cbn [length] in *. lia.
    + eapply Nat.le_lt_trans; [apply words_app_le|]. rewrite words_pad by exact H1. cbn [length].
      apply -> Nat.succ_lt_mono. apply (IH (S cnt) ltac:(lia) H2 (S i) w Hi); [lia| |exact Hl].
      now replace (S i + S cnt) with (S (S i) + cnt) by lia.
Qed.

(** Exact condition for the data words to survive. *)
Definition room (ws : list text) : Prop :=
  forall i w, nth_error ws i = Some w -> i mod 4 <> 0 -> length w < 20.

Lemma body_iff ws : Forall word ws -> (words (body 0 ws) = ws <-> room ws).
Proof.
  intros Hw. split.
  - intros H i w Hi Hm. destruct (Nat.lt_ge_cases (length w) 20) as [|Hge]; [assumption|].
    exfalso. assert (i > 0) by (destruct i; [cbn in Hm; congruence|lia]).
    pose proof (body_long ws 0 ltac:(lia) Hw i w Hi H0) as L. rewrite Nat.add_0_r in L.
    specialize (L Hm Hge). rewrite H in L. lia.
  - intros H. apply body_words; [lia|exact Hw|]. intros i w Hi Hm. rewrite Nat.add_0_r in Hm. eauto.
Qed.

(** Reading back what was written. *)
Lemma words_Forall s : Forall word (words s).
Proof. apply Forall_forall. apply words_word. Qed.

Lemma header_count_eq a b l : header_count (l :: a) = header_count (l :: b).
Proof. reflexivity. Qed.

Lemma reread f w n : read_ace f = Some w -> header_count (lines f) = Some n -> n < length (lines f) ->
  exists w', read_ace (write_ace w) = Some w' /\ header w' = header w /\
             words (single w') = words (body 0 (words (single w))).
Proof.
  intros H Hn Hl. destruct (read_words f w n H Hn) as [Hw Hh].
  assert (He : Forall ended (header w)) by (rewrite Hh; now apply lines_ended_firstn).
  assert (Hlen : length (header w) = n) by (rewrite Hh; apply firstn_length_le; lia).
  assert (Hc : header_count (header w ++ lines (body 0 (words (single w)))) = Some n).
  { rewrite Hh. destruct (lines f) as [|l ls]; [cbn in Hl; lia|].
    assert (n <> 0). { unfold header_count in Hn. destruct (words l) as [|w0 ?]; [discriminate|].
      destruct (nth_error w0 1) as [c|]; [|discriminate]. destruct (eqc c _); injection Hn as <-; discriminate. }
    destruct n as [|n]; [congruence|]. cbn [firstn app]. rewrite <- Hn. apply header_count_eq. }
  unfold read_ace, write_ace. rewrite lines_ended_all by exact He. rewrite Hc.
  eexists. split; [reflexivity|]. cbn [header single]. rewrite <- Hlen at 1.
  rewrite firstn_app, Nat.sub_diag, firstn_O, app_nil_r, firstn_all. split; [reflexivity|].
  rewrite words_squeeze, concat_nl2sp, words_nl2sp. rewrite <- Hlen.
  rewrite skipn_app, Nat.sub_diag, skipn_all, skipn_O. cbn [app]. now rewrite concat_lines.
Qed.

Lemma roundtrip_iff f w n :
  read_ace f = Some w -> header_count (lines f) = Some n -> n < length (lines f) ->
  let data := words (concat (skipn n (lines f))) in
  exists w', read_ace (write_ace w) = Some w' /\ header w' = firstn n (lines f) /\
             (words (single w') = data <-> room data).
Proof.
  intros H Hn Hl. cbv zeta. destruct (read_words f w n H Hn) as [Hw Hh].
  destruct (reread f w n H Hn Hl) as (w' & H1 & H2 & H3).
  exists w'. split; [exact H1|]. split; [congruence|]. rewrite H3, Hw. apply body_iff. apply words_Forall.
Qed.

(** Layout: at most four words per line. *)
Lemma lines_app_nonl a s : ~ In nl a -> lines s <> [] ->
  exists l ls, lines s = l :: ls /\ lines (a ++ s) = (a ++ l) :: ls.
Proof.
  intros Ha Hs. destruct (lines s) as [|l ls] eqn:E; [congruence|]. exists l, ls. split; [reflexivity|].
  induction a as [|c a IH]; [exact E|]. cbn [app lines].
  destruct (eqc c nl) eqn:Ec; [apply eqc_eq in Ec; subst; exfalso; apply Ha; now left|].
  rewrite IH; [reflexivity|]. intros K. apply Ha. now right.
Qed.

Lemma pad_nonl w : word w -> ~ In nl (pad 20 w).
Proof.
  intros [_ H] K. unfold pad in K. apply in_app_iff in K as [K|K].
  - apply repeat_spec in K. discriminate.
  - apply H in K. discriminate.
Qed.

Lemma body_lines ws : forall cnt, cnt < 4 -> Forall word ws ->
  exists l ls, lines (body cnt ws) = l :: ls /\ length (words l) <= 4 - cnt /\
               forall x, In x ls -> length (words x) <= 4.
Proof.
  induction ws as [|w ws IH]; intros cnt Hc Hw.
  - exists [nl], []. split; [reflexivity|]. split; [change (length (words [nl])) with 0; lia|intros x []].
  - inversion Hw as [|? ? H1 H2]; subst. cbn [body]. destruct (S cnt =? 4) eqn:E.
    + destruct (IH 0 ltac:(lia) H2) as (l & ls & E1 & E2 & E3).
      destruct (lines_app_nonl (pad 20 w) (nl :: body 0 ws)) as (l' & ls' & F1 & F2).
      { now apply pad_nonl. }
      { discriminate. }
      cbn [lines] in F1. rewrite eqc_refl in F1. injection F1 as <- <-.
      exists (pad 20 w ++ [nl]), (lines (body 0 ws)). split; [exact F2|]. split.
      * eapply Nat.le_trans; [apply words_app_le|]. rewrite words_pad by exact H1.
        change (length (words [nl])) with 0. cbn [length]. lia.
      * rewrite E1. intros x [<-|Hx]; [lia|auto].
    + apply Nat.eqb_neq in E. destruct (IH (S cnt) ltac:(lia) H2) as (l & ls & E1 & E2 & E3).
      destruct (lines_app_nonl (pad 20 w) (body (S cnt) ws)) as (l' & ls' & F1 & F2).
      { now apply pad_nonl. }
      { congruence. }
      rewrite E1 in F1. injection F1 as <- <-. exists (pad 20 w ++ l), ls. split; [exact F2|]. split; [|exact E3].
      eapply Nat.le_trans; [apply words_app_le|]. rewrite words_pad by exact H1. cbn [length]. lia.
Qed.

Lemma four_per_line s l : In l (lines (body 0 (words s))) -> length (words l) <= 4.
Proof.
  destruct (body_lines (words s) 0 ltac:(lia) (words_Forall s)) as (l0 & ls & E1 & E2 & E3).
  rewrite E1. intros [<-|H]; [lia|auto].
Qed.

(** ** Find and replace *)
Lemma index_Some p : forall s i, index p s = Some i ->
  exists b, s = firstn i s ++ p ++ b /\ length (firstn i s) = i /\
            forall a' b', s = a' ++ p ++ b' -> i <= length a'.
Proof.
  induction s as [|c r IH]; intros i H.
  - cbn [index] in H. destruct (strip p []) as [x|] eqn:E; [|discriminate]. injection H as <-.
    apply strip_Some in E. exists x. cbn. split; [exact E|]. split; [reflexivity|]. intros. lia.
  - cbn [index] in H. destruct (strip p (c :: r)) as [x|] eqn:E.
    + injection H as <-. apply strip_Some in E. exists x. cbn [firstn app length]. repeat split; auto. intros; lia.
    + destruct (index p r) as [j|] eqn:Ej; [|discriminate]. injection H as <-.
      destruct (IH j eq_refl) as (b & H1 & H2 & H3). exists b. cbn [firstn app length].
      split; [now rewrite <- H1|]. split; [lia|].
      intros [|x a'] b' Hs.
      * exfalso. rewrite strip_None in E. now apply (E b').
      * injection Hs as -> Hs. cbn. apply H3 in Hs. lia.
Qed.

Lemma index_None p : forall s, index p s = None <-> ~ contains p s.
Proof.
  induction s as [|c r IH]; cbn [index].
  - destruct (strip p []) as [x|] eqn:E.
    + split; [discriminate|]. intros H. exfalso. apply H. apply strip_Some in E. exists [], x. exact E.
    + split; [|reflexivity]. intros _ (a & b & H). destruct a; [|discriminate].
      rewrite strip_None in E. now apply (E b).
  - destruct (strip p (c :: r)) as [x|] eqn:E.
    + split; [discriminate|]. intros H. exfalso. apply H. apply strip_Some in E. exists [], x. exact E.
    + assert (K : option_map S (index p r) = None <-> index p r = None) by (destruct (index p r); split; (discriminate || reflexivity)).
      rewrite K, IH. split; intros H (a & b & Hs); apply H.
      * destruct a as [|x a]; [rewrite strip_None in E; now apply E in Hs|].
        injection Hs as -> Hs. now exists a, b.
      * exists (c :: a), b. cbn. now rewrite Hs.
Qed.

Lemma py_skip old new k s r : py_replace old new (length s) k (s ++ r) = py_replace old new 0 k r.
Proof.
  induction s as [|c s IH]; [reflexivity|]. cbn [length app py_replace]. exact IH.
Qed.

(** Shape of the result of str.replace. *)
Lemma py_replace_shape old new : old <> [] -> forall n s k, length s <= n ->
  exists ps last, s = weave old ps last /\ py_replace old new 0 k s = weave new ps last /\
    length ps <= k /\ Forall (leftmost old) ps /\ (length ps < k -> ~ contains old last).
Proof.
  intros Hold. induction n as [|n IH]; intros s k Hn.
  - destruct s; [|cbn in Hn; lia]. exists [], []. cbn. repeat split; auto; [lia|].
    intros _ (a & b & H). symmetry in H. apply app_eq_nil in H as [_ H]. apply app_eq_nil in H. tauto.
  - destruct k as [|k].
    { exists [], s. cbn. repeat split; auto; [|lia]. destruct s; reflexivity. }
    destruct s as [|c r].
    { exists [], []. cbn. repeat split; auto; [lia|].
      intros _ (a & b & H). symmetry in H. apply app_eq_nil in H as [_ H]. apply app_eq_nil in H. tauto. }
    cbn in Hn. destruct (strip old (c :: r)) as [x|] eqn:E.
    + pose proof E as E'. apply strip_Some in E. destruct old as [|o old]; [congruence|].
      injection E as <- Er.
      destruct (IH x k) as (ps & last & H1 & H2 & H3 & H4 & H5).
      { rewrite Er in Hn. rewrite app_length in Hn. lia. }
      exists ([] :: ps), last. cbn [weave app length]. split; [now rewrite <- H1, Er|].
      split.
      * cbn [py_replace]. rewrite E'. cbn [length]. rewrite Nat.sub_0_r || idtac.
        replace (S (length old) - 1) with (length old) by lia.
        rewrite Er, py_skip. now rewrite H2.
      * split; [lia|]. split.
        -- constructor; [|exact H4]. intros a b Hab. cbn [app] in Hab.
           apply (f_equal (@length _)) in Hab. repeat (rewrite app_length in Hab || cbn [length] in Hab).
           destruct b; [reflexivity|]. cbn [length] in Hab. lia.
        -- intros Hk. apply H5. lia.
    + destruct (IH r (S k) ltac:(lia)) as (ps & last & H1 & H2 & H3 & H4 & H5).
      assert (Hpy : py_replace old new 0 (S k) (c :: r) = c :: py_replace old new 0 (S k) r)
        by (cbn [py_replace]; now rewrite E).
      rewrite strip_None in E.
      destruct ps as [|p ps].
      * exists [], (c :: r). cbn [weave length] in *. rewrite Hpy, H2. subst last.
        repeat split; auto. intros Hk (a & b & Hs). destruct a as [|y a]; [now apply (E b)|].
        injection Hs as -> Hs. apply (H5 Hk). now exists a, b.
      * exists ((c :: p) :: ps), last. cbn [weave length app] in *.
        split; [now rewrite <- H1|]. split; [now rewrite Hpy, H2|]. split; [exact H3|]. split; [|exact H5].
        inversion H4 as [|? ? L1 L2]; subst. constructor; [|exact L2].
        intros a b Hab. destruct a as [|y a].
        -- exfalso. cbn [app] in Hab.
           apply (E (b ++ weave old ps last)).
           rewrite (app_assoc old), <- Hab. cbn [app]. now rewrite <- app_assoc.
        -- cbn [app] in Hab. injection Hab as <- Hab. now apply (L1 a b).
Qed.

(** The result of replace_array. *)
Lemma replace_spec {A} (fmt : A -> text) w arr new count w' :
  format_mcnp fmt arr <> [] ->
  replace_array fmt w arr new count = Done w' ->
  let k := if Z.ltb count 0 then length (single w) else Z.to_nat count in
  header w' = header w /\ length arr = length new /\
  exists ps last,
    single w = weave (format_mcnp fmt arr) ps last /\
    single w' = weave (format_mcnp fmt new) ps last /\
    length ps <= k /\ (1 <= k -> 1 <= length ps) /\
    Forall (leftmost (format_mcnp fmt arr)) ps /\
    (length ps < k -> ~ contains (format_mcnp fmt arr) last).
Proof.
  intros Hne. unfold replace_array. cbv zeta. destruct (length arr =? length new) eqn:El; [|discriminate].
  apply Nat.eqb_eq in El. cbn [negb]. destruct (index _ _) as [i|] eqn:Ei; [|discriminate].
  pose proof Ei as Ei'. apply index_Some in Ei as (b & H1 & H2 & H3).
  set (old := format_mcnp fmt arr) in *.
  assert (Hf : firstn (length old) (skipn i (single w)) = old).
  { rewrite H1. rewrite skipn_app, H2, Nat.sub_diag, skipn_O. rewrite skipn_all2 by lia. cbn [app].
    rewrite firstn_app, Nat.sub_diag, firstn_O, app_nil_r. apply firstn_all. }
  rewrite Hf. destruct old as [|o old'] eqn:Eo; [congruence|]. intros H. injection H as <-. cbn [single header].
  split; [reflexivity|]. split; [exact El|]. rewrite <- Eo in *. clear Eo.
  set (k := if Z.ltb count 0 then length (single w) else Z.to_nat count).
  destruct (py_replace_shape old (format_mcnp fmt new) Hne (length (single w)) (single w) k (le_n _))
    as (ps & last & G1 & G2 & G3 & G4 & G5).
  exists ps, last. repeat split; auto. intros Hk. destruct ps as [|p ps]; [|cbn; lia].
  exfalso. apply G5; [cbn; lia|]. cbn in G1. rewrite <- G1. now exists (firstn i (single w)), b.
Qed.

Lemma replace_fails {A} (fmt : A -> text) w arr new count :
  (replace_array fmt w arr new count = LengthMismatch <-> length arr <> length new) /\
  (replace_array fmt w arr new count = NotFound <->
     length arr = length new /\ ~ contains (format_mcnp fmt arr) (single w)).
Proof.
  unfold replace_array. destruct (length arr =? length new) eqn:El; cbn [negb].
  - apply Nat.eqb_eq in El. destruct (index _ _) as [i|] eqn:Ei.
    + split; split; try (destruct (firstn _ _); discriminate); try congruence.
      intros [_ H]. apply index_None in H. congruence.
    + apply index_None in Ei. split; split; try discriminate; try congruence; auto.
  - apply Nat.eqb_neq in El. split; split; try discriminate; try tauto; congruence.
Qed.

Lemma head_weave old ps last : bounded false ps last -> head_space (weave old ps last) = true.
Proof.
  destruct ps as [|p r]; cbn [bounded weave].
  - intros [H|H]; [discriminate|exact H].
  - intros (_ & [H|[H1 H2]] & _); [discriminate|]. now rewrite head_app.
Qed.

Lemma weave_read old ps last : forall first, bounded first ps last ->
  words (weave old ps last) = weave_words (words old) ps last.
Proof.
  induction ps as [|p r IH]; intros first H; cbn [weave weave_words]; [reflexivity|].
  cbn [bounded] in H. destruct H as (H1 & _ & H3).
  rewrite words_app_l by exact H1. rewrite words_app_r by now apply head_weave with (old := old) in H3.
  now rewrite (IH false H3).
Qed.

Lemma weave_words_length a b ps last : length a = length b ->
  length (weave_words a ps last) = length (weave_words b ps last).
Proof. intros H. induction ps as [|p r IH]; cbn; [reflexivity|]. rewrite !app_length. lia. Qed.

Lemma format_words {A} (fmt : A -> text) l : (forall v, word (fmt v)) -> words (format_mcnp fmt l) = map fmt l.
Proof. intros H. apply words_join. apply Forall_map. apply Forall_forall. auto. Qed.

Lemma format_nonnil {A} (fmt : A -> text) l : (forall v, word (fmt v)) -> l <> [] -> format_mcnp fmt l <> [].
Proof.
  intros H Hl E. destruct l as [|a l]; [congruence|]. pose proof (format_words fmt (a :: l) H) as K.
  rewrite E in K. discriminate.
Qed.

(** Printed numbers are words of at most 19 characters. *)
Lemma digit_nospace c : digit c -> is_space c = false.
Proof.
  unfold digit, is_space. intros H.
  assert (E : forall n, 48 <= n <= 57 ->
    ((9 <=? n) && (n <=? 13)) || ((28 <=? n) && (n <=? 32)) || (n =? 133) || (n =? 160) = false).
  { intros n Hn. rewrite !orb_false_iff, !andb_false_iff, !Nat.leb_gt, !Nat.eqb_neq. lia. }
  now apply E.
Qed.

Lemma e11_word t : e11 t -> word t /\ length t <= 19.
Proof.
  intros (sg & d & ds & es & ex & -> & Hsg & Hd & Hds & Lds & Hes & Hex & Lex). split.
  - split.
    + intros E. apply app_eq_nil in E as [_ E]. discriminate.
    + intros c Hc. rewrite !in_app_iff in Hc. cbn [In] in Hc.
      rewrite Forall_forall in Hds, Hex.
      destruct Hc as [Hc|[[<-|[]]|[[<-|[]]|[Hc|[[<-|[]]|[[<-|[]]|Hc]]]]]]; try reflexivity.
      * destruct Hsg as [->| ->]; [destruct Hc|]. destruct Hc as [<-|[]]. reflexivity.
      * now apply digit_nospace.
      * apply digit_nospace. auto.
      * destruct Hes as [->| ->]; reflexivity.
      * apply digit_nospace. auto.
  - rewrite !app_length. cbn [length]. destruct Hsg as [->| ->]; cbn [length]; lia.
Qed.

(** A file all of whose data words fit keeps doing so after a replacement on
    word boundaries, so the written file still reads back. *)
Lemma replace_room {A} (fmt : A -> text) w arr new ps last first :
  (forall v, e11 (fmt v)) -> bounded first ps last ->
  single w = weave (format_mcnp fmt arr) ps last ->
  Forall (fun x => length x < 20) (words (single w)) ->
  Forall (fun x => length x < 20) (words (weave (format_mcnp fmt new) ps last)).
Proof.
  intros Hf Hb Es H. rewrite Es in H. rewrite (weave_read _ ps last first Hb) in H.
  rewrite (weave_read _ ps last first Hb).
  assert (Hw : forall v, word (fmt v)) by (intros v; apply e11_word; apply Hf).
  rewrite format_words in H by exact Hw. rewrite format_words by exact Hw. clear Hb Es.
  induction ps as [|p r IH]; cbn [weave_words] in *; [exact H|].
  apply Forall_app in H as [H1 H2]. apply Forall_app in H2 as [_ H3].
  apply Forall_app. split; [exact H1|]. apply Forall_app. split; [|auto].
  apply Forall_map. apply Forall_forall. intros v _. destruct (e11_word _ (Hf v)). lia.
Qed.

Lemma room_Forall ws : Forall (fun x => length x < 20) ws -> room ws.
Proof. intros H i w Hi _. rewrite Forall_forall in H. apply H. now apply nth_error_In in Hi. Qed.
