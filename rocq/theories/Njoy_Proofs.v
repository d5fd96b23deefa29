From Coq Require Import List Bool Arith Lia.
From Verif Require Import Njoy_Model Njoy_Spec.
Import ListNotations.
Local Open Scope nat_scope.

(** Flow of one read, strict (kinds) or not. *)
Definition fl (p : bool) (r : kind * nat) (w : list (kind * nat)) : Prop :=
  if p then r = (Endf, 20) \/ In r w else snd r = 20 \/ In (snd r) (map snd w).
Lemma fl_in p r w : In r w -> fl p r w.
Proof. intros H. destruct p; cbn; right; [easy | now apply in_map]. Qed.
Lemma fl_endf p w : fl p (Endf, 20) w.
Proof. destruct p; cbn; now left. Qed.

Definition flow (p : bool) (d : list module) : Prop :=
  forall pre m post, d = pre ++ m :: post -> Forall (fun r => fl p r (written pre)) (reads m).
Lemma written_app a b : written (a ++ b) = written a ++ written b.
Proof. unfold written. apply flat_map_app. Qed.
Lemma flow_snoc p d m : flow p (d ++ [m]) <-> flow p d /\ Forall (fun r => fl p r (written d)) (reads m).
Proof.
  split.
  - intros H. split.
    + intros pre x post E. apply (H pre x (post ++ [m])). now rewrite E, <- app_assoc.
    + now apply (H d m []).
  - intros [H1 H2] pre x post E.
    destruct (@exists_last _ (x :: post) ltac:(discriminate)) as [l [y Hy]].
    rewrite Hy, app_assoc in E. apply app_inj_tail in E. destruct E as [E1 E2]. subst y.
    destruct l as [|z l].
    + cbn in Hy. injection Hy as E3 E4. subst x post. rewrite app_nil_r in E1. now subst pre.
    + cbn in Hy. injection Hy as E3 E4. subst z. subst post. apply (H1 pre x l). exact E1.
Qed.
Lemma flow_ordered d : flow false d <-> ordered d.
Proof.
  unfold flow, ordered, fl. split.
  - intros H pre m post k u E I. specialize (H pre m post E). rewrite Forall_forall in H. exact (H _ I).
  - intros H pre m post E. apply Forall_forall. intros [k u] I. exact (H pre m post k u E I).
Qed.
Lemma flow_typed d : flow true d <-> typed d.
Proof.
  unfold flow, typed, fl. split.
  - intros H pre m post k u E I. specialize (H pre m post E). rewrite Forall_forall in H.
    destruct (H _ I) as [A|A]; [left; now injection A | now right].
  - intros H pre m post E. apply Forall_forall. intros [k u] I.
    destruct (H pre m post k u E I) as [[A B]|A]; [left; now subst | now right].
Qed.

(** The invariant: sound flow, units in (20, b], each written once. *)
Record inv (p : bool) (b : nat) (d : list module) : Prop := {
  i_flow : flow p d;
  i_range : Forall (fun x => 20 < snd x <= b) (written d);
  i_once : NoDup (map snd (written d)) }.
Lemma inv_add p b b' d m : inv p b d -> Forall (fun r => fl p r (written d)) (reads m) ->
  Forall (fun x => b < snd x <= b') (writes m) -> NoDup (map snd (writes m)) -> 20 <= b -> b <= b' -> inv p b' (d ++ [m]).
Proof.
  intros [F R N] Hr Hw Hn B0 Hb. split.
  - now apply flow_snoc.
  - rewrite written_app. apply Forall_app. split.
    + apply (Forall_impl _ (P := fun x => 20 < snd x <= b)); [intros; lia | exact R].
    + unfold written. cbn. rewrite app_nil_r. apply (Forall_impl _ (P := fun x => b < snd x <= b')); [intros; lia | exact Hw].
  - rewrite written_app, map_app. unfold written at 2. cbn. rewrite app_nil_r.
    assert (D : forall x, In x (map snd (written d)) -> ~ In x (map snd (writes m))).
    { intros x I J. apply in_map_iff in I. apply in_map_iff in J. destruct I as [y [Y1 Y2]], J as [z [Z1 Z2]].
      rewrite Forall_forall in R, Hw. specialize (R _ Y2). specialize (Hw _ Z2). lia. }
    clear -N Hn D. induction (map snd (written d)) as [|x l IH]; [exact Hn|].
    cbn. inversion N; subst. constructor.
    + rewrite in_app_iff. intros [A|A]; [easy|]. apply (D x); [now left | easy].
    + apply IH; [easy|]. intros y I. apply D. now right.
Qed.

Lemma set_fresh {A} k (v : A) d : ~ In k (map fst d) -> set_item k v d = d ++ [(k, v)].
Proof.
  induction d as [|[k' v'] d IH]; cbn; intros H; [easy|].
  destruct (k =? k') eqn:E; [apply Nat.eqb_eq in E; subst; tauto | rewrite IH; tauto].
Qed.

(** Promised tapes are exactly the results written, and perhaps the PENDF tape. *)
Record tin (q : bool) (d : list module) (t : list (nat * kind)) : Prop := {
  t_mem : forall u k, In (u, k) t <-> In (k, u) (written d) /\ (final k = true \/ q = true /\ k = Pendf /\ u = 21);
  t_nodup : NoDup (map fst t) }.
Lemma tin_fresh p b q d t u : inv p b d -> tin q d t -> b < u -> ~ In u (map fst t).
Proof.
  intros [_ R _] [M _] H I. apply in_map_iff in I. destruct I as [[u' k] [E I]]. cbn in E. subst u'.
  apply M in I. destruct I as [I _]. rewrite Forall_forall in R. specialize (R _ I). cbn in R. lia.
Qed.

(** A step: modules and promised tapes are appended. *)
Definition finals (w : list (kind * nat)) : list (nat * kind) := map (fun x => (snd x, fst x)) (filter (fun x => final (fst x)) w).
Lemma tin_app q p b d t ms ts b' : inv p b d -> tin q d t -> 21 <= b ->
  Forall (fun x => b < snd x <= b') (written ms) ->
  NoDup (map fst ts) -> (forall x, In x ts <-> In x (finals (written ms))) ->
  tin q (d ++ ms) (t ++ ts).
Proof.
  intros I T Hb Hw Hn Hs. assert (T' := T). destruct T as [M N]. split.
  - intros u k. rewrite in_app_iff, M, Hs, written_app, in_app_iff. unfold finals. rewrite in_map_iff. split.
    + intros [[A B]|[[k' u'] [E A]]]; [tauto|]. cbn in E. injection E as -> ->. apply filter_In in A. cbn in A. tauto.
    + intros [[A|A] B]; [tauto|]. destruct B as [B|[Q [B C]]].
      * right. exists (k, u). split; [easy|]. apply filter_In. now split.
      * exfalso. rewrite Forall_forall in Hw. specialize (Hw _ A). cbn in Hw. lia.
  - rewrite map_app.
    assert (D : forall x, In x (map fst t) -> ~ In x (map fst ts)).
    { intros x J K. apply in_map_iff in K. destruct K as [[u k] [E K]]. cbn in E. subst u.
      apply Hs in K. unfold finals in K. apply in_map_iff in K. destruct K as [[k' u'] [E K]]. cbn in E. injection E as -> ->.
      apply filter_In in K. destruct K as [K _]. rewrite Forall_forall in Hw. specialize (Hw _ K). cbn in Hw.
      exact (tin_fresh _ _ _ _ _ x I T' (proj1 Hw) J). }
    clear -N Hn D. induction (map fst t) as [|x l IH]; [exact Hn|].
    cbn. inversion N; subst. constructor.
    + rewrite in_app_iff. intros [A|A]; [easy|]. apply (D x); [now left | easy].
    + apply IH; [easy|]. intros y J. apply D. now right.
Qed.

(** The state reached by a step, spelled out. *)
Definition ext1 (o : options) (b n : nat) : list module :=
  [groupr_call o (iwt1 o) b (n + 1); errorr33 o (n + 1) (n + 2); covr_lib (n + 2) (n + 3)] ++
  (if plot o then [covr_plot (n + 2) (n + 4); viewr (n + 4) (n + 5)] else []).
Definition text1 (o : options) (n : nat) : list (nat * kind) := (n + 3, Boxer) :: if plot o then [(n + 5, Eps)] else [].
Definition nlast1 (o : options) (n : nat) : nat := if plot o then n + 5 else n + 3.

Definition good (p q : bool) (s : state) : Prop := inv p (nlast s) (deck s) /\ tin q (deck s) (tapeout s) /\ 21 <= nlast s.

Lemma one_temp_eq p q o b s : good p q s ->
  one_temperature o b s = {| deck := deck s ++ ext1 o b (nlast s); tapeout := tapeout s ++ text1 o (nlast s); nlast := nlast1 o (nlast s) |}.
Proof.
  intros [I [T B]].
  pose proof (fun u => tin_fresh p _ q _ _ u I T) as F.
  unfold one_temperature, ext1, text1, nlast1, up, out, add. cbn [deck tapeout nlast].
  assert (E3 : S (S (S (nlast s))) = nlast s + 3) by lia.
  destruct (plot o); cbn [deck tapeout nlast].
  - rewrite (set_fresh (S (S (S (nlast s))))) by (apply F; lia).
    rewrite set_fresh.
    + f_equal; rewrite <- ?app_assoc; cbn [app]; repeat (f_equal; try lia).
    + rewrite map_app, in_app_iff. cbn. intros [A|[A|[]]]; [|lia]. revert A. apply F. lia.
  - rewrite set_fresh by (apply F; lia). f_equal; rewrite <- ?app_assoc; cbn [app]; repeat (f_equal; try lia).
Qed.

Lemma inv_weaken p b b' d : inv p b d -> b <= b' -> inv p b' d.
Proof. intros [F R N] H. split; try easy. apply (Forall_impl _ (P := fun x => 20 < snd x <= b)); [intros; lia | exact R]. Qed.

Ltac reads_tac := repeat (apply Forall_cons || apply Forall_nil); try apply fl_endf;
  try (apply fl_in; rewrite ?written_app, ?in_app_iff; cbn [written flat_map writes mk weighted app In groupr_call errorr33 errorr31 covr_lib covr_plot viewr]; tauto).
Ltac writes_tac := cbn [writes mk weighted groupr_call errorr33 errorr31 covr_lib covr_plot viewr heatr_call purr_call acer_call]; repeat (apply Forall_cons || apply Forall_nil); cbn [snd]; lia.
Ltac nd_tac := cbn; repeat (constructor; [cbn; lia|]); constructor.

Lemma good_one p q o b s : good p q s -> In (Pendf, b) (written (deck s)) ->
  good p q (one_temperature o b s) /\ In (Pendf, b) (written (deck (one_temperature o b s))).
Proof.
  intros G P. rewrite (one_temp_eq p q o b s G). destruct G as [I [T B]]. set (n := nlast s) in *. set (d := deck s) in *.
  split; [|cbn [deck]; rewrite written_app, in_app_iff; now left].
  split; [|split]; cbn [deck tapeout nlast].
  - unfold ext1, nlast1.
    assert (I1 : inv p (n + 1) (d ++ [groupr_call o (iwt1 o) b (n + 1)])).
    { apply (inv_add p n); try lia; [easy | reads_tac | writes_tac | nd_tac]. }
    assert (I2 : inv p (n + 2) ((d ++ [groupr_call o (iwt1 o) b (n + 1)]) ++ [errorr33 o (n + 1) (n + 2)])).
    { apply (inv_add p (n + 1)); try lia; [easy | reads_tac | writes_tac | nd_tac]. }
    pose proof (inv_add p (n + 2) (n + 3) _ (covr_lib (n + 2) (n + 3)) I2) as I3.
    specialize (I3 ltac:(reads_tac) ltac:(writes_tac) ltac:(nd_tac) ltac:(lia) ltac:(lia)).
    destruct (plot o).
    + pose proof (inv_add p (n + 3) (n + 4) _ (covr_plot (n + 2) (n + 4)) I3) as I4.
      specialize (I4 ltac:(reads_tac) ltac:(writes_tac) ltac:(nd_tac) ltac:(lia) ltac:(lia)).
      pose proof (inv_add p (n + 4) (n + 5) _ (viewr (n + 4) (n + 5)) I4) as I5.
      specialize (I5 ltac:(reads_tac) ltac:(writes_tac) ltac:(nd_tac) ltac:(lia) ltac:(lia)).
      rewrite <- !app_assoc in I5. exact I5.
    + rewrite <- !app_assoc in I3. rewrite app_nil_r. exact I3.
  - apply (tin_app q p n d _ _ _ (n + 5)); [easy | easy | lia | | |]; unfold ext1, text1.
    + destruct (plot o); cbn; repeat (apply Forall_cons || apply Forall_nil); cbn [snd]; lia.
    + destruct (plot o); nd_tac.
    + intros x. destruct (plot o); cbn; tauto.
  - unfold nlast1. destruct (plot o); lia.
Qed.
Lemma good_temps p q o b k : forall s, good p q s -> In (Pendf, b) (written (deck s)) ->
  good p q (temperatures k o b s) /\ In (Pendf, b) (written (deck (temperatures k o b s))).
Proof.
  induction k as [|k IH]; intros s G P; cbn [temperatures]; [easy|].
  destruct (good_one p q o b s G P) as [G' P']. now apply IH.
Qed.

Definition ext2 (o : options) (b g n : nat) : list module :=
  [errorr31 o b g (n + 1); covr_plot (n + 1) (n + 2); viewr (n + 2) (n + 3); covr_lib (n + 1) (n + 4)].
Lemma fission_eq p q o b g s : good p q s ->
  fission_part o b g s = {| deck := deck s ++ ext2 o b g (nlast s); tapeout := tapeout s ++ [(nlast s + 4, Boxer); (nlast s + 3, Eps)]; nlast := nlast s + 4 |}.
Proof.
  intros [I [T B]].
  pose proof (fun u => tin_fresh p _ q _ _ u I T) as F.
  unfold fission_part, ext2, up, out, add. cbn [deck tapeout nlast].
  rewrite (set_fresh (S (S (S (S (nlast s)))))) by (apply F; lia).
  rewrite set_fresh.
  - f_equal; rewrite <- ?app_assoc; cbn [app]; repeat (f_equal; try lia).
  - rewrite map_app, in_app_iff. cbn. intros [A|[A|[]]]; [|lia]. revert A. apply F. lia.
Qed.
Lemma good_fission p q o b g s : good p q s -> In (Pendf, b) (written (deck s)) -> In (Gendf, g) (written (deck s)) ->
  good p q (fission_part o b g s) /\ In (Pendf, b) (written (deck (fission_part o b g s))) /\ In (Gendf, g) (written (deck (fission_part o b g s))).
Proof.
  intros G P Q. rewrite (fission_eq p q o b g s G). destruct G as [I [T B]]. set (n := nlast s) in *. set (d := deck s) in *.
  cbn [deck tapeout nlast]. split; [|rewrite written_app, !in_app_iff; tauto].
  split; [|split]; cbn [deck tapeout nlast]; [| |lia].
  - unfold ext2.
    pose proof (inv_add p n (n + 1) _ (errorr31 o b g (n + 1)) I) as I1.
    specialize (I1 ltac:(reads_tac) ltac:(writes_tac) ltac:(nd_tac) ltac:(lia) ltac:(lia)).
    pose proof (inv_add p (n + 1) (n + 2) _ (covr_plot (n + 1) (n + 2)) I1) as I2.
    specialize (I2 ltac:(reads_tac) ltac:(writes_tac) ltac:(nd_tac) ltac:(lia) ltac:(lia)).
    pose proof (inv_add p (n + 2) (n + 3) _ (viewr (n + 2) (n + 3)) I2) as I3.
    specialize (I3 ltac:(reads_tac) ltac:(writes_tac) ltac:(nd_tac) ltac:(lia) ltac:(lia)).
    pose proof (inv_add p (n + 3) (n + 4) _ (covr_lib (n + 1) (n + 4)) I3) as I4.
    specialize (I4 ltac:(reads_tac) ltac:(writes_tac) ltac:(nd_tac) ltac:(lia) ltac:(lia)).
    rewrite <- !app_assoc in I4. exact I4.
  - apply (tin_app q p n d _ _ _ (n + 4)); [easy | easy | lia | | |]; unfold ext2.
    + cbn; repeat (apply Forall_cons || apply Forall_nil); cbn [snd]; lia.
    + nd_tac.
    + intros x. cbn. tauto.
Qed.
Lemma good_groupr p q o b s : good p q s -> In (Pendf, b) (written (deck s)) ->
  good p q (groupr_fission o b s) /\ In (Pendf, b) (written (deck (groupr_fission o b s))) /\ In (Gendf, S (nlast s)) (written (deck (groupr_fission o b s))).
Proof.
  intros [I [T B]] P. unfold groupr_fission, up, add. cbn [deck tapeout nlast].
  split; [|rewrite written_app, !in_app_iff; cbn; tauto].
  split; [|split]; cbn [deck tapeout nlast]; [| |lia].
  - apply (inv_add p (nlast s)); try lia; [easy | reads_tac | writes_tac | nd_tac].
  - rewrite <- (app_nil_r (tapeout s)). apply (tin_app q p (nlast s) _ _ _ _ (S (nlast s))); [easy | easy | lia | | |].
    + cbn; repeat (apply Forall_cons || apply Forall_nil); cbn [snd]; lia.
    + constructor.
    + intros x. cbn. tauto.
Qed.

Lemma last_snoc {A} (l m : list A) d : m <> [] -> last (l ++ m) d = last m d.
Proof.
  intros H. induction l as [|x l IH]; [easy|]. cbn [app last]. destruct (l ++ m) eqn:E; [|now rewrite IH].
  apply app_eq_nil in E. tauto.
Qed.
(** Where [nlast] points: at a unit of a result after at least one temperature. *)
Definition points (s : state) (w : bool) : Prop :=
  exists k, In (k, nlast s) (written (deck s)) /\ (final k = w) /\ (w = false -> k = Pendf).
Lemma points_one p q o b s : good p q s -> points (one_temperature o b s) true.
Proof.
  intros G. rewrite (one_temp_eq p q o b s G). unfold points. cbn [deck nlast]. unfold ext1, nlast1.
  destruct (plot o); [exists Eps | exists Boxer]; rewrite written_app, in_app_iff; cbn; (split; [right; tauto | easy]).
Qed.
Lemma points_temps p q o b k : forall s, good p q s -> In (Pendf, b) (written (deck s)) -> points (temperatures (S k) o b s) true.
Proof.
  induction k as [|k IH]; intros s G P.
  - cbn [temperatures]. now apply (points_one p q).
  - change (points (temperatures (S k) o b (one_temperature o b s)) true). destruct (good_one p q o b s G P). now apply IH.
Qed.
Lemma points_fission p q o b g s : good p q s -> points (fission_part o b g s) true.
Proof.
  intros G. rewrite (fission_eq p q o b g s G). unfold points. cbn [deck nlast]. exists Boxer. rewrite written_app, in_app_iff. cbn.
  split; [right; tauto | easy].
Qed.

Lemma good_cov p q o b s s' : good p q s -> In (Pendf, b) (written (deck s)) -> covariances o (Some b) s = Ok s' ->
  good p q s' /\ In (Pendf, b) (written (deck s')) /\ (temps o <> 0 -> points s' true) /\ (temps o = 0 -> s' = s).
Proof.
  intros G P. unfold covariances. destruct (negb (groups o)); [discriminate|]. destruct (iwt1 o && negb (weights o)); [discriminate|].
  destruct (temps o) as [|k].
  - destruct (nu o || chi o); [discriminate|]. intros H. injection H as <-. split; [exact G|]. split; [exact P|]. split; [congruence | easy].
  - destruct (good_temps p q o b (S k) s G P) as [G1 P1]. pose proof (points_temps p q o b k s G P) as Z.
    set (s1 := temperatures (S k) o b s) in *.
    destruct (nu o || chi o) eqn:NC.
    + destruct (good_groupr p q o b s1 G1 P1) as [G2 [P2 Q2]]. set (g := S (nlast s1)) in *. set (s2 := groupr_fission o b s1) in *.
      intros H. injection H as <-.
      destruct (nu o).
      * destruct (good_fission p q o b g s2 G2 P2 Q2) as [G3 [P3 Q3]]. destruct (chi o).
        -- destruct (good_fission p q o b g _ G3 P3 Q3) as [G4 [P4 Q4]]. split; [easy|]. split; [easy|]. split; [|easy].
           intros _. now apply (points_fission p q).
        -- split; [easy|]. split; [easy|]. split; [|easy]. intros _. now apply (points_fission p q).
      * cbn in NC. rewrite NC. destruct (good_fission p q o b g s2 G2 P2 Q2) as [G3 [P3 Q3]]. split; [easy|]. split; [easy|]. split; [|easy].
        intros _. now apply (points_fission p q).
    + intros H. injection H as <-. split; [exact G1|]. split; [exact P1|]. split; [easy | discriminate].
Qed.

Lemma good_acers p q i0 k : forall i s, (forall m, In m (written (deck s)) -> snd m <= i0 + 2 * i) ->
  inv p (i0 + 2 * i) (deck s) -> tin q (deck s) (tapeout s) -> 21 <= i0 -> fl p (Pendf, i0) (written (deck s)) ->
  inv p (i0 + 2 * (i + k)) (deck (acers k i i0 s)) /\ tin q (deck (acers k i i0 s)) (tapeout (acers k i i0 s)).
Proof.
  induction k as [|k IH]; intros i s M I T B F; cbn [acers].
  - rewrite Nat.add_0_r. easy.
  - set (a := i0 + 1 + 2 * i).
    pose proof (fun u => tin_fresh p _ q _ _ u I T) as Fr.
    set (s1 := out (S a) Xsdir (out a Ace (add (acer_call i0 a (S a)) s))).
    assert (D : deck s1 = deck s ++ [acer_call i0 a (S a)]) by reflexivity.
    assert (O : tapeout s1 = tapeout s ++ [(a, Ace); (S a, Xsdir)]).
    { unfold s1, out, add. cbn [tapeout]. rewrite (set_fresh a) by (apply Fr; unfold a; lia). rewrite set_fresh.
      - now rewrite <- app_assoc.
      - rewrite map_app, in_app_iff. cbn. intros [A|[A|[]]]; [|lia]. revert A. apply Fr. unfold a. lia. }
    assert (I1 : inv p (i0 + 2 * S i) (deck s1)).
    { rewrite D. apply (inv_add p (i0 + 2 * i)); try lia; [easy | | | nd_tac].
      - constructor; [apply fl_endf|]. constructor; [exact F | constructor].
      - cbn. repeat constructor; cbn; unfold a; lia. }
    replace (i + S k) with (S i + k) by lia. apply IH; try easy.
    + intros m J. destruct I1 as [_ R _]. rewrite Forall_forall in R. specialize (R _ J). lia.
    + rewrite D, O. apply (tin_app q p (i0 + 2 * i) _ _ _ _ (i0 + 2 * S i)); [easy | easy | lia | | |].
      * cbn. repeat constructor; cbn; unfold a; lia.
      * nd_tac.
      * intros x. cbn. tauto.
    + rewrite D, written_app. destruct p; cbn in F |- *.
      * destruct F as [F|F]; [discriminate|]. right. apply in_app_iff. now left.
      * right. rewrite map_app, in_app_iff. destruct F as [F|F]; [lia|]. now left.
Qed.

(** *** Whole decks *)
Lemma inv_reconr p : inv p 21 [reconr].
Proof.
  apply (inv_add p 20 21 [] reconr); try lia.
  - split; [|constructor|constructor]. intros pre m post E. destruct pre; discriminate.
  - repeat constructor. apply fl_endf.
  - repeat constructor; cbn; lia.
  - nd_tac.
Qed.
Definition start (o : options) : state :=
  let s := {| deck := [reconr]; tapeout := if pendf o then [(npendf, Pendf)] else []; nlast := npendf |} in
  if broadr o then up 22 (add (broadr_call 22) s) else s.
Lemma good_start p o : good p (pendf o) (start o) /\ In (Pendf, nlast (start o)) (written (deck (start o))).
Proof.
  pose proof (inv_reconr p) as I.
  assert (T : tin (pendf o) [reconr] (if pendf o then [(npendf, Pendf)] else [])).
  { split.
    - intros u k. destruct (pendf o); cbn; split.
      + intros [E|[]]. injection E as <- <-. tauto.
      + intros [[E|[]] _]. injection E as <- <-. tauto.
      + easy.
      + intros [[E|[]] [A|[A _]]]; [injection E as <- <-|]; discriminate.
    - destruct (pendf o); repeat constructor; easy. }
  unfold start. destruct (broadr o); cbn [up add deck tapeout nlast].
  - split; [|cbn; tauto]. split; [|split]; cbn [deck tapeout nlast up add]; [| |lia].
    + apply (inv_add p 21); try lia; [easy | | | nd_tac].
      * constructor; [apply fl_endf|]. constructor; [|constructor]. apply fl_in. cbn. tauto.
      * cbn. repeat constructor; cbn; lia.
    + rewrite <- (app_nil_r (if pendf o then _ else _)). apply (tin_app _ p 21 _ _ _ _ 22); [easy | easy | lia | | |].
      * cbn. repeat constructor; cbn; lia.
      * constructor.
      * intros x. cbn. tauto.
  - split; [|cbn; tauto]. split; [|split]; cbn [deck tapeout nlast]; [easy | easy | unfold npendf; lia].
Qed.

Definition cov_step (o : options) : result state :=
  if errorr o then covariances o (if broadr o then Some 22 else None) (start o) else Ok (start o).
Definition heat_step (o : options) (s : state) : result state :=
  if heatr o
  then if broadr o then Ok (up (S (nlast s)) (add (heatr_call 22 (S (nlast s))) s)) else Raised Unset
  else Ok s.
Definition purr_step (o : options) (s : state) : state :=
  if purr o then up (S (nlast s)) (add (purr_call (nlast s) (S (nlast s))) s) else s.
Definition acer_step (o : options) (s : state) : state := if acer o then acers (temps o) 0 (nlast s) s else s.
Lemma run_eq o : make_njoy_run o =
  match cov_step o with
  | Raised f => Raised f
  | Ok s => match heat_step o s with
            | Raised f => Raised f
            | Ok s => let s := acer_step o (purr_step o s) in if run o then Raised NotCallable else Ok (deck s, tapeout s)
            end
  end.
Proof.
  unfold make_njoy_run, cov_step, heat_step, purr_step, acer_step, start. cbn [nlast].
  destruct (broadr o); unfold npendf; reflexivity.
Qed.

(** After the covariances. *)
Lemma after_cov p o s : cov_step o = Ok s ->
  good p (pendf o) s /\ (broadr o = true -> In (Pendf, 22) (written (deck s))) /\
  points s (errorr o && negb (temps o =? 0)).
Proof.
  intros H. unfold cov_step in H. destruct (good_start p o) as [G P].
  assert (PS : points (start o) false) by (exists Pendf; easy).
  assert (PB : broadr o = true -> In (Pendf, 22) (written (deck (start o)))).
  { intros B. unfold start. rewrite B. cbn. tauto. }
  destruct (errorr o); cbn [andb].
  - destruct (broadr o) eqn:B.
    + specialize (PB eq_refl). destruct (good_cov p (pendf o) o 22 _ _ G PB H) as [G' [P' [Z1 Z2]]].
      split; [exact G'|]. split; [easy|]. destruct (temps o) as [|k]; cbn.
      * rewrite Z2; easy.
      * apply Z1. easy.
    + unfold covariances in H. destruct (negb (groups o)); [discriminate|]. destruct (iwt1 o && negb (weights o)); [discriminate|].
      destruct (temps o); [|discriminate]. destruct (nu o || chi o); [discriminate|]. injection H as <-.
      split; [exact G|]. split; [easy|]. exact PS.
  - injection H as <-. split; [exact G|]. split; [exact PB | exact PS].
Qed.
Lemma after_heat p o s s1 : cov_step o = Ok s -> heat_step o s = Ok s1 ->
  good p (pendf o) s1 /\ points s1 (errorr o && negb (temps o =? 0) && negb (heatr o)).
Proof.
  intros H H1. destruct (after_cov p o s H) as [G [P Z]]. unfold heat_step in H1.
  destruct (heatr o).
  - rewrite andb_false_r. destruct (broadr o); [|discriminate]. specialize (P eq_refl). injection H1 as <-.
    split.
    + destruct G as [I [T B]]. split; [|split]; cbn [up add deck tapeout nlast]; [| |lia].
      * apply (inv_add p (nlast s)); try lia; [easy | | | nd_tac].
        -- constructor; [apply fl_endf|]. constructor; [now apply fl_in | constructor].
        -- cbn. repeat constructor; cbn; lia.
      * rewrite <- (app_nil_r (tapeout s)). apply (tin_app _ p (nlast s) _ _ _ _ (S (nlast s))); [easy | easy | lia | | |].
        -- cbn. repeat constructor; cbn; lia.
        -- constructor.
        -- intros x. cbn. tauto.
    + exists Pendf. cbn [up add deck nlast]. rewrite written_app, in_app_iff. cbn. tauto.
  - rewrite andb_true_r. injection H1 as <-. split; [exact G | exact Z].
Qed.
Lemma points_fl p s w : points s w -> (p = true -> w = false) -> fl p (Pendf, nlast s) (written (deck s)).
Proof.
  intros [k [I [F K]]] H. destruct p.
  - specialize (H eq_refl). rewrite (K H) in I. now apply fl_in.
  - right. cbn. apply in_map_iff. exists (k, nlast s). easy.
Qed.
Lemma after_purr p o s : good p (pendf o) s -> (purr o = true -> fl p (Pendf, nlast s) (written (deck s))) ->
  good p (pendf o) (purr_step o s) /\ (purr o = true -> In (Pendf, nlast (purr_step o s)) (written (deck (purr_step o s)))).
Proof.
  intros G F. unfold purr_step. destruct (purr o); [|easy]. destruct G as [I [T B]].
  split; cbn [up add deck tapeout nlast].
  - split; [|split]; cbn [up add deck tapeout nlast]; [| |lia].
    + apply (inv_add p (nlast s)); try lia; [easy | | | nd_tac].
      * constructor; [apply fl_endf|]. constructor; [now apply F | constructor].
      * cbn. repeat constructor; cbn; lia.
    + rewrite <- (app_nil_r (tapeout s)). apply (tin_app _ p (nlast s) _ _ _ _ (S (nlast s))); [easy | easy | lia | | |].
      * cbn. repeat constructor; cbn; lia.
      * constructor.
      * intros x. cbn. tauto.
  - intros _. rewrite written_app, in_app_iff. cbn. tauto.
Qed.
Lemma after_acer p q o s : good p q s -> (acer o = true -> temps o <> 0 -> fl p (Pendf, nlast s) (written (deck s))) ->
  flow p (deck (acer_step o s)) /\ written_once (deck (acer_step o s)) /\ tin q (deck (acer_step o s)) (tapeout (acer_step o s)).
Proof.
  intros G F. assert (X : exists b, inv p b (deck (acer_step o s)) /\ tin q (deck (acer_step o s)) (tapeout (acer_step o s))).
  { destruct G as [I [T B]]. unfold acer_step. destruct (acer o).
    - destruct (temps o) as [|k] eqn:E; [now exists (nlast s)|].
      destruct (good_acers p q (nlast s) (S k) 0 s) as [I' T']; try easy.
      + intros m J. destruct I as [_ R _]. rewrite Forall_forall in R. specialize (R _ J). lia.
      + now rewrite Nat.add_0_r.
      + now apply F.
      + eexists. split; [exact I' | exact T'].
    - now exists (nlast s). }
  destruct X as [b [[I1 I2 I3] T]]. split; [easy|]. split; [|easy]. split; [easy|].
  intros J. apply in_map_iff in J. destruct J as [[k u] [E J]]. cbn in E. subst u. rewrite Forall_forall in I2. specialize (I2 _ J). cbn in I2. lia.
Qed.

(** The condition under which a later module can meet a result tape. *)
Definition stray (o : options) : Prop := errorr o = true /\ temps o <> 0 /\ heatr o = false /\ (purr o = true \/ acer o = true).
Lemma whole p o d t : (p = true -> ~ stray o) -> make_njoy_run o = Ok (d, t) ->
  flow p d /\ written_once d /\ tin (pendf o) d t.
Proof.
  intros HS. rewrite run_eq. destruct (cov_step o) as [s|] eqn:E1; [|discriminate].
  destruct (heat_step o s) as [s1|] eqn:E2; [|discriminate]. cbv zeta.
  destruct (run o); [discriminate|]. intros H. injection H as <- <-.
  destruct (after_heat p o s s1 E1 E2) as [G Z].
  assert (F : purr o = true \/ acer o = true /\ temps o <> 0 -> fl p (Pendf, nlast s1) (written (deck s1))).
  { intros C. apply (points_fl p s1 _ Z). intros Hp. specialize (HS Hp). unfold stray in HS.
    destruct (errorr o), (heatr o); cbn; try easy; rewrite ?andb_true_r, ?andb_false_r; try easy.
    destruct (Nat.eqb_spec (temps o) 0) as [E|E]; [easy|]. exfalso. apply HS. repeat split; tauto. }
  destruct (after_purr p o s1 G (fun h => F (or_introl h))) as [G2 P2].
  apply (after_acer p (pendf o) o); [exact G2|].
  intros A K. destruct (purr o) eqn:U.
  - apply fl_in. now apply P2.
  - unfold purr_step. rewrite U. apply F. tauto.
Qed.

Lemma acers_deck k : forall i n s, exists r, deck (acers k i n s) = deck s ++ r.
Proof.
  induction k as [|k IH]; intros i n s; cbn [acers]; [exists []; now rewrite app_nil_r|].
  destruct (IH (S i) n (out (S (n + 1 + 2 * i)) Xsdir (out (n + 1 + 2 * i) Ace (add (acer_call n (n + 1 + 2 * i) (S (n + 1 + 2 * i))) s)))) as [r E].
  rewrite E. cbn [out add deck]. rewrite <- app_assoc. eexists. reflexivity.
Qed.
Lemma once_kind (d : list (kind * nat)) k k' u : NoDup (map snd d) -> In (k, u) d -> In (k', u) d -> k = k'.
Proof.
  induction d as [|[a b] d IH]; cbn; [easy|]. intros N. inversion N as [|? ? N1 N2]; subst. intros [E|I] [E'|I'].
  - congruence.
  - injection E as -> ->. exfalso. apply N1. now apply (in_map snd) in I'.
  - injection E' as -> ->. exfalso. apply N1. now apply (in_map snd) in I.
  - now apply IH.
Qed.
Lemma not_flow_result d m r u : written_once d -> points {| deck := d; tapeout := []; nlast := u |} true ->
  In (Pendf, u) (reads m) -> ~ flow true (d ++ m :: r).
Proof.
  intros [N N20] [k [I [F _]]] R H. cbn [nlast deck] in *. specialize (H d m r eq_refl). rewrite Forall_forall in H.
  destruct (H _ R) as [A|A]; [discriminate|].
  rewrite (once_kind _ _ _ _ N I A) in F. discriminate.
Qed.
Lemma stray_bad o d t : stray o -> make_njoy_run o = Ok (d, t) -> ~ flow true d.
Proof.
  intros [H1 [H2 [H3 H4]]]. rewrite run_eq. destruct (cov_step o) as [s|] eqn:E1; [|discriminate].
  destruct (heat_step o s) as [s1|] eqn:E2; [|discriminate]. cbv zeta.
  destruct (run o); [discriminate|]. intros H. injection H as <- <-.
  destruct (after_heat true o s s1 E1 E2) as [[I _] Z]. rewrite H1, H3 in Z. cbn in Z.
  apply Nat.eqb_neq in H2. rewrite H2 in Z. cbn in Z. apply Nat.eqb_neq in H2.
  assert (W : written_once (deck s1)).
  { destruct I as [_ R N]. split; [easy|]. intros J. apply in_map_iff in J. destruct J as [x [Ex J]].
    rewrite Forall_forall in R. specialize (R _ J). lia. }
  unfold acer_step, purr_step. destruct (purr o) eqn:U.
  - assert (X : exists r, deck (if acer o then acers (temps o) 0 (nlast (up (S (nlast s1)) (add (purr_call (nlast s1) (S (nlast s1))) s1))) (up (S (nlast s1)) (add (purr_call (nlast s1) (S (nlast s1))) s1)) else up (S (nlast s1)) (add (purr_call (nlast s1) (S (nlast s1))) s1)) = deck s1 ++ purr_call (nlast s1) (S (nlast s1)) :: r).
    { destruct (acer o); [|now exists []].
      destruct (acers_deck (temps o) 0 (nlast (up (S (nlast s1)) (add (purr_call (nlast s1) (S (nlast s1))) s1))) (up (S (nlast s1)) (add (purr_call (nlast s1) (S (nlast s1))) s1))) as [r E].
      exists r. rewrite E. cbn [up add deck]. now rewrite <- app_assoc. }
    destruct X as [r E]. rewrite E. apply (not_flow_result _ _ _ (nlast s1)); try easy. cbn. tauto.
  - destruct H4 as [H4|H4]; [discriminate|]. rewrite H4. destruct (temps o) as [|k]; [easy|]. cbn [acers].
    destruct (acers_deck k 1 (nlast s1) (out (S (nlast s1 + 1 + 2 * 0)) Xsdir (out (nlast s1 + 1 + 2 * 0) Ace (add (acer_call (nlast s1) (nlast s1 + 1 + 2 * 0) (S (nlast s1 + 1 + 2 * 0))) s1)))) as [r E].
    rewrite E. cbn [out add deck]. rewrite <- app_assoc. apply (not_flow_result _ _ _ (nlast s1)); try easy. cbn. tauto.
Qed.

(** *** Statements *)
Lemma deck_sound o d t : make_njoy_run o = Ok (d, t) -> ordered d /\ written_once d.
Proof. intros H. destruct (whole false o d t ltac:(discriminate) H) as [A [B _]]. split; [now apply flow_ordered | exact B]. Qed.
Lemma deck_typed o d t : make_njoy_run o = Ok (d, t) ->
  (typed d <-> ~ (errorr o = true /\ temps o <> 0 /\ heatr o = false /\ (purr o = true \/ acer o = true))).
Proof.
  intros H. rewrite <- flow_typed. split.
  - intros F S. exact (stray_bad o d t S H F).
  - intros N. apply (whole true o d t (fun _ => N) H).
Qed.
Lemma deck_tapes o d t : make_njoy_run o = Ok (d, t) -> NoDup (map fst t) /\
  forall u k, In (u, k) t <-> In (k, u) (written d) /\ (final k = true \/ pendf o = true /\ k = Pendf /\ u = 21).
Proof. intros H. destruct (whole false o d t ltac:(discriminate) H) as [_ [_ [A B]]]. now split. Qed.

Lemma builds o : (exists d t, make_njoy_run o = Ok (d, t)) <->
  run o = false /\ (heatr o = true -> broadr o = true) /\
  (errorr o = true -> groups o = true /\ (iwt1 o = true -> weights o = true) /\
                      (temps o = 0 -> nu o = false /\ chi o = false) /\ (temps o <> 0 -> broadr o = true)).
Proof.
  rewrite run_eq. unfold cov_step, heat_step, covariances. cbv zeta.
  destruct (run o); [split; [intros [d [t H]] | easy]|].
  - exfalso. repeat (match type of H with context [match ?x with _ => _ end] => destruct x end; try discriminate).
  - split.
    + intros [d [t H]]. split; [easy|].
      destruct (errorr o), (groups o), (iwt1 o), (weights o), (broadr o), (heatr o), (temps o), (nu o), (chi o); cbn in H; try discriminate H; repeat split; intros; congruence.
    + intros [_ [A B]].
      destruct (errorr o).
      * destruct (B eq_refl) as [B1 [B2 [B3 B4]]]. rewrite B1. cbn [negb].
        assert (E : iwt1 o && negb (weights o) = false) by (destruct (iwt1 o); [now rewrite (B2 eq_refl) | easy]). rewrite E.
        destruct (temps o) as [|k].
        -- destruct (B3 eq_refl) as [-> ->]. cbn [orb]. destruct (heatr o); [rewrite (A eq_refl)|]; eauto.
        -- rewrite (B4 ltac:(discriminate)). destruct (heatr o), (nu o), (chi o); cbn [orb]; eauto.
      * destruct (heatr o); [rewrite (A eq_refl)|]; eauto.
Qed.

(** *** Weight tables *)
Notation tc := table_consistent.
Lemma tc_one o b s : Forall tc (deck s) -> Forall tc (deck (one_temperature o b s)).
Proof.
  intros H. unfold one_temperature, up, out, add. destruct (plot o); cbn [deck]; rewrite !Forall_app; repeat split; try exact H; repeat constructor.
Qed.
Lemma tc_temps o b k : forall s, Forall tc (deck s) -> Forall tc (deck (temperatures k o b s)).
Proof. induction k as [|k IH]; intros s H; cbn [temperatures]; [easy|]. now apply IH, tc_one. Qed.
Lemma tc_fission o b g s : Forall tc (deck s) -> Forall tc (deck (fission_part o b g s)).
Proof. intros H. unfold fission_part, up, out, add. cbn [deck]. rewrite !Forall_app. repeat split; try exact H; repeat constructor. Qed.
Lemma tc_acers k : forall i n s, Forall tc (deck s) -> Forall tc (deck (acers k i n s)).
Proof.
  induction k as [|k IH]; intros i n s H; cbn [acers]; [easy|]. apply IH. cbn [out add deck]. rewrite Forall_app. split; [exact H | repeat constructor].
Qed.
Lemma tc_start o : Forall tc (deck (start o)).
Proof. unfold start. destruct (broadr o); cbn; repeat constructor. Qed.
Lemma fission_deck o b g s : exists r, deck (fission_part o b g s) = deck s ++ r.
Proof. unfold fission_part, up, out, add. cbn [deck]. rewrite <- !app_assoc. eexists. reflexivity. Qed.
Lemma tail_deck o s s1 : heat_step o s = Ok s1 -> exists r, deck (acer_step o (purr_step o s1)) = deck s ++ r /\ (Forall tc r).
Proof.
  intros H. assert (X : exists r, deck s1 = deck s ++ r /\ Forall tc r).
  { unfold heat_step in H. destruct (heatr o); [|injection H as <-; exists []; split; [now rewrite app_nil_r | constructor]].
    destruct (broadr o); [|discriminate]. injection H as <-. cbn. eexists. split; [reflexivity | repeat constructor]. }
  destruct X as [r [E R]].
  assert (Y : exists r', deck (purr_step o s1) = deck s ++ r' /\ Forall tc r').
  { unfold purr_step. destruct (purr o); [|now exists r]. cbn. rewrite E, <- app_assoc. eexists. split; [reflexivity|].
    apply Forall_app. split; [exact R | repeat constructor]. }
  destruct Y as [r' [E' R']]. unfold acer_step. destruct (acer o); [|now exists r'].
  generalize (nlast (purr_step o s1)) as n. generalize 0 as i. revert r' E' R'.
  generalize (purr_step o s1) as s2. induction (temps o) as [|k IH]; intros s2 r' E' R' i n; cbn [acers]; [now exists r'|].
  eapply IH; [cbn [out add deck]; rewrite E', <- app_assoc; reflexivity|].
  apply Forall_app. split; [exact R' | repeat constructor].
Qed.
Lemma tables o d t : make_njoy_run o = Ok (d, t) ->
  (Forall tc d <-> ~ (errorr o = true /\ iwt1 o = true /\ (nu o = true \/ chi o = true))).
Proof.
  rewrite run_eq. destruct (cov_step o) as [s|] eqn:E1; [|discriminate].
  destruct (heat_step o s) as [s1|] eqn:E2; [|discriminate]. cbv zeta.
  destruct (run o); [discriminate|]. intros H. injection H as <- <-.
  destruct (tail_deck o s s1 E2) as [r [-> R]]. rewrite Forall_app.
  assert (X : Forall tc (deck s) <-> ~ (errorr o = true /\ iwt1 o = true /\ (nu o = true \/ chi o = true))); [|tauto].
  unfold cov_step in E1. destruct (errorr o).
  2:{ injection E1 as <-. split; [intuition discriminate|]. intros _. apply tc_start. }
  unfold covariances in E1. destruct (negb (groups o)); [discriminate|]. destruct (iwt1 o && negb (weights o)); [discriminate|].
  destruct (temps o) as [|k].
  - destruct (nu o), (chi o); try discriminate. injection E1 as <-. split; [intuition discriminate|]. intros _. apply tc_start.
  - destruct (broadr o); [|discriminate].
    pose proof (tc_temps o 22 (S k) _ (tc_start o)) as T. set (s2 := temperatures (S k) o 22 (start o)) in *.
    destruct (nu o || chi o) eqn:NC.
    + injection E1 as <-.
      assert (G : exists r', deck (let s3 := groupr_fission o 22 s2 in let s3 := if nu o then fission_part o 22 (S (nlast s2)) s3 else s3 in
                  if chi o then fission_part o 22 (S (nlast s2)) s3 else s3) = deck s2 ++ groupr_call o false 22 (S (nlast s2)) :: r' ).
      { cbv zeta. unfold groupr_fission at 1. destruct (nu o), (chi o);
          repeat match goal with |- context [deck (fission_part ?o ?b ?g ?s)] => destruct (fission_deck o b g s) as [? ->] end;
          cbn [groupr_fission up add deck]; rewrite <- ?app_assoc; cbn [app]; eexists; reflexivity. }
      split.
      * intros F [_ [W C]]. destruct G as [r' G]. cbv zeta in G. rewrite G in F. rewrite Forall_app in F. destruct F as [_ F].
        inversion F as [|? ? F1 F2]; subst. unfold tc in F1. cbn in F1. congruence.
      * intros N. assert (W : iwt1 o = false).
        { destruct (iwt1 o); [|easy]. exfalso. apply N. repeat split. destruct (nu o); [now left | now right]. }
        assert (T3 : Forall tc (deck (groupr_fission o 22 s2))).
        { unfold groupr_fission, up, add. cbn [deck]. rewrite Forall_app. split; [exact T|]. repeat constructor. exact W. }
        destruct (nu o), (chi o); repeat apply tc_fission; exact T3.
    + injection E1 as <-. split; [|intros _; exact T]. intros _ [_ [_ C]]. destruct (nu o), (chi o); cbn in NC; intuition discriminate.
Qed.

(** *** Picking covariance tapes *)
Definition is_boxer (x : nat * kind) : bool := match snd x with Boxer => true | _ => false end.
Inductive alt : list (nat * kind) -> Prop := alt_nil : alt [] | alt_cons u v l : alt l -> alt ((u, Boxer) :: (v, Eps) :: l).
Lemma alt_app a b : alt a -> alt b -> alt (a ++ b).
Proof. induction 1; intros Hb; cbn; [easy | constructor; tauto]. Qed.
Lemma alt_pick l : alt l -> every_other l = filter is_boxer l.
Proof. induction 1 as [|u v l H IH]; cbn; [easy | now rewrite IH]. Qed.

Lemma tapes_temps p q o b k : forall s, good p q s -> In (Pendf, b) (written (deck s)) ->
  exists ts, tapeout (temperatures k o b s) = tapeout s ++ ts /\ length (filter is_boxer ts) = k /\
    (if plot o then alt ts else Forall (fun x => snd x = Boxer) ts).
Proof.
  induction k as [|k IH]; intros s G P; cbn [temperatures].
  - exists []. rewrite app_nil_r. repeat split. destruct (plot o); constructor.
  - destruct (good_one p q o b s G P) as [G' P']. destruct (IH _ G' P') as [ts [E [L A]]].
    rewrite E, (one_temp_eq p q o b s G). cbn [tapeout]. rewrite <- app_assoc. eexists. split; [reflexivity|].
    unfold text1. destruct (plot o); cbn [app filter is_boxer snd length]; (split; [now rewrite L|]); now constructor.
Qed.
Lemma tapes_fission p q o b g s : good p q s ->
  exists u v, tapeout (fission_part o b g s) = tapeout s ++ [(u, Boxer); (v, Eps)].
Proof. intros G. rewrite (fission_eq p q o b g s G). cbn [tapeout]. eauto. Qed.
Definition b2n (b : bool) : nat := if b then 1 else 0.

Lemma cover_shape k mts nu chi iwt1 weights groups d t :
  make_njoy_run (cover_options k mts nu chi iwt1 weights groups) = Ok (d, t) ->
  exists a z, t = a ++ z /\ length (filter is_boxer a) = k /\ (if mts || chi then alt a else Forall (fun x => snd x = Boxer) a) /\
    alt z /\ length (filter is_boxer z) = b2n nu + b2n chi.
Proof.
  rewrite run_eq. set (o := cover_options k mts nu chi iwt1 weights groups).
  destruct (good_start false o) as [G P].
  unfold cov_step, heat_step, acer_step, purr_step. cbn [errorr heatr purr acer run o cover_options broadr].
  unfold covariances. cbn [Njoy_Model.groups Njoy_Model.iwt1 Njoy_Model.weights temps Njoy_Model.nu Njoy_Model.chi o cover_options].
  fold o. destruct (negb groups); [discriminate|]. destruct (iwt1 && negb weights); [discriminate|].
  destruct k as [|k].
  - destruct nu, chi; try discriminate. cbn. intros H. injection H as <- <-. exists [], []. repeat split; try constructor. destruct (mts || false); constructor.
  - cbn [negb]. change (In (Pendf, nlast (start o)) (written (deck (start o)))) with (In (Pendf, 22) (written (deck (start o)))) in P.
    change (pendf o) with false in *.
    destruct (tapes_temps false false o 22 (S k) (start o) G P) as [a [E [L A]]].
    destruct (good_temps false false o 22 (S k) _ G P) as [G1 P1].
    set (s2 := temperatures (S k) o 22 (start o)) in *. change (tapeout (start o)) with (@nil (nat * kind)) in E. cbn [app] in E.
    change (plot o) with (mts || chi) in A.
    destruct (good_groupr false false o 22 s2 G1 P1) as [G2 [P2 Q2]].
    assert (E2 : tapeout (groupr_fission o 22 s2) = a) by (rewrite <- E; reflexivity).
    set (s3 := groupr_fission o 22 s2) in *.
    destruct (good_fission false false o 22 (S (nlast s2)) s3 G2 P2 Q2) as [G3 [P3 Q3]].
    destruct (tapes_fission false false o 22 (S (nlast s2)) s3 G2) as [u [v E3]].
    destruct (tapes_fission false false o 22 (S (nlast s2)) _ G3) as [u' [v' E4]].
    assert (OK : forall (x y : list module * list (nat * kind)), Ok x = Ok y -> snd x = snd y) by (intros x y Q; congruence).
    destruct nu, chi; cbn [orb]; intros H; apply OK in H; cbn [snd] in H; rewrite <- H.
    + exists a, [(u, Boxer); (v, Eps); (u', Boxer); (v', Eps)]. rewrite E4, E3, E2, <- app_assoc. repeat split; try easy. repeat constructor.
    + exists a, [(u, Boxer); (v, Eps)]. rewrite E3, E2. repeat split; try easy. repeat constructor.
    + exists a, [(u, Boxer); (v, Eps)]. rewrite E3, E2. repeat split; try easy. repeat constructor.
    + exists a, []. rewrite E, app_nil_r. repeat split; try easy. constructor.
Qed.
Lemma every_other_len {A} (l : list A) : forall n, length l <= n -> length (every_other l) * 2 <= length l + 1.
Proof.
  intros n; revert l. induction n as [|n IH]; intros l H.
  - destruct l; cbn in *; lia.
  - destruct l as [|x [|y l]]; cbn [every_other length] in *; try lia. specialize (IH l ltac:(lia)). lia.
Qed.
Lemma boxers_filter a : Forall (fun x => snd x = Boxer) a -> filter is_boxer a = a.
Proof. induction 1 as [|[u k] a H _ IH]; cbn in *; [easy|]. subst k. cbn. now rewrite IH. Qed.
Lemma alt_length z : alt z -> length z = 2 * length (filter is_boxer z).
Proof. induction 1; cbn [length filter is_boxer snd]; lia. Qed.

Lemma picks k mts nu chi iwt1 weights groups d t : make_njoy_run (cover_options k mts nu chi iwt1 weights groups) = Ok (d, t) ->
  exists l, cover_tapes k mts nu chi iwt1 weights groups = Ok l /\
    (l = filter is_boxer t <-> mts = true \/ chi = true \/ k = 0 \/ k = 1 /\ nu = false) /\
    length (filter is_boxer t) = k + b2n nu + b2n chi.
Proof.
  intros H. unfold cover_tapes. rewrite H. exists (every_other t). split; [easy|].
  destruct (cover_shape _ _ _ _ _ _ _ _ _ H) as [a [z [-> [L [A [Z LZ]]]]]].
  rewrite filter_app, app_length, L, LZ. split; [|lia].
  destruct (mts || chi) eqn:M.
  - split; [intros _; destruct mts; [tauto|]; cbn in M; tauto|]. intros _. rewrite (alt_pick (a ++ z) (alt_app _ _ A Z)), filter_app. reflexivity.
  - apply orb_false_iff in M. destruct M as [-> ->]. rewrite (boxers_filter a A) in L |- *. cbn [b2n] in LZ.
    pose proof (alt_length z Z) as AL. rewrite LZ in AL. split.
    + intros E. right. right. assert (E0 := E). apply (f_equal (@length _)) in E. rewrite app_length, LZ in E.
      pose proof (every_other_len (a ++ z) _ (le_n _)) as Q. rewrite E, app_length, AL, L in Q. destruct nu; cbn [b2n] in *.
      { destruct k as [|[|k]]; [tauto| |lia]. exfalso. destruct a as [|x [|? ?]]; try discriminate.
        inversion Z as [|u v l Zl]; subst; cbn in E0; [discriminate|]. destruct l; cbn in E0; discriminate. }
      destruct k as [|[|k]]; [tauto | tauto | lia].
    + intros [C|[C|[C|[C C']]]]; try discriminate; subst.
      * destruct a; [|discriminate]. cbn. now apply alt_pick.
      * cbn in LZ, AL. destruct z; [|discriminate]. destruct a as [|x [|? ?]]; try discriminate. reflexivity.
Qed.
