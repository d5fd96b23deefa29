(** What NJOY reads off the cards. *)
From Coq Require Import List Bool Arith Lia ZArith Ascii String.
From Verif Require Import Text Dec Deck_Model Deck_Spec Deck_Proofs Deck_RunProofs Deck_NjoyProofs.
From Verif Require Njoy_Model.
Import ListNotations.
Local Open Scope nat_scope.
Local Open Scope list_scope.

Lemma items_column l : forall k r, l <> [] -> k <= List.length l -> items k (column l ++ r) = Some (firstn k l).
Proof.
  induction l as [|x l IH]; intros k r N L; [easy|]. destruct l as [|y l].
  - cbn in L. cbn. destruct k as [|[|k]]; [easy|easy|lia].
  - change (column (x :: y :: l)) with (c0 [x] :: column (y :: l)). cbn [app items c0]. cbn [List.length] in *.
    destruct k as [|[|k]]; [easy|easy|]. cbn [Nat.leb Nat.sub]. rewrite IH by (easy || (cbn [List.length]; lia)). reflexivity.
Qed.
Lemma items_all l r : l <> [] -> items (List.length l) (column l ++ r) = Some l.
Proof. intros N. rewrite items_column by easy. now rewrite firstn_all. Qed.
Lemma column_length l : List.length (column l) = List.length l.
Proof. induction l as [|x [|y l] IH]; [easy|easy|]. change (column (x :: y :: l)) with (c0 [x] :: column (y :: l)). cbn [List.length] in *. now rewrite IH. Qed.
Lemma skipn_past {A} (l r : list A) n : List.length l = n -> skipn n (l ++ r) = r.
Proof. intros <-. rewrite skipn_app, skipn_all, Nat.sub_diag. reflexivity. Qed.
Lemma bounds_ok a : sensible a -> cov_energy_groups a <> None -> bounds_of a <> [].
Proof. intros S0 N. unfold bounds_of. destruct (cov_energy_groups a) as [l|] eqn:E; [|easy]. now apply (s_groups a S0). Qed.

Lemma group_structure a c k : bounds_of a <> [] -> structure_at c = Some k ->
  nth_error (cards_of a c) k = Some (c1 [num (List.length (bounds_of a) - 1)]) /\
  items (List.length (bounds_of a)) (skipn (S k) (cards_of a c)) = Some (bounds_of a).
Proof.
  intros N. destruct c; cbn [structure_at]; intros E; inversion E; subst k; unfold cards_of, structure; cbn [app nth_error skipn]; (split; [reflexivity|apply items_all; easy]).
Qed.
Lemma items_header c0' h k r : List.length h = c0' -> items (c0' + S k) ((h, false) :: r) = option_map (app h) (items (S k) r).
Proof. intros <-. cbn [items]. destruct (Nat.leb_spec (List.length h + S k) (List.length h)); [lia|]. now replace (List.length h + S k - List.length h) with (S k) by lia. Qed.
Lemma weight_table a c k : own_weights a = true -> bounds_of a <> [] -> weights_of a <> [] -> table_at c (List.length (bounds_of a)) = Some k ->
  forall m, 0 < m <= List.length (weights_of a) ->
  let n := num (List.length (weights_of a) / 2) in
  items (8 + m) (skipn k (cards_of a c)) = Some ([w "0."; w "0."; w "0"; w "0"; w "1"; n; n; w "2"] ++ firstn m (weights_of a)).
Proof.
  intros O N W E m M n.
  assert (forall r, items (8 + m) (table (weights_of a) ++ r) = Some ([w "0."; w "0."; w "0"; w "0"; w "1"; n; n; w "2"] ++ firstn m (weights_of a))) as I.
  { intros r. unfold table. cbv zeta. destruct m as [|m]; [lia|]. cbn [app]. unfold c0. rewrite items_header by reflexivity. rewrite items_column by (easy || lia). reflexivity. }
  destruct c; cbn [table_at structure_at option_map] in E; inversion E; subst k; unfold cards_of, structure, table_if; rewrite O;
    cbn [Nat.add skipn app]; rewrite skipn_past by apply column_length; [apply I| |].
  - specialize (I []). now rewrite app_nil_r in I.
  - specialize (I []). now rewrite app_nil_r in I.
Qed.
Lemma temperatures_read a c k : temps_at c = Some k ->
  nth_error (cards_of a c) k = Some (c1 (map shown (temps_of a))) \/ nth_error (cards_of a c) k = Some (c0 (map shown (temps_of a))).
Proof. destruct c; cbn; intros E; inversion E; subst k; cbn; auto. Qed.
Lemma items_line l s r : items (List.length l) ((l, s) :: r) = Some l.
Proof. cbn [items]. rewrite Nat.leb_refl. now rewrite firstn_all. Qed.
Lemma skipn_nth {A} (l : list A) k x : nth_error l k = Some x -> skipn k l = x :: skipn (S k) l.
Proof. revert k. induction l as [|y l IH]; intros [|k] H; try easy; cbn in *; [congruence|]. now apply IH. Qed.
Lemma temperatures_items a c k : temps_at c = Some k -> items (List.length (temps_of a)) (skipn k (cards_of a c)) = Some (map shown (temps_of a)).
Proof.
  intros E. destruct (temperatures_read a c k E) as [H|H]; apply skipn_nth in H; rewrite H; rewrite <- (map_length shown (temps_of a)); apply items_line.
Qed.

(** Fission covariances are made at one temperature only. *)
Lemma mapi_in {A B} (f : nat -> A -> B) l : forall i y, In y (mapi f i l) -> exists j x, nth_error l j = Some x /\ y = f (i + j) x.
Proof.
  induction l as [|x l IH]; intros i y H; [easy|]. destruct H as [<-|H].
  - exists 0, x. now rewrite Nat.add_0_r.
  - apply IH in H as (j & z & E & ->). exists (S j), z. split; [easy|]. f_equal. lia.
Qed.
Lemma last_only a mf p g e t : In (Cov3x mf p g e t) (calls a) -> t = last_temp a.
Proof.
  unfold calls. rewrite !in_app_iff. intros [H|[H|[H|[H|[H|H]]]]].
  - now destruct H.
  - destruct (broadr a); [now destruct H|easy].
  - destruct (errorr a); [|easy]. unfold covariance_calls in H. rewrite !in_app_iff in H. destruct H as [H|[H|[H|H]]].
    + apply in_concat in H as (l & I & H). apply mapi_in in I as (j & x & _ & ->). unfold at_temperature in H. apply in_app_iff in H as [H|H].
      * cbn in H. intuition easy.
      * destruct (plotted a); [|easy]. cbn in H. intuition easy.
    + destruct (fissile a); [|easy]. cbn in H. intuition easy.
    + destruct (nu a); [|easy]. cbn in H. destruct H as [H|H]; [now inversion H|]. intuition easy.
    + destruct (chi a); [|easy]. cbn in H. destruct H as [H|[H|H]]; [easy|now inversion H|]. intuition easy.
  - destruct (heatr a); [now destruct H|easy].
  - destruct (purr a); [now destruct H|easy].
  - destruct (acer a); [|easy]. apply mapi_in in H as (j & x & _ & H). easy.
Qed.

(** File names. *)
Lemma mapi_nth {A B} (f : nat -> A -> B) l : forall i j x, nth_error l j = Some x -> In (f (i + j) x) (mapi f i l).
Proof.
  induction l as [|y l IH]; intros i [|j] x H; try easy; cbn in *.
  - left. inversion H. now rewrite Nat.add_0_r.
  - right. replace (i + S j) with (S i + j) by lia. now apply IH.
Qed.
Lemma in_acer_files a i t : acer a = true -> nth_error (temps_of a) i = Some t ->
  In (after_purr a + 2 * i + 1, ace a ++ w "_" ++ tenths t) (files a) /\ In (after_purr a + 2 * i + 2, xsdir a ++ w "_" ++ tenths t) (files a).
Proof.
  intros A H. unfold files. rewrite A. rewrite !in_app_iff.
  set (f := fun _ _ => _).
  pose proof (mapi_nth f (temps_of a) 0 i t H) as I. split; right; right; apply in_concat; eexists; (split; [exact I|]); unfold f; rewrite Nat.add_0_l; cbn; auto.
Qed.
Lemma names_clash a i j s t : acer a = true -> i <> j -> nth_error (temps_of a) i = Some s -> nth_error (temps_of a) j = Some t -> tenths s = tenths t ->
  exists m n f, m <> n /\ In (m, f) (files a) /\ In (n, f) (files a).
Proof.
  intros A D I J E. exists (after_purr a + 2 * i + 1), (after_purr a + 2 * j + 1), (ace a ++ w "_" ++ tenths s).
  split; [lia|]. split; [now apply in_acer_files|]. rewrite E. now apply in_acer_files.
Qed.
Lemma cov_file a i t : errorr a = true -> nth_error (temps_of a) i = Some t -> In (22 + width a * i + 3, w "covr_" ++ shown t ++ w ".txt") (files a).
Proof.
  intros A H. unfold files. rewrite A. rewrite !in_app_iff. right. left. left. apply in_concat. eexists. split; [apply (mapi_nth _ _ 0 i t H)|]. rewrite Nat.add_0_l. left. reflexivity.
Qed.

(** Both models of the run say the same. *)
Lemma same_deck a : sensible a ->
  match make_njoy_run a with
  | Njoy_Model.Ok (t, _, o) =>
      exists cs tapes, cards t = flat_map (cards_of a) cs ++ [c0 [w "stop"]] /\
        Njoy_Model.make_njoy_run (options_of a) = Njoy_Model.Ok (flat_map (asks a) cs, tapes) /\ map fst tapes = map fst o
  | Njoy_Model.Raised f => Njoy_Model.make_njoy_run (options_of a) = Njoy_Model.Raised f
  end.
Proof.
  intros S0. pose proof (proj1 (s_temps a S0)) as T.
  destruct (run_none a S0) as (A1 & A2 & A3 & A4). destruct (njoy_fails a T) as (B1 & B2 & B3 & B4).
  assert ((exists f, make_njoy_run a = Njoy_Model.Raised f /\ Njoy_Model.make_njoy_run (options_of a) = Njoy_Model.Raised f) \/
    ((heatr a = true -> broadr a = true) /\ (errorr a = true -> broadr a = true /\ cov_energy_groups a <> None /\ (own_weights a = true -> user_flux_weight_vals a <> None)))) as [(f & -> & E)|[H1 H2]]; [|easy|].
  { destruct (errorr a) eqn:E.
    - destruct (cov_energy_groups a) eqn:G; [|left; eexists; now rewrite A1, B1].
      assert ((own_weights a = true -> user_flux_weight_vals a <> None) \/ own_weights a = true /\ user_flux_weight_vals a = None) as [W|[W1 W2]].
      { destruct (own_weights a); [|left; easy]. destruct (user_flux_weight_vals a); [now left|now right]. }
      + destruct (broadr a) eqn:B; [right; easy|]. left. eexists. now rewrite A3, B3.
      + left. eexists. now rewrite A2, B2.
    - destruct (heatr a) eqn:Hh; [|right; easy]. destruct (broadr a) eqn:B; [right; easy|]. left. eexists. now rewrite A4, B4. }
  destruct (run_some a S0 H1 H2) as (t & C & ->). destruct (njoy_deck a T H1 H2) as (tapes & E & K). destruct (Deck_Model.run a); [easy|].
  exists (calls a), tapes. easy.
Qed.
