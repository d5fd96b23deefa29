From Coq Require Import List Bool Arith ZArith QArith Qcanon Lia FinFun.
From Verif Require Import Num XNum Text Mixin_Model Mixin_Spec.
Import ListNotations.
Local Open Scope nat_scope.

(** *** Numbering *)
Lemma memZ_in z l : memZ z l = true <-> In z l.
Proof. unfold memZ. rewrite existsb_exists. split; [intros [x [I E]]; apply Z.eqb_eq in E; now subst | intros I; exists z; split; [easy | apply Z.eqb_refl]]. Qed.
Lemma skip_spec used : forall k n, exists j, skip_used k used n = (n + Z.of_nat j)%Z /\ j <= k /\
  (forall i, i < j -> In (n + Z.of_nat i)%Z used) /\ (j < k -> ~ In (skip_used k used n) used).
Proof.
  induction k as [|k IH]; intros n; cbn [skip_used].
  - exists 0. repeat split; try lia.
  - destruct (memZ n used) eqn:M.
    + destruct (IH (n + 1)%Z) as [j [E [J [I N]]]]. exists (S j). split; [lia|]. split; [lia|]. split.
      * intros [|i] Hi; [apply memZ_in in M; now rewrite Z.add_0_r|]. specialize (I i ltac:(lia)). now replace (n + Z.of_nat (S i))%Z with (n + 1 + Z.of_nat i)%Z by lia.
      * intros H. apply N. lia.
    + exists 0. repeat split; try lia. intros _. rewrite <- memZ_in, M. discriminate.
Qed.
Lemma skip_fresh used n : ~ In (skip_used (S (length used)) used n) used /\ (n <= skip_used (S (length used)) used n)%Z /\
  forall m, (n <= m < skip_used (S (length used)) used n)%Z -> In m used.
Proof.
  destruct (skip_spec used (S (length used)) n) as [j [E [J [I N]]]].
  assert (L : j <= length used).
  { assert (X : length (map (fun i => (n + Z.of_nat i)%Z) (seq 0 j)) <= length used).
    { apply NoDup_incl_length.
      - apply FinFun.Injective_map_NoDup; [intros a b H; lia | apply seq_NoDup].
      - intros z Z0. apply in_map_iff in Z0. destruct Z0 as [i [<- Hi]]. apply in_seq in Hi. apply I. lia. }
    now rewrite map_length, seq_length in X. }
  split; [apply N; lia|]. split; [lia|]. intros m Hm. specialize (I (Z.to_nat (m - n)) ltac:(lia)).
  now replace (n + Z.of_nat (Z.to_nat (m - n)))%Z with m in I by lia.
Qed.

Definition no_reset (l : list op) : Prop := ~ In Reset l.
Lemma used_grows s o : o <> Reset -> incl (used_ids s) (used_ids (fst (do_op s o))).
Proof.
  destruct o; cbn; intros H x I; try easy; try (now right); try (apply in_or_app; now right).
  destruct (uid <? 0)%Z; [easy|]. destruct (memZ uid (used_ids s)); [easy | now right].
Qed.
Lemma used_takes s o u : o <> Reset -> takes u o (snd (do_op s o)) -> In u (used_ids (fst (do_op s o))).
Proof.
  intros HR [[w H]|[l [-> I]]]; [|cbn; apply in_or_app; now left].
  destruct o as [|uid| | |]; cbn in *; try discriminate.
  - injection H as <- _. now left.
  - destruct (uid <? 0)%Z; [discriminate|]. destruct (memZ uid (used_ids s)) eqn:M; cbn in *; injection H as <- _; [now apply memZ_in | now left].
Qed.
Lemma used_only s o u : o <> Reset -> In u (used_ids (fst (do_op s o))) -> In u (used_ids s) \/ takes u o (snd (do_op s o)).
Proof.
  intros HR. destruct o as [|uid|l| |]; cbn; try tauto.
  - intros [<-|I]; [right; left; eauto | now left].
  - destruct (uid <? 0)%Z; [now left|]. destruct (memZ uid (used_ids s)) eqn:M; cbn; [now left|]. intros [<-|I]; [right; left; eauto | now left].
  - intros I. apply in_app_or in I. destruct I as [I|I]; [right; right; eauto | now left].
Qed.
(** What is in use after a history without reset. *)
Lemma used_after l : forall s s' as', ~ In Reset l -> history s l = (s', as') -> length as' = length l /\
  forall u, In u (used_ids s') <-> In u (used_ids s) \/ exists j o a, nth_error l j = Some o /\ nth_error as' j = Some a /\ takes u o a.
Proof.
  induction l as [|o l IH]; intros s s' as' HR H; cbn in H.
  - injection H as <- <-. split; [easy|]. intros u. split; [now left|]. intros [I|[j [o [a [E _]]]]]; [easy|]. destruct j; discriminate.
  - destruct (do_op s o) as [s1 a] eqn:E1. destruct (history s1 l) as [s2 as2] eqn:E2. injection H as <- <-.
    assert (HR1 : o <> Reset) by (intros ->; apply HR; now left). assert (HR2 : ~ In Reset l) by (intros I; apply HR; now right).
    destruct (IH s1 s2 as2 HR2 E2) as [L U]. split; [cbn; lia|]. intros u. rewrite U.
    pose proof (used_grows s o HR1) as G. pose proof (used_takes s o u HR1) as T. pose proof (used_only s o u HR1) as O.
    rewrite E1 in G, T, O. cbn [fst snd] in *. split.
    + intros [I|[j [o' [a' H]]]].
      * destruct (O I) as [I'|I']; [now left | right; now exists 0, o, a].
      * right. exists (S j), o', a'. exact H.
    + intros [I|[[|j] [o' [a' [H1 [H2 H3]]]]]].
      * left. now apply G.
      * cbn in H1, H2. injection H1 as <-. injection H2 as <-. left. now apply T.
      * right. now exists j, o', a'.
Qed.
Lemma history_app l : forall s m, history s (l ++ m) =
  let (s1, a1) := history s l in let (s2, a2) := history s1 m in (s2, a1 ++ a2).
Proof.
  induction l as [|o l IH]; intros s m; cbn; [destruct (history s m); easy|].
  destruct (do_op s o) as [s1 a]. rewrite IH. destruct (history s1 l) as [s2 a2]. destruct (history s2 m). easy.
Qed.
Lemma history_length l : forall s, length (snd (history s l)) = length l.
Proof. induction l as [|o l IH]; intros s; cbn; [easy|]. destruct (do_op s o) as [s1 a]. specialize (IH s1). destruct (history s1 l). cbn in *. lia. Qed.

(** The answer at the end of a history. *)
Lemma answer_taken l o u w : ~ In Reset l -> snd (do_op (fst (history fresh_ids l)) o) = Assigned u w ->
  (w = true <-> exists j o' a', j < length l /\ nth_error l j = Some o' /\ nth_error (snd (history fresh_ids l)) j = Some a' /\ takes u o' a') /\
  (o = Auto -> w = false).
Proof.
  intros HR H. destruct (history fresh_ids l) as [s1 as1] eqn:E. cbn [fst snd] in *.
  destruct (used_after l _ _ _ HR E) as [L U]. specialize (U u). cbn [fresh_ids used_ids In] in U.
  split; [|intros ->; cbn in H; now injection H].
  assert (X : w = true <-> In u (used_ids s1)).
  { destruct o as [|uid| | |]; cbn in H; try discriminate.
    - injection H as H1 H2. subst w. split; [discriminate|]. intros I. exfalso.
      destruct (skip_fresh (used_ids s1) (next_id s1)) as [N _]. apply N. cbn [skip_used] in H1 |- *. rewrite H1. exact I.
    - destruct (uid <? 0)%Z; [discriminate|]. destruct (memZ uid (used_ids s1)) eqn:M; cbn in H; injection H as <- <-.
      + split; [|easy]. intros _. now apply memZ_in.
      + split; [discriminate|]. intros I. apply memZ_in in I. congruence. }
  rewrite X, U. split.
  - intros [[]|[j [o' [a' [H1 [H2 H3]]]]]]. exists j, o', a'. repeat split; try easy. apply nth_error_Some. congruence.
  - intros [j [o' [a' [_ H1]]]]. right. now exists j, o', a'.
Qed.
Lemma nth_history l : forall s i o a, nth_error l i = Some o -> nth_error (snd (history s l)) i = Some a ->
  a = snd (do_op (fst (history s (firstn i l))) o) /\ firstn i (snd (history s l)) = snd (history s (firstn i l)).
Proof.
  induction l as [|o l IH]; intros s [|i] o' a H1 H2; try discriminate; cbn in H1.
  - injection H1 as <-. cbn in *. destruct (do_op s o) as [s1 a1]. destruct (history s1 l). cbn in *. injection H2 as <-. easy.
  - cbn [history firstn] in *. destruct (do_op s o) as [s1 a1]. specialize (IH s1 i o' a H1). destruct (history s1 l) as [s2 as2]. cbn in H2.
    destruct (history s1 (firstn i l)) as [s3 as3]. cbn in *. destruct (IH H2) as [A B]. split; [easy | now rewrite B].
Qed.
Lemma nth_firstn {A} (l : list A) : forall i j, j < i -> nth_error (firstn i l) j = nth_error l j.
Proof. induction l as [|x l IH]; intros [|i] [|j] H; cbn; try easy; try lia. apply IH. lia. Qed.
Lemma warned_exact l i o u w : ~ In Reset l -> nth_error l i = Some o -> nth_error (snd (history fresh_ids l)) i = Some (Assigned u w) ->
  (w = true <-> exists j o' a', j < i /\ nth_error l j = Some o' /\ nth_error (snd (history fresh_ids l)) j = Some a' /\ takes u o' a') /\
  (o = Auto -> w = false).
Proof.
  intros HR H1 H2. destruct (nth_history l fresh_ids i o _ H1 H2) as [A B].
  assert (HR' : ~ In Reset (firstn i l)) by (intros I; apply HR; rewrite <- (firstn_skipn i l); apply in_or_app; now left).
  destruct (answer_taken (firstn i l) o u w HR' (eq_sym A)) as [C D]. split; [|exact D]. rewrite C, <- B.
  assert (Li : i < length l) by (apply nth_error_Some; congruence).
  rewrite firstn_length_le by lia. split; intros [j [o' [a' [J [K1 [K2 K3]]]]]]; exists j, o', a'; (split; [exact J|]).
  - rewrite nth_firstn in K1 by easy. rewrite nth_firstn in K2 by easy. easy.
  - rewrite !nth_firstn by easy. easy.
Qed.
Lemma auto_fresh l i u w : ~ In Reset l -> nth_error l i = Some Auto -> nth_error (snd (history fresh_ids l)) i = Some (Assigned u w) ->
  forall j o a, j < i -> nth_error l j = Some o -> nth_error (snd (history fresh_ids l)) j = Some a -> ~ takes u o a.
Proof.
  intros HR H1 H2 j o a J K1 K2 T. destruct (warned_exact l i Auto u w HR H1 H2) as [A B]. specialize (B eq_refl). subst w.
  assert (false = true); [|discriminate]. apply A. now exists j, o, a.
Qed.

(** *** Equality *)
Lemma xeq_eq a b : xeq a b = true <-> a = b /\ a <> NaN.
Proof.
  destruct a as [p| | |], b as [q| | |]; cbn; try (split; [discriminate | intros [H _]; discriminate]); try (split; [easy | easy]).
  rewrite qeqb_eq. split; [intros ->; easy | intros [H _]; now injection H].
Qed.
Lemma all_eq_eq : forall l m, all_eq l m = true <-> l = m /\ ~ In NaN l.
Proof.
  induction l as [|x l IH]; intros [|y m]; cbn; try (split; [discriminate | intros [H _]; discriminate]); [easy|].
  rewrite andb_true_iff, xeq_eq, IH. split.
  - intros [[-> A] [-> B]]. split; [easy|]. intros [E|E]; [now apply A | easy].
  - intros [E N]. injection E as -> ->. repeat split; try easy; intros E; apply N; [now left | now right].
Qed.
Lemma array_equal_eq a b : array_equal a b = true <-> a = b /\ no_nan a.
Proof.
  destruct a as [|l|s], b as [|m|t]; cbn; try (split; [discriminate | intros [H _]; discriminate]); [easy| |].
  - rewrite all_eq_eq. split; [intros [-> H]; easy | intros [E H]; now injection E].
  - rewrite eqt_eq. split; [intros ->; easy | intros [E _]; now injection E].
Qed.
Lemma getattr_in d k v : NoDup (map fst d) -> In (k, v) d -> getattr k d = v.
Proof.
  induction d as [|[k' v'] d IH]; cbn; [easy|]. intros N [E|I].
  - injection E as -> ->. now rewrite eqt_refl.
  - inversion N as [|? ? N1 N2]; subst. destruct (eqt k k') eqn:E; [|now apply IH].
    apply eqt_eq in E. subst k'. exfalso. apply N1. now apply (in_map fst) in I.
Qed.
Lemma getattr_out d k : ~ In k (map fst d) -> getattr k d = VNone.
Proof.
  induction d as [|[k' v'] d IH]; cbn; [easy|]. intros N. destruct (eqt k k') eqn:E; [apply eqt_eq in E; subst; tauto | apply IH; tauto].
Qed.
Lemma getattr_some d k : getattr k d <> VNone -> In (k, getattr k d) d.
Proof.
  induction d as [|[k' v'] d IH]; cbn; [easy|]. destruct (eqt k k') eqn:E; [apply eqt_eq in E; subst; now left | intros H; right; now apply IH].
Qed.
Lemma eq_char sub a b : proper a -> eq_obj sub a b = true <->
  sub (cls b) (cls a) = true /\ forall k, In k (names a) -> getattr k (attrs a) = getattr k (attrs b) /\ no_nan (getattr k (attrs a)).
Proof.
  intros P. unfold eq_obj. rewrite andb_true_iff, forallb_forall. split; intros [H1 H2]; (split; [exact H1|]).
  - intros k I. apply in_map_iff in I. destruct I as [[k' v] [E I]]. cbn in E. subst k'.
    specialize (H2 _ I). cbn in H2. rewrite array_equal_eq in H2. rewrite (getattr_in _ _ _ P I). easy.
  - intros [k v] I. cbn. apply array_equal_eq. specialize (H2 k ltac:(now apply (in_map fst) in I)). now rewrite (getattr_in _ _ _ P I) in H2.
Qed.
Lemma eq_back sub a b : proper a -> proper b -> cls a = cls b -> eq_obj sub a b = true ->
  (eq_obj sub b a = true <-> forall k, In k (names b) -> ~ In k (names a) -> getattr k (attrs b) = VNone).
Proof.
  intros PA PB C H. apply (eq_char sub a b PA) in H. destruct H as [H1 H2]. rewrite (eq_char sub b a PB). rewrite C in *. split.
  - intros [_ H] k I N. destruct (H k I) as [E _]. rewrite E. now apply getattr_out.
  - intros H. split; [exact H1|]. intros k I. destruct (in_dec (list_eq_dec Ascii.ascii_dec) k (names a)) as [J|J].
    + destruct (H2 k J) as [E N]. rewrite <- E. easy.
    + rewrite (H k I J). rewrite (getattr_out (attrs a) k J). easy.
Qed.
Lemma eq_sym_same sub a b : proper a -> proper b -> cls a = cls b -> (forall k, In k (names a) <-> In k (names b)) ->
  eq_obj sub a b = eq_obj sub b a.
Proof.
  intros PA PB C K. apply eq_iff_eq_true. split; intros H.
  - apply (eq_back sub a b PA PB C H). intros k I N. exfalso. now apply N, K.
  - apply (eq_back sub b a PB PA (eq_sym C) H). intros k I N. exfalso. now apply N, K.
Qed.
Lemma eq_refl_iff sub a : proper a -> sub (cls a) (cls a) = true -> (eq_obj sub a a = true <-> forall k v, In (k, v) (attrs a) -> no_nan v).
Proof.
  intros P S. rewrite (eq_char sub a a P). split.
  - intros [_ H] k v I. destruct (H k ltac:(now apply (in_map fst) in I)) as [_ N]. now rewrite (getattr_in _ _ _ P I) in N.
  - intros H. split; [exact S|]. intros k I. split; [easy|]. apply in_map_iff in I. destruct I as [[k' v] [E I]]. cbn in E. subst k'.
    rewrite (getattr_in _ _ _ P I). exact (H k v I).
Qed.
Lemma eq_trans_some sub a b c : (forall x y z, sub x y = true -> sub y z = true -> sub x z = true) ->
  proper a -> proper b -> (forall k v, In (k, v) (attrs a) -> v <> VNone) ->
  eq_obj sub a b = true -> eq_obj sub b c = true -> eq_obj sub a c = true.
Proof.
  intros T PA PB NN H K. apply (eq_char sub a b PA) in H. apply (eq_char sub b c PB) in K. apply (eq_char sub a c PA).
  destruct H as [H1 H2], K as [K1 K2]. split; [eapply T; eassumption|]. intros k I. destruct (H2 k I) as [E N].
  assert (J : In k (names b)).
  { destruct (in_dec (list_eq_dec Ascii.ascii_dec) k (names b)) as [J|J]; [easy|]. exfalso. rewrite (getattr_out (attrs b) k J) in E.
    apply in_map_iff in I. destruct I as [[k' v] [Ek I]]. cbn in Ek. subst k'. rewrite (getattr_in _ _ _ PA I) in E. exact (NN k v I E). }
  destruct (K2 k J) as [E' _]. split; [congruence | exact N].
Qed.
