From Verif Require Import Num Text Sampler_Model SampleCorr_Model SampleCorr_Spec.
From Coq Require Import Sorting.Permutation Sorting.Sorted.
Local Open Scope nat_scope.
Local Open Scope list_scope.

Lemma nth_map_in : forall A B (f : A -> B) l i d d', i < length l -> nth i (map f l) d = f (nth i l d').
Proof.
  intros A B f l i d d' H. rewrite nth_indep with (d' := f d') by now rewrite map_length. apply map_nth.
Qed.

(** ** Sorting *)
Lemma insert_perm : forall A (key : A -> Qc) p l, Permutation (insert key p l) (p :: l).
Proof.
  intros A key p l. induction l as [|y r IH]; cbn; [constructor; constructor|].
  destruct (qleb (key p) (key y)); [reflexivity|].
  rewrite IH. apply perm_swap.
Qed.
Lemma isort_perm : forall A (key : A -> Qc) l, Permutation (isort key l) l.
Proof.
  intros A key l. induction l as [|x l IH]; cbn; [constructor|].
  rewrite insert_perm. now constructor.
Qed.

Definition lex (a b : Qc * nat) : Prop := (fst a < fst b)%Qc \/ (fst a = fst b /\ snd a < snd b).

Lemma lex_trans : forall a b c, lex a b -> lex b c -> lex a c.
Proof.
  unfold lex. intros [x i] [y j] [z k]; cbn. intros [H1|[H1 H1']] [H2|[H2 H2']].
  - left. qclra.
  - left. rewrite <- H2. assumption.
  - left. rewrite H1. assumption.
  - right. split; [congruence|lia].
Qed.
Lemma lex_irrefl : forall a, ~ lex a a.
Proof. intros [x i] [H|[_ H]]; cbn in *; [|lia]. qclra. Qed.
Lemma lex_total : forall a b, snd a <> snd b -> lex a b \/ lex b a.
Proof.
  intros [x i] [y j] H. unfold lex. cbn in *. destruct (qltb_spec x y); [now left; left|].
  destruct (qltb_spec y x); [now right; left|].
  assert (x = y) by qclra. subst. destruct (Nat.lt_ge_cases i j); [left|right]; right; split; auto; lia.
Qed.

Lemma insert_lex : forall p l, StronglySorted lex l -> Forall (fun y => snd p < snd y) l ->
  StronglySorted lex (insert fst p l).
Proof.
  intros p l. induction l as [|y r IH]; intros Hs Hf; cbn.
  - constructor; constructor.
  - inversion Hs as [|? ? Hs1 Hs2]; subst. inversion Hf; subst.
    destruct (qleb (fst p) (fst y)) eqn:E.
    + constructor; [assumption|].
      assert (L : lex p y).
      { apply qleb_le in E. destruct (qltb_spec (fst p) (fst y)); [now left|].
        right. split; [qclra|assumption]. }
      constructor; [assumption|]. eapply Forall_impl; [|exact Hs2]. intros a Ha. eapply lex_trans; eassumption.
    + apply qleb_nle in E. constructor; [auto|].
      rewrite insert_perm. constructor; [now left|assumption].
Qed.

Lemma isort_lex : forall l k, StronglySorted lex (isort fst (combine l (seq k (length l)))).
Proof.
  intros l. induction l as [|x l IH]; intros k; cbn; [constructor|].
  apply insert_lex; [apply IH|].
  apply Forall_forall. intros [y j] Hin.
  apply (Permutation_in _ (isort_perm _ _ _)) in Hin. apply in_combine_r in Hin. apply in_seq in Hin. cbn. lia.
Qed.

Lemma insert_sorted : forall p l, StronglySorted Qcle l -> StronglySorted Qcle (insert (fun x => x) p l).
Proof.
  intros p l. induction l as [|y r IH]; intros Hs; cbn.
  - constructor; constructor.
  - inversion Hs; subst. destruct (qleb_spec p y).
    + constructor; [assumption|]. constructor; [assumption|]. eapply Forall_impl; [|eassumption].
      intros a Ha. eapply Qcle_trans; eassumption.
    + constructor; [auto|]. rewrite insert_perm. constructor; [qclra|assumption].
Qed.
Lemma sortq_sorted : forall l, StronglySorted Qcle (sortq l).
Proof. intros l. unfold sortq. induction l; cbn; [constructor|]. now apply insert_sorted. Qed.
Lemma sortq_perm : forall l, Permutation (sortq l) l.
Proof. intros. apply isort_perm. Qed.

Lemma strong_nth : forall A (R : A -> A -> Prop) d l i j, StronglySorted R l -> i < j -> j < length l -> R (nth i l d) (nth j l d).
Proof.
  intros A R d l. induction l as [|x l IH]; intros i j Hs Hij Hj; cbn in *; [lia|].
  inversion Hs; subst. destruct j as [|j]; [lia|]. destruct i as [|i].
  - rewrite Forall_forall in H2. apply H2. apply nth_In. lia.
  - apply IH; auto; lia.
Qed.

(** ** Ranks *)
Lemma NoDup_app_l : forall A (a b : list A), NoDup (a ++ b) -> NoDup a.
Proof.
  induction a as [|x a IH]; intros b H; [constructor|]. inversion H; subst. constructor; [|eauto].
  intros Hin. apply H2. apply in_or_app. now left.
Qed.

Lemma index_of_spec : forall l i, In i l -> index_of i l < length l /\ nth (index_of i l) l 0 = i.
Proof.
  induction l as [|j l IH]; intros i Hin; cbn in *; [contradiction|].
  destruct (Nat.eqb_spec i j) as [->|Hne]; [split; [lia|reflexivity]|].
  destruct Hin as [<-|Hin]; [congruence|]. destruct (IH i Hin). split; [lia|assumption].
Qed.

Section Rank.
Variable l : list Qc.
Let n := length l.
Let sp := isort fst (combine l (seq 0 n)).

Lemma sp_perm : Permutation sp (combine l (seq 0 n)).
Proof. apply isort_perm. Qed.
Lemma sp_length : length sp = n.
Proof. rewrite sp_perm, combine_length, seq_length. unfold n. lia. Qed.
Lemma argsort_perm : Permutation (argsort l) (seq 0 n).
Proof.
  unfold argsort. fold n. fold sp. rewrite sp_perm.
  assert (E : forall (a : list Qc) (b : list nat), length a = length b -> map snd (combine a b) = b).
  { induction a as [|x a IH]; intros [|y b] H; cbn in *; try lia; [reflexivity|]. f_equal. apply IH. lia. }
  rewrite E; [reflexivity|]. now rewrite seq_length.
Qed.
Lemma argsort_length : length (argsort l) = n.
Proof. rewrite argsort_perm. apply seq_length. Qed.
Lemma argsort_in : forall i, i < n -> In i (argsort l).
Proof. intros i Hi. apply (Permutation_in _ (Permutation_sym argsort_perm)). apply in_seq. lia. Qed.
Lemma rank_nth : forall i, i < n -> nth i (rank_col l) 0 = index_of i (argsort l).
Proof.
  intros i Hi. unfold rank_col. fold n.
  rewrite (nth_map_in _ _ _ _ _ _ 0) by (rewrite seq_length; assumption).
  rewrite seq_nth by assumption. reflexivity.
Qed.
Lemma rank_length : length (rank_col l) = n.
Proof. unfold rank_col. now rewrite map_length, seq_length. Qed.

Lemma combine_seq_in : forall p, In p (combine l (seq 0 n)) -> snd p < n /\ fst p = q l (snd p).
Proof.
  intros [x j] Hin.
  apply (In_nth _ _ (0%Qc, 0)) in Hin. destruct Hin as (m & Hm & E).
  rewrite combine_length, seq_length in Hm. unfold n in Hm. rewrite Nat.min_id in Hm.
  rewrite combine_nth in E by now rewrite seq_length. rewrite seq_nth in E by assumption. cbn in E.
  injection E as <- <-. split; [exact Hm|reflexivity].
Qed.

(** The pair at the rank of [i]. *)
Lemma sp_at : forall i, i < n -> nth (index_of i (argsort l)) sp (0%Qc, 0) = (q l i, i) /\ index_of i (argsort l) < n.
Proof.
  intros i Hi. destruct (index_of_spec _ _ (argsort_in i Hi)) as [H1 H2].
  rewrite argsort_length in H1. split; [|assumption].
  set (p := nth (index_of i (argsort l)) sp (0%Qc, 0)).
  assert (Hp : In p sp) by (apply nth_In; now rewrite sp_length).
  apply (Permutation_in _ sp_perm) in Hp. apply combine_seq_in in Hp.
  assert (E : snd p = i).
  { etransitivity; [|exact H2]. symmetry.
    etransitivity; [apply (nth_map_in _ _ snd sp _ 0 (0%Qc, 0)); rewrite sp_length; assumption|]. reflexivity. }
  destruct p as [x j]. cbn in *. subst j. f_equal. apply Hp.
Qed.

Lemma rank_before : forall i j, i < n -> j < n -> before l i j <-> index_of i (argsort l) < index_of j (argsort l).
Proof.
  intros i j Hi Hj.
  destruct (sp_at i Hi) as [Ei Li]. destruct (sp_at j Hj) as [Ej Lj].
  assert (Hss : StronglySorted lex sp) by apply isort_lex.
  assert (F : forall a b, a < n -> b < n -> index_of a (argsort l) < index_of b (argsort l) -> before l a b).
  { intros a b Ha Hb H. destruct (sp_at a Ha) as [Ea La]. destruct (sp_at b Hb) as [Eb Lb].
    pose proof (strong_nth _ lex (0%Qc, 0) sp _ _ Hss H ltac:(now rewrite sp_length)) as HL.
    rewrite Ea, Eb in HL. exact HL. }
  split; [|now apply F].
  intros H. destruct (Nat.lt_trichotomy (index_of i (argsort l)) (index_of j (argsort l))) as [|[E|H']]; auto.
  - rewrite E in Ei. rewrite Ei in Ej. injection Ej as _ ->. exfalso. destruct H as [H|[_ H]]; [qclra|lia].
  - exfalso. apply F in H'; auto.
    destruct H as [H|[H1 H2]], H' as [H'|[H1' H2']]; try lia; try qclra;
    try (rewrite H1 in H'; qclra); rewrite H1' in H; qclra.
Qed.

Lemma rank_perm : Permutation (rank_col l) (seq 0 n).
Proof.
  symmetry. apply NoDup_Permutation_bis.
  - apply seq_NoDup.
  - rewrite rank_length, seq_length. lia.
  - intros k Hk. apply in_seq in Hk.
    unfold rank_col. fold n. apply in_map_iff. exists (nth k (argsort l) 0).
    assert (Hn : NoDup (argsort l)) by (rewrite argsort_perm; apply seq_NoDup).
    assert (Hin : In (nth k (argsort l) 0) (argsort l)) by (apply nth_In; rewrite argsort_length; lia).
    split.
    + destruct (index_of_spec _ _ Hin) as [H1 H2].
      apply (proj1 (NoDup_nth (argsort l) 0) Hn); auto. rewrite argsort_length. lia.
    + apply (Permutation_in _ argsort_perm). assumption.
Qed.

Lemma rank_is_rank : is_rank l (rank_col l).
Proof.
  split; [apply rank_length|]. fold n. intros i Hi. rewrite rank_nth by assumption.
  exists (firstn (index_of i (argsort l)) (argsort l)).
  assert (Hn : NoDup (argsort l)) by (rewrite argsort_perm; apply seq_NoDup).
  destruct (sp_at i Hi) as [_ Li]. split; [|split].
  - rewrite <- (firstn_skipn (index_of i (argsort l)) (argsort l)) in Hn. now apply NoDup_app_l in Hn.
  - intros j. split.
    + intros Hin. apply (In_nth _ _ 0) in Hin. destruct Hin as (m & Hm & E).
      rewrite firstn_length, argsort_length in Hm.
      assert (Em : nth m (argsort l) 0 = j).
      { rewrite <- E. rewrite <- (firstn_skipn (index_of i (argsort l)) (argsort l)) at 1.
        rewrite app_nth1; [reflexivity|]. rewrite firstn_length, argsort_length. lia. }
      assert (Hj : j < n).
      { assert (In j (argsort l)) as H by (rewrite <- Em; apply nth_In; rewrite argsort_length; lia).
        apply (Permutation_in _ argsort_perm), in_seq in H. lia. }
      split; [assumption|]. apply rank_before; auto.
      destruct (index_of_spec _ _ (argsort_in j Hj)) as [H1 H2].
      assert (m = index_of j (argsort l)).
      { apply (proj1 (NoDup_nth (argsort l) 0) Hn); auto; [rewrite argsort_length; lia|congruence]. }
      lia.
    + intros [Hj Hb]. apply rank_before in Hb; auto.
      destruct (index_of_spec _ _ (argsort_in j Hj)) as [H1 H2].
      rewrite <- H2 at 1.
      rewrite <- (firstn_skipn (index_of i (argsort l)) (argsort l)) at 2.
      rewrite app_nth1; [apply nth_In|]; rewrite firstn_length, argsort_length; lia.
  - rewrite firstn_length, argsort_length. lia.
Qed.
End Rank.

(** ** Ordering *)
Lemma order_col_nth : forall r s i, i < length r -> q (order_col r s) i = nth (nth i r 0) (sortq s) 0%Qc.
Proof.
  intros r s i Hi. unfold q, order_col.
  now rewrite (nth_map_in _ _ _ _ _ _ 0) by assumption.
Qed.

Lemma map_nth_seq : forall A (l : list A) d, map (fun i => nth i l d) (seq 0 (length l)) = l.
Proof.
  intros A l d. induction l as [|x l IH]; cbn; [reflexivity|]. f_equal.
  rewrite <- seq_shift, map_map. apply IH.
Qed.

Lemma order_arranged : forall x s, length x = length s -> arranged x s (order_col (rank_col x) s).
Proof.
  intros x s Hl. split.
  - unfold order_col. rewrite (rank_perm x). rewrite Hl.
    rewrite <- (Permutation_length (sortq_perm s)), map_nth_seq. apply sortq_perm.
  - intros i j Hi Hj Hb. apply rank_before in Hb; auto.
    rewrite !order_col_nth by now rewrite rank_length.
    rewrite !rank_nth by assumption.
    apply (strong_nth _ Qcle 0%Qc (sortq s)); [apply sortq_sorted|assumption|].
    rewrite (Permutation_length (sortq_perm s)), <- Hl. now apply (sp_at x j).
Qed.

(** Distinct values: the output has exactly the ranks of the scores. *)
Lemma is_rank_unique : forall l r r', is_rank l r -> is_rank l r' -> r = r'.
Proof.
  intros l r r' [Hl H] [Hl' H']. apply (nth_ext _ _ 0 0); [congruence|]. intros i Hi.
  rewrite Hl in Hi. destruct (H i Hi) as (S & N & E & ->). destruct (H' i Hi) as (S' & N' & E' & ->).
  apply Permutation_length, NoDup_Permutation; auto. intros j. now rewrite E, E'.
Qed.

Lemma before_total : forall l i j, i <> j -> before l i j \/ before l j i.
Proof.
  intros l i j H. destruct (lex_total (q l i, i) (q l j, j) H) as [L|L]; [left|right]; exact L.
Qed.
Lemma before_asym : forall l i j, before l i j -> before l j i -> False.
Proof.
  intros l i j [H|[H1 H2]] [H'|[H1' H2']]; try lia; qclra.
Qed.

Lemma order_keeps_rank : forall x s, length x = length s -> NoDup s ->
  rank_col (order_col (rank_col x) s) = rank_col x.
Proof.
  intros x s Hl Hd. set (o := order_col (rank_col x) s).
  destruct (order_arranged x s Hl) as [Hp Ho]. fold o in Hp, Ho.
  assert (Hlo : length o = length x) by (rewrite Hp; congruence).
  assert (Hdo : NoDup o) by (rewrite Hp; assumption).
  assert (Hb : forall i j, i < length x -> j < length x -> before x i j <-> before o i j).
  { assert (Hf : forall i j, i < length x -> j < length x -> before x i j -> before o i j).
    { intros i j Hi Hj Hb. pose proof (Ho i j Hi Hj Hb) as Hle.
      left. destruct (qltb_spec (q o i) (q o j)) as [|Hn]; [assumption|exfalso].
      assert (E : q o i = q o j) by qclra.
      assert (i = j) by (apply (proj1 (NoDup_nth o 0%Qc) Hdo); auto; now rewrite Hlo).
      subst j. destruct Hb as [Hb|[_ Hb]]; [qclra|lia]. }
    intros i j Hi Hj. split; [now apply Hf|]. intros Hb.
    destruct (Nat.eq_dec i j) as [->|Hne].
    - exfalso. eapply before_asym; eassumption.
    - destruct (before_total x i j Hne) as [|H]; [assumption|]. apply Hf in H; auto. exfalso. eapply before_asym; eassumption. }
  apply (is_rank_unique o); [apply rank_is_rank|].
  destruct (rank_is_rank x) as [L R]. split; [congruence|]. rewrite Hlo.
  intros i Hi. destruct (R i Hi) as (S & N & E & EL). exists S. split; [assumption|split; [|assumption]].
  intros j. rewrite E. split; intros [Hj H]; split; auto; apply Hb; auto.
Qed.

(** ** Which groups are sampled *)
Lemma lmin_spec : forall l m, lmin l = Some m -> In m l /\ forall x, In x l -> (m <= x)%Qc.
Proof.
  induction l as [|a l IH]; intros m H; cbn in H; [discriminate|].
  destruct (lmin l) as [b|] eqn:E.
  - destruct (IH b eq_refl) as [H1 H2]. destruct (qltb_spec b a); injection H as <-.
    + split; [now right|]. intros x [<-|Hx]; [qclra|auto].
    + split; [now left|]. intros x [<-|Hx]; [qclra|]. pose proof (H2 x Hx). qclra.
  - destruct l as [|c l]; [|cbn in E; destruct (lmin l); discriminate].
    injection H as <-. split; [now left|]. intros x [<-|[]]. qclra.
Qed.
Lemma lmin_none : forall l, lmin l = None <-> l = [].
Proof.
  intros [|a l]; cbn; [tauto|]. destruct (lmin l); split; discriminate.
Qed.

Lemma orb_list_nth : forall a b i, i < length a -> i < length b ->
  nth i (orb_list a b) false = nth i a false || nth i b false.
Proof.
  intros a b i Ha Hb. unfold orb_list.
  rewrite (nth_map_in _ _ _ _ _ _ (false, false)) by (rewrite combine_length; lia).
  revert b i Ha Hb. induction a as [|x a IH]; intros [|y b] i Ha Hb; cbn in *; try lia.
  destruct i; [reflexivity|]. apply IH; lia.
Qed.
Lemma orb_list_length : forall a b, length a = length b -> length (orb_list a b) = length a.
Proof. intros. unfold orb_list. rewrite map_length, combine_length. lia. Qed.

Definition tinyb_iff : forall s, qleb s tiny = true <-> tiny_dev s := fun s => qleb_le s tiny.

(** The mask, read as a proposition. *)
Lemma mask_spec : forall mean std dg ln, length std = length mean -> length dg = length mean -> mean <> [] ->
  exists om, mask mean std dg ln = Some om /\
  match om with
  | None => ~ some_skip mean std ln
  | Some m => some_skip mean std ln /\ length m = length mean /\
      forall g, g < length mean -> (nth g m false = true <-> skipped mean std dg ln g)
  end.
Proof.
  intros mean std dg ln Hs Hd Hne. unfold mask.
  destruct (lmin std) as [smin|] eqn:Es; [|apply lmin_none in Es; destruct mean, std; cbn in *; congruence || lia].
  destruct (lmin mean) as [mmin|] eqn:Em; [|apply lmin_none in Em; congruence].
  destruct (lmin_spec _ _ Es) as [Si Sl]. destruct (lmin_spec _ _ Em) as [Mi Ml].
  assert (T1 : qleb smin tiny = true <-> exists s, In s std /\ tiny_dev s).
  { rewrite tinyb_iff. split; [intros H; eauto|]. intros (s & Hin & H). unfold tiny_dev in *. pose proof (Sl s Hin). qclra. }
  assert (T2 : qeqb mmin 0 = true <-> lowest_is_zero mean).
  { rewrite qeqb_eq. split; [intros ->; split; auto|]. intros [H1 H2]. pose proof (H2 _ Mi). pose proof (Ml _ H1). qclra. }
  set (m1 := if qleb smin tiny then _ else None).
  set (zm := map (fun x => qeqb x 0%Qc) mean).
  set (m2 := if qeqb mmin 0 && ln then _ else m1).
  set (zc := map (fun x => qeqb x 0%Qc) dg).
  assert (Lzm : length zm = length mean) by apply map_length.
  assert (Lzc : length zc = length mean) by (unfold zc; now rewrite map_length).
  (* m2: without the correlation diagonal *)
  assert (H2 : match m2 with
    | None => ~ some_skip mean std ln
    | Some m => some_skip mean std ln /\ length m = length mean /\
        forall g, g < length mean -> (nth g m false = true <->
           tiny_dev (q std g) \/ (ln = true /\ lowest_is_zero mean /\ q mean g = 0%Qc)) end).
  { assert (N1 : forall g, g < length mean -> nth g (map (fun s => qleb s tiny) std) false = true <-> tiny_dev (q std g)).
    { intros g Hg. rewrite (nth_map_in _ _ _ _ _ _ 0%Qc) by lia. apply tinyb_iff. }
    assert (N2 : forall g, g < length mean -> nth g zm false = true <-> q mean g = 0%Qc).
    { intros g Hg. unfold zm. rewrite (nth_map_in _ _ _ _ _ _ 0%Qc) by lia. apply qeqb_eq. }
    unfold m2, m1. destruct (qleb smin tiny) eqn:E1; destruct (qeqb mmin 0) eqn:E2; destruct ln; cbn [andb].
    - split; [left; apply T1; reflexivity|]. split; [rewrite orb_list_length; rewrite map_length; lia|].
      intros g Hg. rewrite orb_list_nth by (rewrite ?map_length; lia). rewrite orb_true_iff, N1, N2 by assumption.
      pose proof (proj1 T2 eq_refl). tauto.
    - split; [left; apply T1; reflexivity|]. split; [rewrite map_length; lia|].
      intros g Hg. rewrite N1 by assumption. split; [tauto|]. intros [H|[H _]]; [assumption|discriminate].
    - split; [left; apply T1; reflexivity|]. split; [rewrite map_length; lia|].
      intros g Hg. rewrite N1 by assumption. split; [tauto|]. intros [H|[_ [H _]]]; [assumption|]. apply T2 in H. discriminate.
    - split; [left; apply T1; reflexivity|]. split; [rewrite map_length; lia|].
      intros g Hg. rewrite N1 by assumption. split; [tauto|]. intros [H|[H _]]; [assumption|discriminate].
    - split; [right; split; [reflexivity|]; apply T2; reflexivity|]. split; [assumption|].
      intros g Hg. rewrite N2 by assumption. pose proof (proj1 T2 eq_refl). split; [tauto|]. intros [H0|[_ [_ H0]]]; [|assumption].
      exfalso. assert (false = true) by (apply T1; exists (q std g); split; [apply nth_In; lia|assumption]). discriminate.
    - intros [H|[H _]]; [apply T1 in H; discriminate|discriminate].
    - intros [H|[_ H]]; [apply T1 in H; discriminate|apply T2 in H; discriminate].
    - intros [H|[H _]]; [apply T1 in H; discriminate|discriminate]. }
  eexists. split; [reflexivity|].
  assert (N3 : forall g, g < length mean -> nth g zc false = true <-> q dg g = 0%Qc).
  { intros g Hg. unfold zc. rewrite (nth_map_in _ _ _ _ _ _ 0%Qc) by lia. apply qeqb_eq. }
  destruct (existsb (fun b => b) zc) eqn:Ez.
  - destruct m2 as [m|]; [|exact H2]. destruct H2 as (H2 & H3 & H4).
    split; [assumption|]. split; [rewrite orb_list_length; lia|].
    intros g Hg. rewrite orb_list_nth by lia. rewrite orb_true_iff, H4, N3 by assumption. unfold skipped. tauto.
  - assert (Nz : forall g, g < length mean -> q dg g <> 0%Qc).
    { intros g Hg E. apply N3 in E; auto. apply not_true_iff_false in Ez. apply Ez.
      apply existsb_exists. exists true. split; [|reflexivity]. rewrite <- E. apply nth_In. lia. }
    destruct m2 as [m|]; [|exact H2]. destruct H2 as (H2 & H3 & H4).
    split; [assumption|]. split; [assumption|]. intros g Hg. rewrite H4 by assumption. unfold skipped.
    pose proof (Nz g Hg). tauto.
Qed.

(** ** Columns of the result *)
(** Number of kept groups before [g]. *)
Definition kept_before (keep : list bool) (g : nat) : nat := length (filter (fun b => b) (firstn g keep)).

Lemma select_nth : forall A (keep : list bool) (l : list A) g d, length keep = length l -> g < length l ->
  nth g keep false = true ->
  nth (kept_before keep g) (select keep l) d = nth g l d /\ kept_before keep g < length (select keep l).
Proof.
  induction keep as [|b keep IH]; intros l g d Hl Hg Hk; destruct l as [|x l]; cbn in *; try lia.
  destruct g as [|g].
  - subst b. cbn. split; [reflexivity|lia].
  - unfold kept_before in *. cbn. destruct b; cbn.
    + destruct (IH l g d ltac:(lia) ltac:(lia) Hk). split; [assumption|lia].
    + apply IH; auto; lia.
Qed.

Lemma reinsert_spec : forall ns m mean dists, length m = length mean ->
  length dists = length (filter negb m) ->
  length (reinsert ns m mean dists) = length mean /\
  forall g, g < length mean ->
    nth g (reinsert ns m mean dists) [] =
    if nth g m false then repeat (nth g mean 0%Qc) ns
    else nth (kept_before (map negb m) g) dists [].
Proof.
  intros ns m. induction m as [|b m IH]; intros mean dists Hm Hd; destruct mean as [|x mean]; cbn in *; try lia.
  - split; [reflexivity|intros; lia].
  - destruct b; cbn in *.
    + destruct (IH mean dists ltac:(lia) ltac:(lia)) as [H1 H2]. split; [cbn; now f_equal|].
      intros [|g] Hg; [reflexivity|]. cbn. rewrite H2 by lia. reflexivity.
    + destruct dists as [|d dists]; [cbn in Hd; lia|]. cbn in *.
      destruct (IH mean dists ltac:(lia) ltac:(lia)) as [H1 H2]. split; [now f_equal|].
      intros [|g] Hg; [reflexivity|]. cbn. rewrite H2 by lia. unfold kept_before. cbn. reflexivity.
Qed.

Lemma select_length : forall A (keep : list bool) (l : list A), length keep = length l ->
  length (select keep l) = length (filter (fun b => b) keep).
Proof.
  induction keep as [|b keep IH]; intros [|x l] H; cbn in *; try lia. destruct b; cbn; rewrite IH; lia.
Qed.

Lemma filter_negb_map : forall m, length (filter (fun b => b) (map negb m)) = length (filter negb m).
Proof. induction m as [|[] m IH]; cbn; auto. Qed.

Lemma order_length : forall r s, length (order r s) = length s.
Proof. intros. unfold order. now rewrite map_length, seq_length. Qed.
Lemma order_nth : forall r s j, j < length s -> nth j (order r s) [] = order_col (nth j r []) (nth j s []).
Proof.
  intros r s j Hj. unfold order. rewrite (nth_map_in _ _ _ _ _ _ 0) by now rewrite seq_length.
  now rewrite seq_nth.
Qed.

Lemma nth_sampled_kept : forall (sk : nat -> Prop) keep g,
  (forall i, i < length keep -> nth i keep false = true <-> ~ sk i) ->
  (forall i, i < length keep -> sk i \/ ~ sk i) -> g <= length keep ->
  nth_sampled sk g (kept_before keep g).
Proof.
  intros sk keep g H Hdec. induction g as [|g IH]; intros Hg; [apply ns_first|].
  assert (E : kept_before keep (S g) = (if nth g keep false then S (kept_before keep g) else kept_before keep g)).
  { clear -Hg. revert g Hg. unfold kept_before. induction keep as [|b keep IH]; intros g Hg; cbn [length] in *; [lia|].
    destruct g as [|g].
    - destruct b; reflexivity.
    - specialize (IH g ltac:(lia)).
      change (firstn (S (S g)) (b :: keep)) with (b :: firstn (S g) keep).
      change (firstn (S g) (b :: keep)) with (b :: firstn g keep). cbn [nth].
      destruct b; cbn [filter length]; rewrite IH; destruct (nth g keep false); reflexivity. }
  rewrite E. destruct (nth g keep false) eqn:En.
  - apply ns_take; [apply H; [lia|assumption]|apply IH; lia].
  - apply ns_skip; [|apply IH; lia]. destruct (Hdec g ltac:(lia)) as [|Hn]; [assumption|].
    apply (H g ltac:(lia)) in Hn. congruence.
Qed.

Lemma skipped_dec : forall mean std dg ln g, length std = length mean -> length dg = length mean -> mean <> [] ->
  g < length mean -> skipped mean std dg ln g \/ ~ skipped mean std dg ln g.
Proof.
  intros mean std dg ln g H1 H2 H3 Hg. destruct (mask_spec mean std dg ln H1 H2 H3) as ([m|] & _ & H).
  - destruct H as (_ & _ & H). rewrite <- (H g Hg). destruct (nth g m false); [now left|now right].
  - right. intros [Hs|[(E & Hs & _)|[Hs _]]]; apply H; [left|now right|assumption].
    exists (q std g). split; [apply nth_In; lia|assumption].
Qed.

(** The distribution chosen by name. *)
Definition dist_of (distro : text) : option dist :=
  let d := lower distro in
  if eqt d (str "normal") then Some Normal
  else if eqt d (str "lognormal") then Some LogNormal
  else if eqt d (str "uniform") then Some Uniform else None.

Lemma sample_with_corr_spec : forall scores draw mean std dg ns distro dd nv,
  let ln := eqt distro (str "lognormal") in
  length std = length mean -> length dg = length mean -> mean <> [] ->
  dist_of distro = Some dd ->
  nth_sampled (skipped mean std dg ln) (length mean) nv ->
  length (scores nv) = nv -> (forall c, In c (scores nv) -> length c = ns) ->
  (forall i m s, length (draw dd i m s) = ns) ->
  exists out, sample_with_corr scores draw mean std dg ns distro = COk out /\
    length out = length mean /\
    forall g, g < length mean ->
      (skipped mean std dg ln g -> nth g out [] = repeat (q mean g) ns) /\
      (~ skipped mean std dg ln g -> exists k, k < nv /\ nth_sampled (skipped mean std dg ln) g k /\
         arranged (nth k (scores nv) []) (draw dd k (q mean g) (q std g)) (nth g out [])).
Proof.
  intros scores draw mean std dg ns distro dd nv ln Hs Hd Hne Hdd Hnv Hsc Hscl Hdr.
  pose proof (mask_spec mean std dg ln Hs Hd Hne) as (om & Em & Hom).
  unfold sample_with_corr. fold ln. rewrite Em.
  set (keep := match om with Some m => map negb m | None => map (fun _ => true) mean end).
  assert (Lk : length keep = length mean).
  { unfold keep. destruct om as [m|]; rewrite map_length; [apply Hom|reflexivity]. }
  assert (Hk : forall i, i < length keep -> nth i keep false = true <-> ~ skipped mean std dg ln i).
  { intros i Hi. rewrite Lk in Hi. unfold keep. destruct om as [m|].
    - destruct Hom as (_ & Lm & Hm). rewrite (nth_map_in _ _ _ _ _ _ false) by lia.
      rewrite <- (Hm i Hi). destruct (nth i m false); cbn; split; intros; congruence || tauto.
    - rewrite (nth_map_in _ _ _ _ _ _ 0%Qc) by assumption. split; [|reflexivity]. intros _ H.
      apply Hom. destruct H as [H|[(E & H & _)|[H _]]]; [left|now right|assumption].
      exists (q std i). split; [apply nth_In; lia|assumption]. }
  assert (Hdec : forall i, i < length keep -> skipped mean std dg ln i \/ ~ skipped mean std dg ln i).
  { intros i Hi. apply skipped_dec; auto. lia. }
  assert (Hkb : forall g k, g <= length keep -> nth_sampled (skipped mean std dg ln) g k -> k = kept_before keep g).
  { intros g k Hg H. pose proof (nth_sampled_kept _ keep g Hk Hdec Hg) as H'.
    clear -H H'. revert H'. generalize (kept_before keep g). induction H; intros k' H'; inversion H'; subst; try tauto; auto. }
  assert (Env : length (select keep mean) = nv).
  { rewrite select_length by assumption. rewrite (Hkb _ _ (Nat.eq_le_incl _ _ (eq_sym Lk)) Hnv).
    unfold kept_before. rewrite <- Lk, firstn_all. reflexivity. }
  rewrite Env. destruct (Nat.eqb_spec nv 0) as [E0|E0].
  - eexists. split; [reflexivity|]. split; [apply map_length|]. intros g Hg. split.
    + intros _. now rewrite (nth_map_in _ _ _ _ _ _ 0%Qc) by assumption.
    + intros Hn. exfalso. apply (Hk g ltac:(lia)) in Hn.
      destruct (select_nth _ keep mean g 0%Qc Lk Hg Hn) as [_ H]. lia.
  - cbn zeta.
    unfold dist_of in Hdd. cbn zeta in Hdd. rewrite Hdd.
    set (dists := map (fun i => draw dd i (nth i (select keep mean) 0%Qc) (nth i (select keep std) 0%Qc)) (seq 0 nv)).
    assert (Ld : length dists = nv) by (unfold dists; now rewrite map_length, seq_length).
    assert (Hcol : forall g, g < length mean -> nth g keep false = true ->
       kept_before keep g < nv /\
       arranged (nth (kept_before keep g) (scores nv) []) (draw dd (kept_before keep g) (q mean g) (q std g))
         (nth (kept_before keep g) (order (rank (scores nv)) dists) [])).
    { intros g Hg Hkg. destruct (select_nth _ keep mean g 0%Qc Lk Hg Hkg) as [E1 L1].
      destruct (select_nth _ keep std g 0%Qc ltac:(lia) ltac:(lia) Hkg) as [E2 _].
      rewrite Env in L1. split; [assumption|]. rewrite order_nth by lia.
      unfold rank. rewrite (nth_map_in _ _ _ _ _ _ []) by lia.
      unfold dists. rewrite (nth_map_in _ _ _ _ _ _ 0) by now rewrite seq_length.
      rewrite seq_nth by assumption. cbn [plus]. rewrite E1, E2.
      apply order_arranged. rewrite Hdr. apply Hscl. apply nth_In. lia. }
    destruct om as [m|].
    + destruct Hom as (_ & Lm & Hm).
      destruct (reinsert_spec ns m mean (order (rank (scores nv)) dists) Lm) as [R1 R2].
      { rewrite order_length, Ld. rewrite <- Env, select_length by assumption. apply filter_negb_map. }
      eexists. split; [reflexivity|]. split; [assumption|]. intros g Hg. rewrite R2 by assumption.
      specialize (Hm g Hg). split.
      * intros Hsk. apply Hm in Hsk. now rewrite Hsk.
      * intros Hsk. assert (E : nth g m false = false) by (apply not_true_iff_false; tauto). rewrite E.
        apply (Hk g ltac:(lia)) in Hsk. exists (kept_before keep g).
        split; [now apply Hcol|]. split; [apply nth_sampled_kept; auto; lia|]. fold keep. now apply Hcol.
    + eexists. split; [reflexivity|]. split.
      * rewrite order_length, Ld, <- Env, select_length by assumption.
        unfold keep. clear. induction mean; cbn; auto.
      * intros g Hg.
        assert (Hall : nth g keep false = true) by (unfold keep; now rewrite (nth_map_in _ _ _ _ _ _ 0%Qc) by assumption).
        pose proof (proj1 (Hk g ltac:(lia)) Hall) as Hns. split; [tauto|]. intros _.
        assert (Ekb : kept_before keep g = g).
        { unfold keep, kept_before. clear -Hg. revert g Hg. induction mean as [|x l IH]; intros g Hg; cbn in *; [lia|].
          destruct g; [reflexivity|]. cbn. f_equal. apply IH. lia. }
        destruct (Hcol g Hg Hall) as [H1 H2]. exists g. rewrite Ekb in *. split; [assumption|]. split; [|assumption].
        rewrite <- Ekb at 2. apply nth_sampled_kept; auto; lia.
Qed.
