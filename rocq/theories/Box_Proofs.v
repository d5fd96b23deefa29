From Verif Require Import Num Box_Model Box_Spec.
From Coq Require Import ZArith List Bool Arith Lia.
Import ListNotations.
Local Open Scope nat_scope.

Section Box.
Variables (sym : bool) (n m : nat).
Hypothesis Hsq : sym = true -> m = n.
Hypothesis Hm : 0 < m.
Hypothesis Hn : 0 < n.

Definition sized (p : rec) : Prop := nrow p = n /\ ncolh p = (if sym then 0 else m).
Lemma sized_symm p : sized p -> symm p = sym /\ ncol p = m /\ nrow p = n.
Proof.
  intros [H1 H2]. unfold ncol, symm. rewrite H2, H1. destruct sym.
  - cbn. now rewrite Hsq.
  - destruct m; [lia|]. auto.
Qed.

(** ** Elements *)
Definition line (i : nat) : list (nat * nat) := map (pair i) (if sym then seq i (S m - i) else seq 1 m).
Lemma elements_app i k k' : elements sym m i (k + k') = elements sym m i k ++ elements sym m (i + k) k'.
Proof.
  revert i. induction k as [|k IH]; intros i; [now rewrite Nat.add_0_r|]. cbn [elements Nat.add]. rewrite IH, app_assoc.
  now replace (i + S k) with (S i + k) by lia.
Qed.
Lemma elements_in i k e : In e (elements sym m i k) ->
  i <= fst e < i + k /\ (if sym then fst e <= snd e else 1 <= snd e) /\ snd e <= m.
Proof.
  revert i. induction k as [|k IH]; intros i; cbn [elements]; [intros []|]. intros H. apply in_app_iff in H as [H|H].
  - apply in_map_iff in H as (j & <- & H). cbn [fst snd]. destruct sym; apply in_seq in H; lia.
  - destruct (IH _ H) as (H1 & H2 & H3). split; [lia|]. now split.
Qed.
Lemma elements_has i k a b : i <= a < i + k -> (if sym then a <= b else 1 <= b) -> b <= m -> In (a, b) (elements sym m i k).
Proof.
  revert i. induction k as [|k IH]; intros i H1 H2 H3; [lia|]. cbn [elements]. apply in_app_iff.
  destruct (Nat.eq_dec i a) as [->|N].
  - left. apply in_map_iff. exists b. split; [reflexivity|]. destruct sym; apply in_seq; lia.
  - right. apply IH; [lia|assumption..].
Qed.
Lemma nodup_app {A} (l l' : list A) : NoDup l -> NoDup l' -> (forall x, In x l -> ~ In x l') -> NoDup (l ++ l').
Proof.
  induction l as [|x l IH]; intros H1 H2 H3; [exact H2|]. inversion H1 as [|? ? N H1']. subst. cbn. constructor.
  - rewrite in_app_iff. intros [H|H]; [contradiction|]. apply (H3 x); [now left|assumption].
  - apply IH; try assumption. intros y Hy. apply H3. now right.
Qed.
Lemma elements_nodup i k : NoDup (elements sym m i k).
Proof.
  revert i. induction k as [|k IH]; intros i; [constructor|]. cbn [elements]. apply nodup_app; [|apply IH|].
  - assert (A : forall l : list nat, NoDup l -> NoDup (map (pair i) l)).
    { intros l H. induction H as [|x l Hx _ IHl]; cbn; constructor; [|assumption]. intros H. apply in_map_iff in H as (y & E & H). injection E as ->. contradiction. }
    apply A. destruct sym; apply seq_NoDup.
  - intros e H1 H2. apply in_map_iff in H1 as (j & <- & _). apply elements_in in H2. cbn in H2. lia.
Qed.
(** Elements after a position. *)
Definition after (r cl : nat) : list (nat * nat) := map (pair r) (seq (S cl) (m - cl)) ++ elements sym m (S r) (n - r).
Definition weight (e : nat * nat) : nat := if sym && negb (fst e =? snd e) then 2 else 1.
Definition weights (l : list (nat * nat)) : nat := fold_right (fun e a => weight e + a) 0 l.
Lemma weights_app a b : weights (a ++ b) = weights a + weights b.
Proof. unfold weights. induction a as [|e a IH]; [reflexivity|]. cbn [app fold_right]. rewrite IH. lia. Qed.
Lemma weights_snoc l e : weights (l ++ [e]) = weights l + weight e.
Proof. rewrite weights_app. cbn. lia. Qed.
Lemma weights_pos e l : 0 < weights (e :: l).
Proof. cbn. unfold weight. destruct (sym && _); lia. Qed.

Ltac bysym := destruct (bool_dec sym true) as [Sy|Sy]; [|apply not_true_is_false in Sy];
  repeat match goal with H : context [sym] |- _ => lazymatch H with Hsq => fail | Sy => fail | _ => rewrite Sy in H; cbn [negb orb andb] in H; cbv match in H end end;
  rewrite ?Sy; cbn [negb orb andb]; cbv match; try specialize (Hsq Sy) as Hsq'.
Definition E := elements sym m 1 n.
(** Position and counts. *)
Definition at_ (s : load) (pre rest : list (nat * nat)) : Prop :=
  E = pre ++ rest /\ rest = after (row s) (col s) /\ col s <= m /\ 1 <= row s <= n /\ nx s = weights pre /\
  (pre = [] /\ row s = 1 /\ col s = 0 \/ last pre (0, 0) = (row s, col s) /\ pre <> []).

(** The element stored by one step. *)
Lemma load_one_step p istart v s pre rest : sized p -> at_ s pre rest ->
  match rest with
  | [] => load_one p istart v s = Halt (Stop 10)
  | e :: rest' => exists s', load_one p istart v s = Ok s' /\ at_ s' (pre ++ [e]) rest' /\
      let x := match v with Some x => x | None => if istart <? fst e then c s (fst e - 1) (snd e) else 0%Qc end in
      c s' = (let c1 := put (c s) (fst e) (snd e) x in if negb sym || (fst e =? snd e) then c1 else put c1 (snd e) (fst e) x)
  end.
Proof.
  intros Hp (HE & Hr & Hc & Hrow & Hnx & Hlast). destruct (sized_symm p Hp) as (Es & Ec & Er). unfold load_one. rewrite Es, Ec, Er.
  assert (Step : forall e rest', rest = e :: rest' ->
    rest' = after (fst e) (snd e) -> snd e <= m -> 1 <= fst e <= n ->
    forall cc x, at_ {| c := cc; nx := x + nx s; row := fst e; col := snd e |} (pre ++ [e]) rest' <-> x = weight e).
  { intros e rest' E1 E2 E3 E4 cc x. unfold at_. cbn [row col nx]. rewrite weights_snoc. split.
    - intros (_ & _ & _ & _ & H & _). lia.
    - intros ->. split; [now rewrite <- app_assoc, HE, E1|]. split; [exact E2|]. split; [exact E3|]. split; [exact E4|].
      split; [lia|]. right. split; [|intros H; apply app_eq_nil in H as [_ H]; discriminate].
      rewrite last_last. now destruct e. }
  destruct (S (col s) <=? m) eqn:Ej; cbn [negb andb].
  - apply Nat.leb_le in Ej. unfold after in Hr. replace (m - col s) with (S (m - S (col s))) in Hr by lia. cbn [seq map app] in Hr.
    destruct rest as [|e rest']; [discriminate|]. injection Hr as -> Hr.
    specialize (Step (row s, S (col s)) rest' eq_refl Hr Ej Hrow). cbn [fst snd] in *.
    destruct (negb sym || (row s =? S (col s))) eqn:Ed.
    + eexists. split; [reflexivity|]. split; [|reflexivity]. apply (proj2 (Step _ 1)). unfold weight. cbn [fst snd].
      bysym; [now rewrite Ed|reflexivity].
    + eexists. split; [reflexivity|]. split; [|reflexivity]. apply (proj2 (Step _ 2)). unfold weight. cbn [fst snd].
      bysym; [now rewrite Ed|discriminate].
  - apply Nat.leb_gt in Ej. assert (Ecol : col s = m) by lia. unfold after in Hr. rewrite Ecol, Nat.sub_diag in Hr. cbn [seq map app] in Hr.
    destruct (n <? S (row s)) eqn:En.
    + apply Nat.ltb_lt in En. replace (n - row s) with 0 in Hr by lia. cbn in Hr. now rewrite Hr.
    + apply Nat.ltb_ge in En. replace (n - row s) with (S (n - S (row s))) in Hr by lia. cbn [elements] in Hr.
      change (map (pair (S (row s))) (if sym then seq (S (row s)) (S m - S (row s)) else seq 1 m)) with (line (S (row s))) in Hr.
      assert (Hle : (if sym then S (row s) else 1) <= m) by (bysym; lia).
      assert (Hline : line (S (row s)) = (S (row s), if sym then S (row s) else 1) ::
        map (pair (S (row s))) (seq (S (if sym then S (row s) else 1)) (m - (if sym then S (row s) else 1)))).
      { unfold line. bysym.
        - replace (S m - S (row s)) with (S (m - S (row s))) by lia. reflexivity.
        - destruct m as [|m']; [lia|]. cbn [seq map]. now rewrite Nat.sub_succ, Nat.sub_0_r. }
      rewrite Hline in Hr. cbn [app] in Hr. destruct rest as [|e rest']; [discriminate|]. injection Hr as -> Hr.
      specialize (Step (S (row s), if sym then S (row s) else 1) rest' eq_refl Hr Hle ltac:(cbn; lia)). cbn [fst snd] in *.
      set (j := if sym then S (row s) else 1) in *.
      destruct (negb sym || (S (row s) =? j)) eqn:Ed.
      * eexists. split; [reflexivity|]. split; [|reflexivity]. apply (proj2 (Step _ 1)). unfold weight. cbn [fst snd].
        bysym; [now rewrite Ed|reflexivity].
      * eexists. split; [reflexivity|]. split; [|reflexivity]. apply (proj2 (Step _ 2)). unfold weight. cbn [fst snd].
        bysym; [now rewrite Ed|discriminate].
Qed.

Lemma after_rows r cl x : In x (after r cl) -> r <= fst x.
Proof.
  unfold after. rewrite in_app_iff. intros [H|H]; [apply in_map_iff in H as (j & <- & _); cbn; lia|]. apply elements_in in H. lia.
Qed.
(** The element above an element comes earlier. *)
Lemma above_done s pre e rest : at_ s (pre ++ [e]) rest -> 1 < fst e -> In (fst e - 1, snd e) pre.
Proof.
  intros (HE & Hr & _ & _ & _ & [[N _]|[HL _]]) H; [destruct pre; discriminate|]. rewrite last_last in HL.
  assert (He : In e E) by (rewrite HE, <- app_assoc; apply in_app_iff; right; now left).
  unfold E in He. apply elements_in in He as (H1 & H2 & H3).
  assert (Hu : In (fst e - 1, snd e) E) by (apply elements_has; [lia|bysym; lia|lia]).
  rewrite HE, <- app_assoc in Hu. apply in_app_iff in Hu as [Hu|[Hu|Hu]]; [exact Hu| |].
  - assert (F : fst e = fst e - 1) by (rewrite Hu at 1; reflexivity). lia.
  - rewrite Hr in Hu. apply after_rows in Hu. cbn in Hu. subst e. cbn in *. lia.
Qed.
Lemma at_in s pre rest e : at_ s pre rest -> In e pre -> In e E.
Proof. intros (HE & _) H. rewrite HE. apply in_app_iff. now left. Qed.
Lemma at_fresh s pre e rest : at_ s (pre ++ [e]) rest -> ~ In e pre.
Proof.
  intros (HE & _) H. assert (N : NoDup E) by apply elements_nodup. rewrite HE, <- app_assoc in N. apply NoDup_remove_2 in N.
  apply N, in_app_iff. now left.
Qed.
Lemma upper e : In e E -> sym = true -> fst e <= snd e.
Proof. intros H S. apply elements_in in H. rewrite S in H. lia. Qed.

Lemma put_here (C : matrix) i j v : put C i j v i j = v.
Proof. unfold put. now rewrite !Nat.eqb_refl. Qed.
Lemma put_there (C : matrix) i j v a b : (a, b) <> (i, j) -> put C i j v a b = C a b.
Proof. intros H. unfold put. destruct (a =? i) eqn:E1, (b =? j) eqn:E2; try reflexivity. apply Nat.eqb_eq in E1, E2. subst. contradiction. Qed.

Definition value (istart : nat) (C : matrix) (e : nat * nat) (v : option Qc) : Qc :=
  match v with Some x => x | None => if istart <? fst e then C (fst e - 1) (snd e) else 0%Qc end.
Definition to_mark (v : option Qc) : mark := match v with Some x => Value x | None => Above end.

(** One step in terms of values. *)
Lemma load_one_value p istart v s pre e rest : sized p -> at_ s pre (e :: rest) ->
  exists s', load_one p istart v s = Ok s' /\ at_ s' (pre ++ [e]) rest /\
    c s' (fst e) (snd e) = value istart (c s) e v /\
    (sym = true -> c s' (snd e) (fst e) = value istart (c s) e v) /\
    (forall x, In x pre -> c s' (fst x) (snd x) = c s (fst x) (snd x)) /\
    (sym = true -> forall x, In x pre -> c s' (snd x) (fst x) = c s (snd x) (fst x)).
Proof.
  intros Hp Ha. destruct (load_one_step p istart v s pre (e :: rest) Hp Ha) as (s' & H1 & H2 & H3). exists s'.
  split; [exact H1|]. split; [exact H2|].
  assert (F : forall x, In x pre -> x <> e) by (intros x Hx ->; now apply (at_fresh _ _ _ _ H2)).
  assert (Ee : In e E) by (apply (at_in _ _ _ _ H2), in_app_iff; right; now left).
  assert (Ex : forall x, In x pre -> In x E) by (intros x Hx; apply (at_in _ _ _ _ Ha Hx)).
  cbn zeta in H3. fold (value istart (c s) e v) in H3. set (w := value istart (c s) e v) in *. clearbody w.
  destruct (negb sym || (fst e =? snd e)) eqn:Ed; rewrite H3.
  - split; [apply put_here|]. split.
    { intros S. rewrite S in Ed. cbn in Ed. apply Nat.eqb_eq in Ed. rewrite Ed. apply put_here. }
    split.
    + intros x Hx. apply put_there. intros N. apply (F x Hx). destruct x, e. exact N.
    + intros S x Hx. rewrite S in Ed. cbn in Ed. apply Nat.eqb_eq in Ed. apply put_there. intros N. apply (F x Hx).
      destruct x as [a b], e as [i j]. cbn in *. injection N as -> ->. now subst.
  - apply orb_false_iff in Ed as [Es Ed]. apply Nat.eqb_neq in Ed. assert (S : sym = true) by (now apply negb_false_iff).
    pose proof (upper e Ee S) as U.
    split; [rewrite put_there; [apply put_here|intros N; injection N; lia]|]. split; [intros _; apply put_here|]. split.
    + intros x Hx. pose proof (upper x (Ex x Hx) S) as Ux. rewrite !put_there; [reflexivity| |].
      * intros N. apply (F x Hx). destruct x, e. exact N.
      * intros N. injection N. lia.
    + intros _ x Hx. pose proof (upper x (Ex x Hx) S) as Ux. rewrite !put_there; [reflexivity| |].
      * intros N. injection N. lia.
      * intros N. apply (F x Hx). destruct x, e. cbn in *. now injection N as -> ->.
Qed.

(** ** Decoding *)
Section Values.
Variable M : nat -> nat -> Qc.
Definition stored (C : matrix) (l : list (nat * nat)) : Prop :=
  forall e, In e l -> C (fst e) (snd e) = M (fst e) (snd e) /\ (sym = true -> C (snd e) (fst e) = M (fst e) (snd e)).

Lemma load_one_stored p istart v s pre e rest : sized p -> at_ s pre (e :: rest) -> stored (c s) pre -> 1 <= istart ->
  agrees istart M e (to_mark v) ->
  exists s', load_one p istart v s = Ok s' /\ at_ s' (pre ++ [e]) rest /\ stored (c s') (pre ++ [e]).
Proof.
  intros Hp Ha Hs Hi Hg. destruct (load_one_value p istart v s pre e rest Hp Ha) as (s' & H1 & H2 & H3 & H4 & H5 & H6).
  exists s'. split; [exact H1|]. split; [exact H2|].
  assert (V : value istart (c s) e v = M (fst e) (snd e)).
  { destruct v as [x|]; cbn [to_mark agrees value] in *; [now symmetry|]. rewrite Hg. unfold value. destruct (istart <? fst e) eqn:L; [|reflexivity].
    apply Nat.ltb_lt in L. pose proof (above_done _ _ _ _ H2 ltac:(lia)) as Hu. apply (Hs _ Hu). }
  intros x Hx. apply in_app_iff in Hx as [Hx|[<-|[]]].
  - destruct (Hs x Hx) as [A B]. split; [rewrite (H5 x Hx); exact A|]. intros S. rewrite (H6 S x Hx). now apply B.
  - split; [now rewrite H3|]. intros S. now rewrite (H4 S).
Qed.
Lemma load_run_stored k p istart v s pre es rest : sized p -> at_ s pre (es ++ rest) -> stored (c s) pre -> 1 <= istart ->
  Forall2 (agrees istart M) es (repeat (to_mark v) k) ->
  exists s', load_run k p istart v s = Ok s' /\ at_ s' (pre ++ es) rest /\ stored (c s') (pre ++ es).
Proof.
  intros Hp. revert s pre es. induction k as [|k IH]; intros s pre es Ha Hs Hi Hg; cbn [repeat] in Hg; inversion Hg as [|e ? es' ? G1 G2]; subst.
  - exists s. rewrite app_nil_r. now split.
  - destruct (load_one_stored p istart v s pre e (es' ++ rest) Hp Ha Hs Hi G1) as (s1 & H1 & H2 & H3).
    destruct (IH s1 (pre ++ [e]) es' H2 H3 Hi G2) as (s2 & H4 & H5 & H6). rewrite <- app_assoc in H5, H6.
    exists s2. cbn [load_run]. rewrite H1. exact (conj H4 (conj H5 H6)).
Qed.
Lemma load_page_stored p istart cs xs ms : spells cs xs ms -> forall s pre es rest,
  sized p -> at_ s pre (es ++ rest) -> stored (c s) pre -> 1 <= istart -> Forall2 (agrees istart M) es ms ->
  exists s', load_page cs xs p istart s = Ok s' /\ at_ s' (pre ++ es) rest /\ stored (c s') (pre ++ es).
Proof.
  induction 1 as [xs|k cs x xs ms Hk Hsp IH|k cs xs ms Hk Hsp IH]; intros s pre es rest Hp Ha Hs Hi Hg.
  - inversion Hg. subst. exists s. rewrite app_nil_r. now split.
  - apply Forall2_app_inv_r in Hg as (e1 & e2 & G1 & G2 & ->). rewrite <- app_assoc in Ha.
    destruct (load_run_stored k p istart (Some x) s pre e1 (e2 ++ rest) Hp Ha Hs Hi G1) as (s1 & H1 & H2 & H3).
    destruct (IH s1 (pre ++ e1) e2 rest Hp H2 H3 Hi G2) as (s2 & H4 & H5 & H6). rewrite <- app_assoc in H5, H6.
    exists s2. cbn [load_page]. destruct (- Z.of_nat k <? 0)%Z eqn:L; [|apply Z.ltb_ge in L; lia].
    rewrite Z.opp_involutive, Nat2Z.id, H1. exact (conj H4 (conj H5 H6)).
  - apply Forall2_app_inv_r in Hg as (e1 & e2 & G1 & G2 & ->). rewrite <- app_assoc in Ha.
    destruct (load_run_stored k p istart None s pre e1 (e2 ++ rest) Hp Ha Hs Hi G1) as (s1 & H1 & H2 & H3).
    destruct (IH s1 (pre ++ e1) e2 rest Hp H2 H3 Hi G2) as (s2 & H4 & H5 & H6). rewrite <- app_assoc in H5, H6.
    exists s2. cbn [load_page]. destruct (Z.of_nat k <? 0)%Z eqn:L; [apply Z.ltb_lt in L; lia|].
    destruct (Z.of_nat k =? 0)%Z eqn:L0; [apply Z.eqb_eq in L0; lia|].
    rewrite Nat2Z.id, H1. exact (conj H4 (conj H5 H6)).
Qed.
End Values.

(** ** Rows *)
Lemma last_line i d : (if sym then i <= m else True) -> last (line i) d = (i, m).
Proof.
  intros H. unfold line. assert (A : exists a, (if sym then seq i (S m - i) else seq 1 m) = seq a (m - a) ++ [m]).
  { bysym.
    - exists i. replace (S m - i) with (S (m - i)) by lia. rewrite seq_S. now replace (i + (m - i)) with m by lia.
    - exists 1. destruct m as [|m']; [lia|]. rewrite seq_S. cbn [Nat.add]. now rewrite Nat.sub_succ, Nat.sub_0_r. }
  destruct A as (a & ->). rewrite map_app. cbn [map]. apply last_last.
Qed.
Lemma last_elements i k d : 0 < k -> i + k <= S n -> 0 < i -> last (elements sym m i k) d = (i + k - 1, m) /\ elements sym m i k <> [].
Proof.
  intros H L P. destruct k as [|k]; [lia|]. replace (S k) with (k + 1) by lia. rewrite elements_app. cbn [elements]. rewrite app_nil_r.
  fold (line (i + k)).
  assert (Q : if sym then i + k <= m else True) by (bysym; [lia|exact I]).
  assert (N : line (i + k) <> []).
  { intros Z. pose proof (last_line (i + k) (0, 0) Q) as A. rewrite Z in A. cbn in A. injection A. lia. }
  replace (i + (k + 1) - 1) with (i + k) by lia. split; [|intros Z; apply app_eq_nil in Z as [_ Z]; contradiction].
  destruct (exists_last N) as (l & x & Ex). pose proof (last_line (i + k) d Q) as A. rewrite Ex in A |- *. rewrite app_assoc, last_last in *. exact A.
Qed.
(** At the end of row [i - 1]. *)
Definition at_row (i : nat) (s : load) : Prop := at_ s (elements sym m 1 (i - 1)) (elements sym m i (S n - i)) /\ 1 <= i <= S n.
Lemma at_row_pos i s : 1 < i -> at_row i s -> row s = i - 1 /\ col s = m.
Proof.
  intros H ((_ & _ & _ & _ & _ & [[A _]|[A _]]) & L); destruct (last_elements 1 (i - 1) (0, 0)) as [B C]; try lia; [contradiction|].
  rewrite A in B. injection B as -> ->. lia.
Qed.
Lemma split_elements i k : 1 <= i -> i + k <= S n -> elements sym m 1 (i - 1) ++ elements sym m i k = elements sym m 1 (i + k - 1) /\
  elements sym m i (S n - i) = elements sym m i k ++ elements sym m (i + k) (S n - (i + k)).
Proof.
  intros H1 H2. split.
  - replace (i + k - 1) with (i - 1 + k) by lia. rewrite elements_app. now replace (1 + (i - 1)) with i by lia.
  - replace (S n - i) with (k + (S n - (i + k))) by lia. apply elements_app.
Qed.
Lemma weights_line i : (if sym then i <= m else True) -> weights (line i) = if sym then 2 * (m - i) + 1 else m.
Proof.
  intros H. unfold line. bysym.
  - replace (S m - i) with (S (m - i)) by lia. cbn [seq map]. cbn [weights fold_right]. unfold weight at 1. rewrite Sy. cbn [fst snd andb]. rewrite Nat.eqb_refl. cbn [negb].
    assert (A : forall k a, i < a -> fold_right (fun e t => weight e + t) 0 (map (pair i) (seq a k)) = 2 * k).
    { induction k as [|k IH]; intros a La; [reflexivity|]. cbn [seq map fold_right]. rewrite IH by lia. unfold weight. rewrite Sy. cbn [fst snd andb].
      destruct (i =? a) eqn:Q; [apply Nat.eqb_eq in Q; lia|]. cbn [negb]. lia. }
    rewrite A by lia. lia.
  - assert (A : forall k a, fold_right (fun e t => weight e + t) 0 (map (pair i) (seq a k)) = k).
    { induction k as [|k IH]; intros a; [reflexivity|]. cbn [seq map fold_right]. rewrite IH. unfold weight. rewrite Sy. reflexivity. }
    unfold weights. apply A.
Qed.
Lemma weights_elements k : k <= n -> weights (elements sym m 1 k) = if sym then 2 * k * m - k * k else k * m.
Proof.
  induction k as [|k IH]; intros H; [bysym; reflexivity|]. replace (S k) with (k + 1) by lia. rewrite elements_app, weights_app, IH by lia.
  cbn [elements]. rewrite app_nil_r. fold (line (1 + k)).
  rewrite weights_line by (bysym; [lia|exact I]). bysym; nia.
Qed.
Lemma weights_all : weights E = n * m.
Proof. unfold E. rewrite weights_elements by lia. bysym; nia. Qed.
Lemma start c0 : at_row 1 {| c := c0; nx := 0; row := 1; col := 0 |}.
Proof.
  unfold at_row, at_. cbn [c nx row col]. replace (S n - 1) with n by lia. cbn [Nat.sub elements app]. split; [|lia].
  split; [reflexivity|]. split.
  - unfold after. rewrite Nat.sub_0_r. destruct n as [|n']; [lia|]. cbn [elements]. replace (S n' - 1) with n' by lia.
    f_equal. f_equal. bysym; [|reflexivity]. f_equal. lia.
  - split; [lia|]. split; [lia|]. split; [reflexivity|]. left. now split.
Qed.

Lemma encodes_le M i ps : encodes sym n m M i ps -> i <= S n.
Proof. induction 1; lia. Qed.
Lemma decode_from M i ps : encodes sym n m M i ps -> n <= 800 -> m <= 800 -> forall s rest,
  at_row i s -> stored M (c s) (elements sym m 1 (i - 1)) ->
  exists p C, load_set (ps ++ rest) i s = Ok (p, C, rest) /\ nrow p = n /\ ncol p = m /\ stored M C E.
Proof.
  intros He Ln Lm. induction He as [i k p ms Hmo Hnr Hnc Hik Hsp Hg|i k p ms ps Hmo Hnr Hnc Hik Hsp Hg He IH]; intros s rest [Ha Hi] Hs.
  - assert (Hp : sized p) by now split. destruct (sized_symm p Hp) as (_ & Ec & Er).
    destruct (split_elements i k) as [S1 S2]; [lia|lia|]. rewrite S2 in Ha.
    destruct (load_page_stored M p i (icon p) (xval p) ms Hsp s _ _ _ Hp Ha Hs ltac:(lia) Hg) as (s' & H1 & H2 & H3).
    rewrite S1 in H2, H3. replace (i + k - 1) with n in H2, H3 by lia. fold E in H2, H3.
    exists p, (c s'). split; [|now split].
    cbn [app load_set]. rewrite Ec, Er. destruct (800 <? n) eqn:L1; [apply Nat.ltb_lt in L1; lia|]. destruct (800 <? m) eqn:L2; [apply Nat.ltb_lt in L2; lia|].
    cbn [orb]. rewrite H1, Hmo. destruct H2 as (_ & _ & _ & _ & -> & _). now rewrite weights_all, Nat.eqb_refl.
  - assert (Hp : sized p) by now split. destruct (sized_symm p Hp) as (_ & Ec & Er).
    pose proof (encodes_le _ _ _ He) as Lk.
    destruct (split_elements i k) as [S1 S2]; [lia|lia|]. rewrite S2 in Ha.
    destruct (load_page_stored M p i (icon p) (xval p) ms Hsp s _ _ _ Hp Ha Hs ltac:(lia) Hg) as (s' & H1 & H2 & H3).
    rewrite S1 in H2, H3. assert (Hr : at_row (i + k) s') by (split; [exact H2|lia]).
    destruct (at_row_pos (i + k) s' Hik Hr) as [R1 R2].
    destruct (IH s' rest Hr H3) as (p' & C & H4 & H5 & H6 & H7). exists p', C. split; [|now split].
    cbn [app load_set]. rewrite Ec, Er. destruct (800 <? n) eqn:L1; [apply Nat.ltb_lt in L1; lia|]. destruct (800 <? m) eqn:L2; [apply Nat.ltb_lt in L2; lia|].
    cbn [orb]. rewrite H1, Hmo, R2, Nat.eqb_refl, R1. cbn [negb]. replace (S (i + k - 1)) with (i + k) by lia. exact H4.
Qed.

(** ** What is accepted is an encoding *)
Definition keeps (C C' : matrix) (l : list (nat * nat)) : Prop := forall x, In x l -> C' (fst x) (snd x) = C (fst x) (snd x).
Definition closed (istart : nat) (es l : list (nat * nat)) : Prop :=
  forall e, In e es -> In e l /\ (istart < fst e -> In (fst e - 1, snd e) l).
Lemma agrees_keeps istart C C' es l ms : keeps C C' l -> closed istart es l -> Forall2 (agrees istart C) es ms -> Forall2 (agrees istart C') es ms.
Proof.
  intros K Cl H. induction H as [|e k es ms A H IH]; constructor.
  - destruct (Cl e (or_introl eq_refl)) as [I1 I2]. destruct k as [v|]; cbn [agrees] in *; rewrite (K e I1); [exact A|]. rewrite A.
    destruct (istart <? fst e) eqn:L; [|reflexivity]. apply Nat.ltb_lt in L. symmetry. apply (K _ (I2 L)).
  - apply IH. intros x Hx. apply Cl. now right.
Qed.
Lemma closed_app istart a b l l' : closed istart a l -> closed istart b l' -> (forall x, In x l -> In x l') -> closed istart (a ++ b) l'.
Proof.
  intros H1 H2 H e He. apply in_app_iff in He as [He|He]; [|now apply H2]. destruct (H1 e He) as [A B]. split; [now apply H|]. intros L. now apply H, B.
Qed.
(** Steps accepted from a position. *)
Definition walked (istart : nat) (s s' : load) (pre rest : list (nat * nat)) (ms : list mark) : Prop :=
  exists es rest', rest = es ++ rest' /\ at_ s' (pre ++ es) rest' /\ keeps (c s) (c s') pre /\
    closed istart es (pre ++ es) /\ Forall2 (agrees istart (c s')) es ms.
Lemma walked_nil istart s pre rest : at_ s pre rest -> walked istart s s pre rest [].
Proof.
  intros H. exists [], rest. rewrite app_nil_r. split; [reflexivity|]. split; [exact H|]. split; [now intros x _|]. split; [now intros x []|constructor].
Qed.
Lemma walked_comp istart s1 s2 s3 pre e1 r1 ms1 ms2 : keeps (c s1) (c s2) pre -> closed istart e1 (pre ++ e1) ->
  Forall2 (agrees istart (c s2)) e1 ms1 -> walked istart s2 s3 (pre ++ e1) r1 ms2 -> walked istart s1 s3 pre (e1 ++ r1) (ms1 ++ ms2).
Proof.
  intros K1 C1 F1 (e2 & r2 & -> & A2 & K2 & C2 & F2).
  exists (e1 ++ e2), r2. split; [now rewrite app_assoc|]. rewrite (app_assoc pre). split; [exact A2|]. split.
  { intros x Hx. rewrite (K2 x) by (apply in_app_iff; now left). now apply K1. }
  split. { apply (closed_app _ _ _ _ _ C1 C2). intros x Hx. apply in_app_iff. now left. }
  apply Forall2_app; [|exact F2]. apply (agrees_keeps _ _ _ _ _ _ K2 C1 F1).
Qed.
Lemma load_one_walked p istart v s s' pre rest : sized p -> 1 <= istart -> at_ s pre rest -> load_one p istart v s = Ok s' ->
  walked istart s s' pre rest [to_mark v].
Proof.
  intros Hp Hi Ha Ho. destruct rest as [|e rest].
  - pose proof (load_one_step p istart v s pre [] Hp Ha) as H. cbn in H. rewrite Ho in H. discriminate.
  - destruct (load_one_value p istart v s pre e rest Hp Ha) as (s1 & H1 & H2 & H3 & H4 & H5 & H6). rewrite Ho in H1. injection H1 as <-.
    exists [e], rest. split; [reflexivity|]. split; [exact H2|]. split; [exact H5|].
    assert (U : istart < fst e -> In (fst e - 1, snd e) pre) by (intros L; apply (above_done _ _ _ _ H2); lia).
    split. { intros x [<-|[]]. split; [apply in_app_iff; right; now left|]. intros L. apply in_app_iff. left. now apply U. }
    constructor; [|constructor]. destruct v as [x|]; cbn [to_mark agrees value] in *; rewrite H3; [reflexivity|].
    destruct (istart <? fst e) eqn:L; [|reflexivity]. apply Nat.ltb_lt in L. symmetry. apply (H5 _ (U L)).
Qed.
Lemma load_run_walked k p istart v : forall s s' pre rest, sized p -> 1 <= istart -> at_ s pre rest -> load_run k p istart v s = Ok s' ->
  walked istart s s' pre rest (repeat (to_mark v) k).
Proof.
  induction k as [|k IH]; intros s s' pre rest Hp Hi Ha Ho; cbn [load_run repeat] in *.
  - injection Ho as <-. now apply walked_nil.
  - destruct (load_one p istart v s) as [s1|h] eqn:E1; [|discriminate].
    change (to_mark v :: repeat (to_mark v) k) with ([to_mark v] ++ repeat (to_mark v) k).
    destruct (load_one_walked p istart v s s1 pre rest Hp Hi Ha E1) as (e1 & r1 & -> & R2 & R3 & R4 & R5).
    apply (walked_comp _ _ s1); try assumption. now apply IH.
Qed.
Lemma load_page_walked p istart cs : forall xs s s' pre rest, sized p -> 1 <= istart -> at_ s pre rest -> load_page cs xs p istart s = Ok s' ->
  exists ms, spells cs xs ms /\ walked istart s s' pre rest ms.
Proof.
  induction cs as [|k cs IH]; intros xs s s' pre rest Hp Hi Ha Ho; cbn [load_page] in Ho.
  - injection Ho as <-. exists []. split; [constructor|now apply walked_nil].
  - destruct (k <? 0)%Z eqn:L.
    + apply Z.ltb_lt in L. destruct xs as [|x xs]; [discriminate|]. destruct (load_run (Z.to_nat (- k)) p istart (Some x) s) as [s1|h] eqn:E1; [|discriminate].
      destruct (load_run_walked _ _ _ _ _ _ _ _ Hp Hi Ha E1) as (e1 & r1 & -> & R2 & R3 & R4 & R5).
      destruct (IH xs s1 s' (pre ++ e1) r1 Hp Hi R2 Ho) as (ms & M1 & M2). exists (repeat (Value x) (Z.to_nat (- k)) ++ ms). split.
      * replace k with (- Z.of_nat (Z.to_nat (- k)))%Z at 1 by lia. constructor; [lia|exact M1].
      * now apply (walked_comp _ _ s1).
    + apply Z.ltb_ge in L. destruct (k =? 0)%Z eqn:L0; [discriminate|]. apply Z.eqb_neq in L0.
      destruct (load_run (Z.to_nat k) p istart None s) as [s1|h] eqn:E1; [|discriminate].
      destruct (load_run_walked _ _ _ _ _ _ _ _ Hp Hi Ha E1) as (e1 & r1 & -> & R2 & R3 & R4 & R5).
      destruct (IH xs s1 s' (pre ++ e1) r1 Hp Hi R2 Ho) as (ms & M1 & M2). exists (repeat Above (Z.to_nat k) ++ ms). split.
      * replace k with (Z.of_nat (Z.to_nat k))%Z at 1 by lia. constructor; [lia|exact M1].
      * now apply (walked_comp _ _ s1).
Qed.
(** A position at the end of a row. *)
Lemma app_prefix {A} (a b a' b' : list A) : a ++ b = a' ++ b' -> length a = length a' -> a = a' /\ b = b'.
Proof. revert a'. induction a as [|x a IH]; intros [|y a'] H L; try discriminate; [now split|]. cbn in *. injection H as -> H. destruct (IH a' H) as [-> ->]; [congruence|now split]. Qed.
Lemma at_row_of s pre rest : at_ s pre rest -> col s = m -> pre = elements sym m 1 (row s) /\ rest = elements sym m (S (row s)) (n - row s).
Proof.
  intros (HE & Hr & _ & Hrow & _) Hc. unfold after in Hr. rewrite Hc, Nat.sub_diag in Hr. cbn [seq map app] in Hr.
  assert (HE2 : E = elements sym m 1 (row s) ++ elements sym m (S (row s)) (n - row s)).
  { unfold E. replace n with (row s + (n - row s)) at 1 by lia. now rewrite elements_app. }
  rewrite HE, Hr in HE2. split; [|exact Hr]. now apply app_inv_tail in HE2.
Qed.
Lemma accepted_from rs : forall i s p C rest, at_row i s -> (forall q, In q rs -> sized q) -> load_set rs i s = Ok (p, C, rest) ->
  keeps (c s) C (elements sym m 1 (i - 1)) /\ exists ps, rs = ps ++ rest /\ encodes sym n m C i ps.
Proof.
  induction rs as [|q rs IH]; intros i s p C rest [Ha Hi] Hs H; [discriminate|]. cbn [load_set] in H.
  assert (Hq : sized q) by (apply Hs; now left). pose proof Hq as [Q1 Q2]. destruct (sized_symm q Hq) as (_ & Ec & Er).
  destruct (_ || _); [discriminate|]. destruct (load_page (icon q) (xval q) q i s) as [s'|h] eqn:Ep; [|discriminate].
  destruct (load_page_walked q i (icon q) (xval q) s s' _ _ Hq ltac:(lia) Ha Ep) as (ms & M1 & (es & r & W1 & W2 & W3 & W4 & W5)).
  destruct (more q) eqn:Em.
  - destruct (negb (col s' =? ncol q)) eqn:Ej; [discriminate|]. apply negb_false_iff, Nat.eqb_eq in Ej. rewrite Ec in Ej.
    destruct (at_row_of _ _ _ W2 Ej) as [P1 P2]. pose proof W2 as (_ & _ & _ & Hrow & _).
    assert (Li : i <= S (row s')).
    { destruct (le_lt_dec i (S (row s'))) as [|L]; [assumption|]. exfalso.
      assert (Le : length (elements sym m 1 (i - 1)) <= length (elements sym m 1 (row s'))) by (rewrite <- P1, app_length; lia).
      replace (i - 1) with (row s' + (i - 1 - row s')) in Le by lia. rewrite elements_app, app_length in Le.
      destruct (last_elements (1 + row s') (i - 1 - row s') (0, 0)) as [_ N]; try lia. destruct (elements sym m (1 + row s') (i - 1 - row s')); [contradiction|cbn in Le; lia]. }
    set (k := S (row s') - i). assert (Ek : i + k = S (row s')) by (unfold k; lia).
    destruct (split_elements i k) as [S1 S2]; [lia|lia|].
    assert (Ees : es = elements sym m i k).
    { rewrite Ek in S1. cbn [Nat.sub] in S1. rewrite Nat.sub_0_r in S1. rewrite <- P1 in S1. apply app_inv_head in S1. now symmetry. }
    assert (Hr : at_row (S (row s')) s').
    { split; [|lia]. cbn [Nat.sub]. rewrite Nat.sub_0_r, <- P1. rewrite <- P2. exact W2. }
    destruct (IH _ _ _ _ _ Hr (fun x Hx => Hs x (or_intror Hx)) H) as (K & ps & -> & He).
    assert (Eall : elements sym m 1 (S (row s') - 1) = elements sym m 1 (i - 1) ++ es) by (cbn [Nat.sub]; rewrite Nat.sub_0_r; now rewrite <- P1).
    split.
    + intros x Hx. rewrite (K x) by (rewrite Eall; apply in_app_iff; now left). now apply W3.
    + exists (q :: ps). split; [reflexivity|]. apply (encodes_more sym n m C i k q ms); try assumption; [lia| |].
      * rewrite <- Ees. rewrite Eall in K. now apply (agrees_keeps i (c s') C es _ ms K).
      * now rewrite Ek.
  - destruct (negb (nx s' =? nrow q * ncol q)) eqn:En; [discriminate|]. injection H as -> <- ->. apply negb_false_iff, Nat.eqb_eq in En. rewrite Ec, Er in En.
    pose proof W2 as (HE & _ & _ & _ & Hnx & _). pose proof weights_all as Hw. rewrite HE, weights_app in Hw.
    assert (r = []). { destruct r as [|x r]; [reflexivity|]. pose proof (weights_pos x r). lia. } subst r. rewrite app_nil_r in W1.
    split; [exact W3|]. exists [p]. split; [reflexivity|]. apply (encodes_last sym n m (c s') i (S n - i) p ms); try assumption; [lia|]. now rewrite W1.
Qed.
End Box.

Lemma decodes sym n m M ps rest c0 : sizes_ok sym n m -> encodes sym n m M 1 ps ->
  exists p C, load_set (ps ++ rest) 1 {| c := c0; nx := 0; row := 1; col := 0 |} = Ok (p, C, rest) /\ nrow p = n /\ ncol p = m /\
    forall i j, 1 <= i <= n -> 1 <= j <= m -> C i j = full sym M i j.
Proof.
  intros (Hn & Hm & Hsq) He.
  destruct (decode_from sym n m Hsq (proj1 Hm) (proj1 Hn) M 1 ps He (proj2 Hn) (proj2 Hm) {| c := c0; nx := 0; row := 1; col := 0 |} rest) as (p & C & H1 & H2 & H3 & H4).
  - apply (start sym n m Hsq (proj1 Hm) (proj1 Hn)).
  - intros e [].
  - exists p, C. split; [exact H1|]. split; [exact H2|]. split; [exact H3|]. intros i j Hi Hj. unfold full.
    destruct (sym && (j <? i)) eqn:L.
    + apply andb_true_iff in L as [S L]. apply Nat.ltb_lt in L. destruct (H4 (j, i)) as [_ A].
      * apply (elements_has sym n m Hsq (proj1 Hm) (proj1 Hn)); [lia| |]; specialize (Hsq S); rewrite ?S; lia.
      * now apply A.
    + destruct (H4 (i, j)) as [A _]; [|exact A]. apply (elements_has sym n m Hsq (proj1 Hm) (proj1 Hn)); [lia| |lia]. destruct sym; [cbn in L; apply Nat.ltb_ge in L; lia|lia].
Qed.
Lemma accepted_encodes sym n m rs c0 p C rest : sizes_ok sym n m -> (forall q, In q rs -> nrow q = n /\ ncolh q = (if sym then 0 else m)) ->
  load_set rs 1 {| c := c0; nx := 0; row := 1; col := 0 |} = Ok (p, C, rest) -> exists ps, rs = ps ++ rest /\ encodes sym n m C 1 ps.
Proof.
  intros (Hn & Hm & Hsq) Hs H.
  destruct (accepted_from sym n m Hsq (proj1 Hm) (proj1 Hn) rs 1 _ p C rest (start sym n m Hsq (proj1 Hm) (proj1 Hn) c0) Hs H) as (_ & A). exact A.
Qed.
Lemma load_independent sym n m rs c0 c1 p C rest : sizes_ok sym n m -> (forall q, In q rs -> nrow q = n /\ ncolh q = (if sym then 0 else m)) ->
  load_set rs 1 {| c := c0; nx := 0; row := 1; col := 0 |} = Ok (p, C, rest) ->
  (exists C', load_set rs 1 {| c := c1; nx := 0; row := 1; col := 0 |} = Ok (p, C', rest) /\ forall i j, 1 <= i <= n -> 1 <= j <= m -> C' i j = C i j) /\
  (sym = true -> forall i j, 1 <= i <= n -> 1 <= j <= n -> C i j = C j i).
Proof.
  intros Hok Hs H. destruct (accepted_encodes _ _ _ _ _ _ _ _ Hok Hs H) as (ps & -> & He).
  destruct (decodes _ _ _ _ _ rest c0 Hok He) as (p0 & C0 & E0 & _ & _ & V0). rewrite H in E0. injection E0 as <- <-.
  destruct (decodes _ _ _ _ _ rest c1 Hok He) as (p1 & C1 & E1 & N1 & M1 & V1).
  assert (Sy : sym = true -> forall i j, 1 <= i <= n -> 1 <= j <= n -> C i j = C j i).
  { intros S i j Hi Hj. destruct Hok as (_ & _ & Hsq). pose proof (Hsq S) as ->.
    pose proof (V0 i j Hi Hj) as A. pose proof (V0 j i Hj Hi) as B. unfold full in A, B. rewrite S in A, B. cbn [andb] in A, B.
    destruct (j <? i) eqn:L; [exact A|]. destruct (i <? j) eqn:L2; [now symmetry|]. apply Nat.ltb_ge in L, L2. replace i with j by lia. reflexivity. }
  split; [|exact Sy]. exists C1. split.
  - assert (p1 = p); [|now subst]. clear - E1 H. revert E1 H. generalize {| c := c1; nx := 0; row := 1; col := 0 |} {| c := c0; nx := 0; row := 1; col := 0 |}.
    generalize 1 at 1. generalize 1. induction (ps ++ rest) as [|q rs IH]; intros a b s1 s2 E1 H; [discriminate|]. cbn [load_set] in *.
    destruct (_ || _); [discriminate|]. destruct (load_page (icon q) (xval q) q b s1); [|discriminate]. destruct (load_page (icon q) (xval q) q a s2); [|discriminate].
    destruct (more q).
    + destruct (negb _); [discriminate|]. destruct (negb _); [discriminate|]. eapply IH; eassumption.
    + destruct (negb _); [discriminate|]. destruct (negb _); [discriminate|]. congruence.
  - intros i j Hi Hj. rewrite (V1 i j Hi Hj). unfold full. destruct (sym && (j <? i)) eqn:L; [|reflexivity]. apply andb_true_iff in L as [S L].
    destruct Hok as (_ & _ & Hsq). pose proof (Hsq S) as ->. now apply Sy.
Qed.

(** ** Finding records, writing *)
Lemma answers_iff q p : answers q p = true <-> matches q p.
Proof.
  unfold answers, matches. rewrite andb_true_iff, Nat.eqb_eq, orb_true_iff, !andb_true_iff, !orb_true_iff, !andb_true_iff, !Nat.eqb_eq, !Z.eqb_eq.
  split.
  - intros (A & B). split; [exact A|]. destruct B as [B|((B1 & B2) & B3)]; [split; intros; lia|]. split; intros C; [now split|]. destruct B3 as [[?|?]|?]; try lia; assumption.
  - intros (A & B & C). split; [exact A|]. destruct (ty q) as [|[|[|k]]]; [now left|right; split; [apply B; lia|tauto]|right; split; [apply B; lia|tauto]|].
    right. split; [apply B; lia|]. right. apply C. lia.
Qed.
Lemma seek_ok q pre p rest : Forall (passed_over q) pre -> accepted q p -> seek q (pre ++ p :: rest) = Ok (p :: rest).
Proof.
  assert (N : forall x, ~ matches q x -> answers q x = false) by (intros x H; destruct (answers q x) eqn:E; [apply answers_iff in E; tauto|reflexivity]).
  assert (A : forall p, itypeh p <> 9 -> length (xval p) <= 1880 -> length (icon p) <= 1900 -> (itypeh p =? 9) = false /\ (1880 <? length (xval p)) = false /\ (1900 <? length (icon p)) = false).
  { intros x H1 H2 H3. split; [now apply Nat.eqb_neq|]. split; now apply Nat.ltb_ge. }
  intros Hp (H1 & H2 & H3 & H4). induction Hp as [|x pre (X1 & X2 & X3 & X4) _ IH]; cbn [app seek].
  - destruct (A p H1 H2 H3) as (-> & -> & ->). apply answers_iff in H4. now rewrite H4.
  - destruct (A x X1 X2 X3) as (-> & -> & ->). now rewrite (N x X4).
Qed.
Lemma seek_inv q rs out : seek q rs = Ok out -> exists pre p rest, rs = pre ++ p :: rest /\ out = p :: rest /\ Forall (passed_over q) pre /\ accepted q p.
Proof.
  induction rs as [|x rs IH]; intros H; [discriminate|]. cbn [seek] in H.
  destruct (itypeh x =? 9) eqn:E1; [discriminate|]. destruct (1880 <? _) eqn:E2; [discriminate|]. destruct (1900 <? _) eqn:E3; [discriminate|].
  apply Nat.eqb_neq in E1. apply Nat.ltb_ge in E2, E3. destruct (answers q x) eqn:E4.
  - apply answers_iff in E4. injection H as <-. exists [], x, rs. split; [reflexivity|]. split; [reflexivity|]. split; [constructor|]. now repeat (split; [assumption|]).
  - destruct (IH H) as (pre & p & rest & -> & -> & F & A). exists (x :: pre), p, rest. split; [reflexivity|]. split; [reflexivity|]. split; [|exact A]. constructor; [|assumption]. repeat (split; [assumption|]). intros Q. apply answers_iff in Q. congruence.
Qed.
Lemma reversed_seq {A} (f : nat -> A) n : map (fun i => f (n + 1 - i)) (seq 1 n) = map f (rev (seq 1 n)).
Proof.
  induction n as [|n IH] in f |- *; [reflexivity|]. assert (R : rev (seq 1 (S n)) = S n :: rev (seq 1 n)) by (rewrite seq_S, rev_app_distr; reflexivity). rewrite R. cbn [map]. rewrite <- IH. clear R.
  cbn [seq map]. replace (S n + 1 - 1) with (S n) by lia. f_equal. rewrite <- seq_shift, map_map. apply map_ext_in. intros i Hi. apply in_seq in Hi. f_equal.
Qed.
Lemma written_ok q p C n m f : nrow p = n -> ncol p = m -> (forall i j, 1 <= i <= n -> 1 <= j <= m -> C i j = f i j) ->
  lines_of q n m f (written q p C).
Proof.
  intros Er Ec H. unfold written. rewrite Er, Ec. split; intros Hm.
  - subst m. rewrite Hm in *. cbn [Nat.eqb]. f_equal. rewrite <- (reversed_seq (fun i => f i 1)). apply map_ext_in. intros i Hi. apply in_seq in Hi. apply H; lia.
  - apply Nat.eqb_neq in Hm. rewrite Hm. destruct ((ty q =? 4) && (mt1 q =? 0)%Z) eqn:T.
    + apply andb_true_iff in T as [T1 T2]. apply Nat.eqb_eq in T1. apply Z.eqb_eq in T2. exists (seq 1 n), (seq 1 m). split; [right; split; [tauto|reflexivity]|]. split; [right; split; [tauto|reflexivity]|].
      apply map_ext_in. intros i Hi. apply in_seq in Hi. apply map_ext_in. intros j Hj. apply in_seq in Hj. apply H; lia.
    + assert (N : ~ (ty q = 4 /\ mt1 q = 0%Z)). { intros (T1 & T2). rewrite T1, T2 in T. discriminate. }
      exists (rev (seq 1 n)), (rev (seq 1 m)). split; [left; now split|]. split; [left; now split|].
      rewrite <- (reversed_seq (fun i => map (f i) (rev (seq 1 m)))). apply map_ext_in. intros i Hi. apply in_seq in Hi.
      rewrite <- (reversed_seq (f (n + 1 - i))). apply map_ext_in. intros j Hj. apply in_seq in Hj. apply H; lia.
Qed.
Lemma served sym n m M q pre p ps rest c0 qs : sizes_ok sym n m -> encodes sym n m M 1 (p :: ps) -> Forall (passed_over q) pre -> accepted q p -> mat q <> 0%Z ->
  exists C out, lines_of q n m (full sym M) out /\ serve c0 (q :: qs) (pre ++ (p :: ps) ++ rest) = (out :: fst (serve C qs rest), snd (serve C qs rest)).
Proof.
  intros Hok He Hp Ha Hz. cbn [serve]. apply Z.eqb_neq in Hz. rewrite Hz, <- app_comm_cons, (seek_ok q pre p (ps ++ rest) Hp Ha).
  destruct (decodes _ _ _ _ _ rest c0 Hok He) as (p1 & C1 & E1 & N1 & M1 & V1). rewrite <- app_comm_cons in E1. rewrite E1. exists C1, (written q p1 C1).
  split; [now apply written_ok|]. destruct (serve C1 qs rest) as [out e]. reflexivity.
Qed.
Lemma spells_fun cs xs ms ms' : spells cs xs ms -> spells cs xs ms' -> ms = ms'.
Proof.
  intros H. revert ms'. induction H as [xs|k cs x xs ms Hk _ IH|k cs xs ms Hk _ IH]; intros ms' H'.
  - now inversion H'.
  - remember (- Z.of_nat k)%Z as z eqn:Ez. inversion H' as [|k' ? ? ? ms1 K1 K2|k' ? ? ms1 K1 K2]; subst; [|lia].
    replace k' with k by lia. f_equal. now apply IH.
  - remember (Z.of_nat k)%Z as z eqn:Ez. inversion H' as [|k' ? ? ? ms1 K1 K2|k' ? ? ms1 K1 K2]; subst; [lia|].
    replace k' with k by lia. f_equal. now apply IH.
Qed.
Lemma Forall2_len {A B} (R : A -> B -> Prop) l l' : Forall2 R l l' -> length l = length l'.
Proof. induction 1; cbn; congruence. Qed.
Lemma wrong_length sym n m q p ms c0 : sizes_ok sym n m -> nrow p = n -> ncolh p = (if sym then 0 else m) -> more p = false ->
  spells (icon p) (xval p) ms -> length ms <> length (elements sym m 1 n) -> accepted q p -> mat q <> 0%Z -> exists h, serve c0 [q] [p] = ([], Some h).
Proof.
  intros Hok Hn Hm Hmo Hsp Hl Ha Hz. cbn [serve]. apply Z.eqb_neq in Hz. rewrite Hz. change [p] with ([] ++ p :: []). rewrite (seek_ok q [] p [] (Forall_nil _) Ha).
  destruct (load_set [p] 1 _) as [[[p1 C] rest]|h] eqn:E; [|now exists h]. exfalso.
  assert (Hs : forall x, In x [p] -> nrow x = n /\ ncolh x = (if sym then 0 else m)) by (intros x [<-|[]]; now split).
  destruct (accepted_encodes sym n m [p] c0 p1 C rest Hok Hs E) as (ps & Eq & He).
  inversion He as [i k p' ms' A1 A2 A3 A4 A5 A6|i k p' ms' ps' A1 A2 A3 A4 A5 A6 A7]; subst.
  - injection Eq as <- <-. rewrite (spells_fun _ _ _ _ Hsp A5) in Hl. apply Forall2_len in A6. replace k with (nrow p) in * by lia. now symmetry in A6.
  - injection Eq as <- Eq. congruence.
Qed.
