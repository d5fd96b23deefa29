From Coq Require Import List Bool Arith Lia.
From Verif Require Import Nest_Model Nest_Spec.
Import ListNotations.
Local Open Scope nat_scope.

Section Ind.
  Variable P : item -> Prop.
  Hypotheses (HW : P Wanted) (HO : P Other) (HS : forall l, Forall P l -> P (Seq l)).
  Fixpoint item_ind2 (x : item) : P x :=
    match x with
    | Wanted => HW
    | Other => HO
    | Seq l => HS l ((fix go (l : list item) : Forall P l := match l with [] => Forall_nil P | y :: r => Forall_cons y (item_ind2 y) (go r) end) l)
    end.
End Ind.

(** Whether an item in a sequence at depth [d] passes. *)
Fixpoint ok (min max d : nat) (x : item) : bool :=
  match x with
  | Wanted => negb (d <? min)
  | Other => false
  | Seq l => negb (max <? S d) && forallb (ok min max (S d)) l
  end.

Lemma run_go min max s s' n : step min max s = Go s' -> run (S n) min max s = run n min max s'.
Proof. intros H. cbn. now rewrite H. Qed.
Lemma bottom_lt f r : index (bottom f r) < length (items (bottom f r)) -> (index (bottom f r) =? length (items (bottom f r))) = false.
Proof. intros H. apply Nat.eqb_neq. lia. Qed.
Lemma bottom_app f r g : bottom f (r ++ [g]) = g.
Proof. revert f. induction r as [|h r IH]; intros f; cbn; [easy | apply IH]. Qed.

(** [reach s s']: some turns lead from [s] to [s'], or to rejection where [b] is
    false. *)
Definition leads (min max : nat) (b : bool) (s s' : list frame) : Prop :=
  exists n, forall m, run (n + m) min max s = if b then run m min max s' else Some false.
Lemma leads_trans min max b s1 s2 s3 : leads min max true s1 s2 -> leads min max b s2 s3 -> leads min max b s1 s3.
Proof. intros [n H] [k K]. exists (n + k). intros m. rewrite <- Nat.add_assoc, H. apply K. Qed.
Lemma leads_false min max s1 s2 s3 : leads min max false s1 s2 -> leads min max false s1 s3.
Proof. intros [n H]. exists n. exact H. Qed.

(** The open outermost sequence is not finished. *)
Definition live (s : list frame) : Prop := match s with [] => False | f :: r => index (bottom f r) < length (items (bottom f r)) end.

Lemma one_item min max x : forall l i r, nth_error l i = Some x -> live ({| items := l; index := i |} :: r) ->
  leads min max (ok min max (S (length r)) x) ({| items := l; index := i |} :: r) ({| items := l; index := S i |} :: r).
Proof.
  induction x as [| |s IH] using item_ind2; intros l i r N L.
  - exists 1. intros m. cbn [Nat.add run step]. rewrite (bottom_lt _ _ L). cbn [index items].
    assert (i < length l) by (apply nth_error_Some; congruence).
    replace (i =? length l) with false by (symmetry; apply Nat.eqb_neq; lia).
    rewrite (nth_error_nth l i Other N). cbn [ok length]. destruct (S (length r) <? min); reflexivity.
  - exists 1. intros m. cbn [Nat.add run step]. rewrite (bottom_lt _ _ L). cbn [index items].
    assert (i < length l) by (apply nth_error_Some; congruence).
    replace (i =? length l) with false by (symmetry; apply Nat.eqb_neq; lia).
    rewrite (nth_error_nth l i Other N). reflexivity.
  - assert (Hi : i < length l) by (apply nth_error_Some; congruence).
    assert (S1 : step min max ({| items := l; index := i |} :: r) =
                 if max <? S (S (length r)) then Reject else Go ({| items := s; index := 0 |} :: {| items := l; index := i |} :: r)).
    { cbn [step]. rewrite (bottom_lt _ _ L). cbn [index items].
      replace (i =? length l) with false by (symmetry; apply Nat.eqb_neq; lia).
      rewrite (nth_error_nth l i Other N). reflexivity. }
    cbn [ok]. destruct (max <? S (S (length r))); cbn [negb andb].
    { exists 1. intros m. cbn [Nat.add run]. now rewrite S1. }
    set (r' := {| items := l; index := i |} :: r) in *.
    assert (A : leads min max true r' ({| items := s; index := 0 |} :: r')).
    { exists 1. intros m. now apply run_go. }
    assert (B : forall k j, j + k = length s ->
              leads min max (forallb (ok min max (S (length r'))) (skipn j s)) ({| items := s; index := j |} :: r') ({| items := s; index := length s |} :: r')).
    { induction k as [|k IHk]; intros j J.
      - assert (j = length s) as -> by lia. rewrite skipn_all. exists 0. easy.
      - destruct (nth_error s j) as [y|] eqn:Y; [|apply nth_error_None in Y; lia].
        assert (Q : skipn j s = y :: skipn (S j) s).
        { clear -Y. revert s Y. induction j as [|j IH]; intros [|z s] Y; try discriminate; cbn in *; [now injection Y as -> | now apply IH]. }
        rewrite Q. cbn [forallb].
        assert (M : leads min max (ok min max (S (length r')) y) ({| items := s; index := j |} :: r') ({| items := s; index := S j |} :: r')).
        { rewrite Forall_forall in IH. apply (IH y); [eapply nth_error_In; exact Y | exact Y | exact L]. }
        destruct (ok min max (S (length r')) y); cbn [andb].
        + eapply leads_trans; [exact M | apply IHk; lia].
        + eapply leads_false. exact M. }
    specialize (B (length s) 0 eq_refl). cbn [skipn] in B.
    assert (C : leads min max (forallb (ok min max (S (S (length r)))) s) r' ({| items := s; index := length s |} :: r')).
    { eapply leads_trans; [exact A | exact B]. }
    destruct (forallb (ok min max (S (S (length r)))) s); [|eapply leads_false; exact C].
    eapply leads_trans; [exact C|]. exists 1. intros m. apply run_go. cbn [step].
    change (bottom {| items := s; index := length s |} r') with (bottom {| items := l; index := i |} r).
    rewrite (bottom_lt _ _ L). cbn [index items]. now rewrite Nat.eqb_refl.
Qed.

Lemma whole_list min max l : forall k j, j + k = length l -> exists n, forall m,
  run (n + m) min max [{| items := l; index := j |}] = Some (forallb (ok min max 1) (skipn j l)).
Proof.
  induction k as [|k IH]; intros j J.
  - assert (j = length l) as -> by lia. exists 1. intros m. cbn [Nat.add run step bottom index items]. now rewrite Nat.eqb_refl, skipn_all.
  - destruct (nth_error l j) as [y|] eqn:Y; [|apply nth_error_None in Y; lia].
    assert (Q : skipn j l = y :: skipn (S j) l).
    { clear -Y. revert l Y. induction j as [|j IH]; intros [|z s] Y; try discriminate; cbn in *; [now injection Y as -> | now apply IH]. }
    rewrite Q. cbn [forallb]. destruct (one_item min max y l j [] Y) as [n H]; [cbn; lia|]. cbn [length] in H.
    destruct (ok min max 1 y); cbn [andb].
    + destruct (IH (S j)) as [n' H']; [lia|]. exists (n + n'). intros m. rewrite <- Nat.add_assoc, H. apply H'.
    + exists n. exact H.
Qed.

(** Same as the declarative condition. *)
Lemma leaf_pos l d x : leaf l d x -> 1 <= d.
Proof. induction 1; lia. Qed.
Lemma opened_pos l d : opened l d -> 1 <= d.
Proof. induction 1; lia. Qed.
Lemma leaf_inv l d x : leaf l d x -> d = 1 /\ In x l /\ (forall s, x <> Seq s) \/ exists s e, In (Seq s) l /\ d = S e /\ leaf s e x.
Proof. intros H. destruct H as [l x I N|l s d x I K]; [left; easy | right; now exists s, d]. Qed.
Lemma opened_inv l d : opened l d -> d = 1 \/ exists s e, In (Seq s) l /\ d = S e /\ opened s e.
Proof. intros H. destruct H as [l|l s d I K]; [now left | right; now exists s, d]. Qed.
Lemma leaf1_inv y d x : leaf [y] d x -> d = 1 /\ x = y /\ (forall s, x <> Seq s) \/ exists s e, y = Seq s /\ d = S e /\ leaf s e x.
Proof. intros H. apply leaf_inv in H. destruct H as [[A [[B|[]] C]]|[s [e [[A|[]] [B C]]]]]; [left; subst; easy | right; now exists s, e]. Qed.
Lemma opened1_inv y d : opened [y] d -> d = 1 \/ exists s e, y = Seq s /\ d = S e /\ opened s e.
Proof. intros H. apply opened_inv in H. destruct H as [A|[s [e [[A|[]] [B C]]]]]; [now left | right; now exists s, e]. Qed.
Lemma leaf_one x : (forall s, x <> Seq s) -> leaf [x] 1 x.
Proof. intros H. constructor; [now left | exact H]. Qed.
Lemma leaf_seq s d x : leaf s d x -> leaf [Seq s] (S d) x.
Proof. apply leaf_in. now left. Qed.
Lemma opened_seq s d : opened s d -> opened [Seq s] (S d).
Proof. apply open_in. now left. Qed.
Lemma ok_spec min max x : forall d, ok min max d x = true <->
  (forall e y, leaf [x] e y -> y = Wanted /\ min <= e + d - 1) /\ (forall e, 1 < e -> opened [x] e -> e + d - 1 <= max).
Proof.
  induction x as [| |l IH] using item_ind2; intros d.
  - cbn [ok]. rewrite negb_true_iff, Nat.ltb_ge. split.
    + intros H. split.
      * intros e y K. apply leaf1_inv in K. destruct K as [[A [B _]]|[s [e' [A _]]]]; [split; [easy|lia] | discriminate].
      * intros e He K. apply opened1_inv in K. destruct K as [A|[s [e' [A _]]]]; [lia | discriminate].
    + intros [H _]. destruct (H 1 Wanted); [now apply leaf_one | lia].
  - cbn. split; [discriminate|]. intros [H _]. destruct (H 1 Other); [now apply leaf_one | discriminate].
  - cbn [ok]. rewrite andb_true_iff, negb_true_iff, Nat.ltb_ge, forallb_forall. rewrite Forall_forall in IH. split.
    + intros [H1 H2]. split.
      * intros e y K. apply leaf1_inv in K. destruct K as [[_ [A B]]|[s [e' [A [-> K]]]]]; [now destruct (B l)|].
        injection A as <-. apply leaf_inv in K. destruct K as [[-> [I N]]|[s [e [I [-> K]]]]].
        -- pose proof (proj1 (IH y I (S d)) (H2 y I)) as [A _]. destruct (A 1 y); [now apply leaf_one | split; [easy|lia]].
        -- pose proof (proj1 (IH (Seq s) I (S d)) (H2 _ I)) as [A _]. destruct (A (S e) y); [now apply leaf_seq | split; [easy|lia]].
      * intros e He K. apply opened1_inv in K. destruct K as [A|[s [e' [A [-> K]]]]]; [lia|]. injection A as <-.
        apply opened_inv in K. destruct K as [->|[s [e [I [-> K]]]]]; [lia|].
        pose proof (proj1 (IH (Seq s) I (S d)) (H2 _ I)) as [_ A]. assert (P := opened_pos _ _ K).
        specialize (A (S e) ltac:(lia) (opened_seq _ _ K)). lia.
    + intros [H1 H2]. split.
      * specialize (H2 2 ltac:(lia) (opened_seq _ _ (open_here l))). lia.
      * intros y I. apply (IH y I). split.
        -- intros e z K. apply leaf1_inv in K. destruct K as [[-> [-> N]]|[s [e' [-> [-> K]]]]].
           ++ destruct (H1 2 y (leaf_seq _ _ _ (leaf_here l y I N))). split; [easy|lia].
           ++ destruct (H1 (S (S e')) z (leaf_seq _ _ _ (leaf_in l s e' z I K))). split; [easy|lia].
        -- intros e He K. apply opened1_inv in K. destruct K as [A|[s [e' [-> [-> K]]]]]; [lia|].
           specialize (H2 (S (S e')) ltac:(lia) (opened_seq _ _ (open_in l s e' I K))). lia.
Qed.
Lemma list_ok min max l : forallb (ok min max 1) l = true <-> acceptable min max l.
Proof.
  rewrite forallb_forall. unfold acceptable. split.
  - intros H. split.
    + intros d x K. apply leaf_inv in K. destruct K as [[-> [I N]]|[s [e [I [-> K]]]]].
      * pose proof (proj1 (ok_spec min max x 1) (H x I)) as [A _]. destruct (A 1 x (leaf_one x N)). split; [easy|lia].
      * pose proof (proj1 (ok_spec min max (Seq s) 1) (H _ I)) as [A _]. destruct (A (S e) x (leaf_seq _ _ _ K)). split; [easy|lia].
    + intros d Hd K. apply opened_inv in K. destruct K as [->|[s [e [I [-> K]]]]]; [lia|].
      pose proof (proj1 (ok_spec min max (Seq s) 1) (H _ I)) as [_ A]. specialize (A (S e) ltac:(lia) (opened_seq _ _ K)). lia.
  - intros [H1 H2] x I. apply ok_spec. split.
    + intros e y K. apply leaf1_inv in K. destruct K as [[-> [-> N]]|[s [e' [-> [-> K]]]]].
      * destruct (H1 1 x (leaf_here l x I N)). split; [easy|lia].
      * destruct (H1 (S e') y (leaf_in l s e' y I K)). split; [easy|lia].
    + intros e He K. apply opened1_inv in K. destruct K as [A|[s [e' [-> [-> K]]]]]; [lia|].
      specialize (H2 (S e') ltac:(lia) (open_in l s e' I K)). lia.
Qed.

Lemma decides min max l : exists n b, (forall m, n <= m -> check_iterable_type m min max l = Some b) /\ (b = true <-> acceptable min max l).
Proof.
  destruct (whole_list min max l (length l) 0 eq_refl) as [n H]. exists n, (forallb (ok min max 1) l). split; [|apply list_ok].
  intros m Hm. unfold check_iterable_type. replace m with (n + (m - n)) by lia. apply H.
Qed.
Lemma run_mono min max : forall n s b, run n min max s = Some b -> forall m, n <= m -> run m min max s = Some b.
Proof.
  induction n as [|n IH]; intros s b H m Hm; [discriminate|]. destruct m as [|m]; [lia|]. cbn in *.
  destruct (step min max s); try easy. apply IH; [easy|lia].
Qed.
Lemma result_right min max l n b : check_iterable_type n min max l = Some b -> (b = true <-> acceptable min max l).
Proof.
  intros H. destruct (decides min max l) as [k [c [K C]]].
  assert (E : check_iterable_type (n + k) min max l = Some b) by (apply (run_mono min max n); [exact H | lia]).
  rewrite (K (n + k)) in E by lia. injection E as <-. exact C.
Qed.
