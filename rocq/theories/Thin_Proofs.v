From Coq Require Import ZArith QArith Qcanon List Bool Arith Sorted Lia.
From Verif Require Import Num Thin_Model Thin_Spec.
Import ListNotations.
Local Open Scope nat_scope.

Lemma memb_in i l : memb i l = true <-> In i l.
Proof. unfold memb. rewrite existsb_exists. split; [intros [x [I E]]; apply Nat.eqb_eq in E; now subst | intros I; exists i; split; [easy | apply Nat.eqb_refl]]. Qed.
Lemma filter_ext_in' {A} (f g : A -> bool) l : (forall a, In a l -> f a = g a) -> filter f l = filter g l.
Proof. induction l as [|x l IH]; cbn; intros H; [easy|]. rewrite (H x) by now left. rewrite IH; [easy|]. intros a I. apply H. now right. Qed.
Lemma filter_none {A} (f : A -> bool) l : (forall a, In a l -> f a = false) -> filter f l = [].
Proof. induction l as [|x l IH]; cbn; intros H; [easy|]. rewrite (H x) by now left. apply IH. intros a I. apply H. now right. Qed.

Definition kept (gone : list nat) (n : nat) : list nat := filter (fun i => negb (memb i gone)) (seq 0 n).
Lemma kept_extend gone l r : l + 1 < r -> (forall i, In i gone -> i <= l) -> ~ In l gone ->
  kept (gone ++ range (l + 1) (r - 1)) r = kept gone (l + 1) ++ [r - 1].
Proof.
  intros H G NL. unfold kept.
  assert (S : seq 0 r = seq 0 (l + 1) ++ seq (l + 1) (r - 2 - l) ++ [r - 1]).
  { replace r with ((l + 1) + ((r - 2 - l) + 1)) at 1 by lia. rewrite !seq_app. do 2 f_equal. cbn. f_equal. lia. }
  rewrite S, !filter_app. f_equal; [|rewrite (filter_none _ (seq (l + 1) (r - 2 - l))); [cbn [app filter]|]].
  - apply filter_ext_in'. intros i I. apply in_seq in I. f_equal. apply eq_iff_eq_true. rewrite !memb_in, in_app_iff. unfold range. rewrite in_seq.
    split; [intros [A|A]; [easy|lia] | now left].
  - destruct (negb (memb (r - 1) (gone ++ range (l + 1) (r - 1)))) eqn:E; [easy|]. exfalso.
    apply negb_false_iff in E. rewrite memb_in, in_app_iff in E. unfold range in E. rewrite in_seq in E. destruct E as [E|E]; [|lia]. apply G in E. lia.
  - intros i I. apply negb_false_iff, memb_in, in_app_iff. right. unfold range. rewrite in_seq in *. lia.
Qed.

(** Neighbours in a list. *)
Definition linked (P : nat -> nat -> Prop) (ks : list nat) : Prop := forall p, S p < length ks -> P (nth p ks 0) (nth (S p) ks 0).
Lemma linked_snoc P ks a : linked P ks -> (ks <> [] -> P (last ks 0) a) -> linked P (ks ++ [a]).
Proof.
  intros H K p L. rewrite app_length in L. cbn in L.
  rewrite app_nth1 by lia. destruct (Nat.eq_dec (S p) (length ks)) as [E|E].
  - rewrite E, nth_middle. replace (nth p ks 0) with (last ks 0); [apply K; destruct ks; [cbn in E; lia | discriminate]|].
    destruct ks as [|z ks _] using rev_ind; [cbn in E; lia|]. rewrite last_last. rewrite app_length in E. cbn in E.
    rewrite app_nth2 by lia. now replace (p - length ks) with 0 by lia.
  - rewrite app_nth1 by lia. apply H. lia.
Qed.
Lemma sorted_snoc ks a : StronglySorted lt ks -> (forall k, In k ks -> k < a) -> StronglySorted lt (ks ++ [a]).
Proof.
  induction ks as [|k ks IH]; intros S H; cbn; [repeat constructor|]. inversion S as [|? ? S1 S2]; subst. constructor.
  - apply IH; [easy|]. intros j J. apply H. now right.
  - apply Forall_app. split; [easy|]. constructor; [apply H; now left | constructor].
Qed.

Definition fine (tol : Qc) (x y : list Qc) (l r : nat) : Prop := forall i, l < i < r -> off tol x y l r i = false.
Record inv (tol : Qc) (x y : list Qc) (l r : nat) (gone ks : list nat) : Prop := {
  v_kept : kept gone (l + 1) = ks;
  v_last : last ks 0 = l;
  v_first : hd_error ks = Some 0;
  v_gone : forall i, In i gone -> i <= l;
  v_notl : ~ In l gone;
  v_sorted : StronglySorted lt ks;
  v_bound : forall k, In k ks -> k <= l;
  v_linked : linked (fine tol x y) ks;
  v_fine : fine tol x y l (r - 1);
  v_lr : l + 2 <= r }.
Lemma hd_snoc {A} (l : list A) x a : hd_error l = Some a -> hd_error (l ++ [x]) = Some a.
Proof. destruct l; [discriminate | easy]. Qed.
Lemma hd_some_nonnil {A} (l : list A) a : hd_error l = Some a -> l <> [].
Proof. destruct l; discriminate. Qed.

Lemma inv_move tol x y l r gone ks : inv tol x y l r gone ks -> inv tol x y (r - 1) (r - 1 + 1 + 1) (gone ++ range (l + 1) (r - 1)) (ks ++ [r - 1]).
Proof.
  intros [A B C D E F G H I J]. split.
  - replace (r - 1 + 1) with r by lia. rewrite (kept_extend gone l r); [now rewrite A | lia | exact D | exact E].
  - apply last_last.
  - now apply hd_snoc.
  - intros i Hi. rewrite in_app_iff in Hi. unfold range in Hi. rewrite in_seq in Hi. destruct Hi as [Hi|Hi]; [apply D in Hi|]; lia.
  - rewrite in_app_iff. unfold range. rewrite in_seq. intros [K|K]; [apply D in K|]; lia.
  - apply sorted_snoc; [exact F|]. intros k K. apply G in K. lia.
  - intros k K. rewrite in_app_iff in K. destruct K as [K|[K|[]]]; [apply G in K|]; lia.
  - apply linked_snoc; [exact H|]. intros _. rewrite B. exact I.
  - intros i Hi. lia.
  - lia.
Qed.
Lemma inv_start tol x y : inv tol x y 0 2 [] [0].
Proof.
  split; try easy.
  - repeat constructor.
  - intros k [<-|[]]. lia.
  - intros p Hp. cbn in Hp. lia.
  - intros i Hi. lia.
Qed.
Lemma existsb_false {A} (f : A -> bool) l : existsb f l = false -> forall a, In a l -> f a = false.
Proof. induction l as [|x l IH]; cbn; [easy|]. intros H. apply orb_false_iff in H as [H1 H2]. intros a [<-|I]; [easy | now apply IH]. Qed.
Lemma loop_inv tol x y fuel : forall l r gone ks, inv tol x y l r gone ks -> (r <= length x \/ length x < 2 /\ l = 0 /\ r = 2) -> length x <= r + fuel ->
  exists l' r' gone' ks', loop fuel tol x y l r gone = (l', r', gone') /\ inv tol x y l' r' gone' ks' /\
    (r' = length x \/ length x < 2 /\ l' = 0 /\ r' = 2).
Proof.
  induction fuel as [|fuel IH]; intros l r gone ks I R F; cbn [loop].
  - exists l, r, gone, ks. split; [easy|]. split; [easy|]. lia.
  - destruct ((l + 2 <? length x) && (r <? length x)) eqn:E.
    + apply andb_true_iff in E as [E1 E2]. apply Nat.ltb_lt in E1, E2.
      destruct (existsb (off tol x y l r) (range (l + 1) r)) eqn:B.
      * pose proof (v_lr _ _ _ _ _ _ _ I). apply (IH _ _ _ (ks ++ [r - 1])); [now apply inv_move | lia | lia].
      * apply (IH _ _ _ ks); [|lia|lia]. destruct I. split; try easy; [|lia].
        intros i Hi. replace (r + 1 - 1) with r in * by lia. apply (existsb_false _ _ B). unfold range. apply in_seq. lia.
    + exists l, r, gone, ks. split; [easy|]. split; [easy|]. apply andb_false_iff in E. rewrite !Nat.ltb_ge in E. pose proof (v_lr _ _ _ _ _ _ _ I). lia.
Qed.

Lemma qabs_mag q : magnitude q (qabs q).
Proof.
  unfold magnitude. destruct (qabs_spec q) as [[A ->]|[A ->]]; [split; [now left | exact A] | split; [now right | qclra]].
Qed.
Lemma not_off tol x y l r i : (0 < tol)%Qc -> off tol x y l r i = false -> nth i y 0%Qc <> 0%Qc /\ near_line tol x y l r i.
Proof.
  intros T. unfold off. fold (qat y i). set (yi := qat y i).
  set (v := (qat y l + (qat y r - qat y l) / (qat x r - qat x l) * (qat x i - qat x l))%Qc).
  destruct (qltb 0 (qabs yi)) eqn:E.
  - apply qltb_lt in E. intros H. apply qltb_nlt in H.
    destruct (qabs_mag yi) as [M1 M2]. destruct (qabs_mag ((v - yi) / yi)) as [D1 D2].
    assert (N : yi <> 0%Qc) by (intros Z; destruct M1 as [M1|M1]; rewrite M1, Z in E; qclra).
    split; [exact N|]. unfold near_line. fold (qat y l) (qat y r) (qat x r) (qat x l) (qat x i) (qat y i). fold v yi.
    exists (qabs ((v - yi) / yi) * qabs yi)%Qc, (qabs yi). split; [|split; [apply qabs_mag|]].
    + assert (P : ((v - yi) / yi * yi = v - yi)%Qc) by (field; exact N).
      set (q := ((v - yi) / yi)%Qc) in *.
      split; [|pose proof (Qcmult_le_compat_r _ _ _ D2 M2) as Q; now rewrite Qcmult_0_l in Q]. destruct D1 as [D1|D1], M1 as [M1|M1]; rewrite D1, M1.
      * left. exact P.
      * right. rewrite <- P. ring.
      * right. rewrite <- P. ring.
      * left. rewrite <- P. ring.
    + apply Qcmult_le_compat_r; [exact H | easy].
  - intros H. apply qltb_nlt in H. exfalso. unfold qz in H. qclra.
Qed.

Lemma thin_result tol x y : (0 < tol)%Qc -> x <> [] -> exists ks, thinned tol x y ks /\
  thin tol x y = (map (fun i => nth i x 0%Qc) ks, map (fun i => nth i y 0%Qc) ks).
Proof.
  intros T NE. assert (0 < length x) by (destruct x; [easy | cbn; lia]).
  destruct (loop_inv tol x y (length x) 0 2 [] [0] (inv_start tol x y)) as [l [r [gone [ks [E [I R]]]]]]; [lia | lia|].
  unfold thin. rewrite E. cbv beta iota zeta. fold (kept (gone ++ range (l + 1) (r - 1)) (length x)).
  destruct R as [R|[R1 [R2 R3]]].
  - exists (ks ++ [r - 1]). pose proof (inv_move _ _ _ _ _ _ _ I) as J. destruct J as [A B C D E' F G H' K L].
    replace (r - 1 + 1) with r in A by lia. rewrite <- R, A. split; [|reflexivity]. split; try easy.
    + rewrite B. lia.
    + intros p i Hp Hi. apply not_off; [exact T|]. apply (H' p Hp). exact Hi.
  - exists [0]. subst l r. destruct I as [A B C D E' F G H' K L].
    assert (length x = 1) as Q by lia.
    assert (Kp : kept (gone ++ range (0 + 1) (2 - 1)) (length x) = [0]).
    { rewrite Q. unfold range. cbn [Nat.add Nat.sub seq]. rewrite app_nil_r. unfold kept in *. cbn in *.
      destruct (memb 0 gone) eqn:M; [apply memb_in in M; easy | easy]. }
    rewrite Kp. split; [|reflexivity]. split; try easy.
    + repeat constructor.
    + cbn. lia.
    + intros p i Hp. cbn in Hp. lia.
Qed.
Lemma thin_nil tol y : thin tol [] y = ([], []).
Proof. reflexivity. Qed.

(** Points on a line: only the ends stay. *)
Lemma loop_line tol x y fuel : (forall l r i, l < i < r -> r < length x -> off tol x y l r i = false) -> forall r, 2 <= r -> r <= length x -> length x <= r + fuel ->
  loop fuel tol x y 0 r [] = (0, length x, []).
Proof.
  intros H. induction fuel as [|fuel IH]; intros r R1 R2 F; cbn [loop].
  - f_equal. f_equal. lia.
  - destruct ((0 + 2 <? length x) && (r <? length x)) eqn:E.
    + apply andb_true_iff in E as [E1 E2]. apply Nat.ltb_lt in E1, E2.
      assert (B : existsb (off tol x y 0 r) (range (0 + 1) r) = false).
      { apply not_true_is_false. intros B. apply existsb_exists in B. destruct B as [i [I B]]. unfold range in I. apply in_seq in I.
        rewrite H in B; [discriminate | lia | lia]. }
      rewrite B. apply IH; lia.
    + apply andb_false_iff in E. rewrite !Nat.ltb_ge in E. f_equal. f_equal. lia.
Qed.
Lemma on_line tol x y a b : (0 <= tol)%Qc -> length x = length y -> StronglySorted Qclt x ->
  (forall i, i < length x -> nth i y 0%Qc = (a + b * nth i x 0%Qc)%Qc) -> (forall i, 0 < i < length x - 1 -> nth i y 0%Qc <> 0%Qc) -> 2 <= length x ->
  thin tol x y = ([nth 0 x 0%Qc; nth (length x - 1) x 0%Qc], [nth 0 y 0%Qc; nth (length x - 1) y 0%Qc]).
Proof.
  intros T L S Y N H2.
  assert (Lt : forall i j, i < j -> j < length x -> (nth i x 0 < nth j x 0)%Qc).
  { clear -S. induction S as [|z x S IH F]; intros i j Hi Hj; [cbn in Hj; lia|]. destruct j as [|j]; [lia|]. cbn in Hj. destruct i as [|i]; cbn.
    - rewrite Forall_forall in F. apply F. apply nth_In. lia.
    - apply IH; lia. }
  assert (O : forall l r i, l < i < r -> r < length x -> off tol x y l r i = false).
  { intros l r i Hi Hr. unfold off. fold (qat y i). assert (N' : qat y i <> 0%Qc) by (apply N; lia).
    assert (E : (qat y l + (qat y r - qat y l) / (qat x r - qat x l) * (qat x i - qat x l) = qat y i)%Qc).
    { unfold qat. rewrite !Y by lia. specialize (Lt l r ltac:(lia) Hr). field. intros Z. apply (Qclt_not_eq _ _ Lt). qclra. }
    rewrite E. destruct (qltb 0 (qabs (qat y i))) eqn:P.
    - apply qltb_nlt. replace ((qat y i - qat y i) / qat y i)%Qc with 0%Qc by (field; exact N').
      exact T.
    - apply qltb_nlt in P. exfalso. apply N'. destruct (qabs_mag (qat y i)) as [M1 M2].
      destruct M1 as [M1|M1]; rewrite M1 in M2, P; qclra. }
  unfold thin. rewrite (loop_line tol x y (length x) O 2) by lia. cbv beta iota zeta. cbn [app].
  assert (K : filter (fun i => negb (memb i (range (0 + 1) (length x - 1)))) (seq 0 (length x)) = [0; length x - 1]).
  { pose proof (kept_extend [] 0 (length x) ltac:(lia) ltac:(easy) ltac:(easy)) as K. unfold kept in K. cbn [app] in K. rewrite K. reflexivity. }
  rewrite K. reflexivity.
Qed.
