From Coq Require Import ZArith QArith Qcanon List Bool Arith Sorted Lia Lqa.
From Verif Require Import Num Thin_Spec Linz_Model Linz_Spec.
Import ListNotations.
Local Open Scope nat_scope.

Lemma mid_eq a b : (qc 1 2 * (a + b))%Qc = middle a b.
Proof. unfold middle. assert (H : qc 1 2 = (/ qz 2)%Qc) by (apply Qc_is_canon; reflexivity). rewrite H. field. discriminate. Qed.
Lemma two_nz : qz 2 <> 0%Qc. Proof. discriminate. Qed.
Lemma interp_mid a b u v : (a < b)%Qc -> (u + (v - u) / (b - a) * (middle a b - a))%Qc = middle u v.
Proof.
  intros H. unfold middle. assert (N : (b - a)%Qc <> 0%Qc).
  { intros E. assert (b = a) by (replace b with (b - a + a)%Qc by ring; rewrite E; ring). subst. exact (Qclt_not_le _ _ H (Qcle_refl _)). }
  assert (E2 : qz 2 = (1 + 1)%Qc) by (apply Qc_is_canon; reflexivity). rewrite E2. field. split; [discriminate | exact N].
Qed.
Lemma mag_abs q : magnitude q (qabs q).
Proof. unfold magnitude. destruct (qabs_spec q) as [[A B]|[A B]]; rewrite B; split; auto; qclra. Qed.
Lemma mag_fun q m m' : magnitude q m -> magnitude q m' -> m = m'.
Proof. intros [[A|A] B] [[C|C] D]; subst; auto; apply Qcle_antisym; qclra. Qed.
Lemma mag_iff f tol a b : good f tol a b <-> (qabs (middle (f a) (f b) - f (middle a b)) <= tol * qabs (f (middle a b)))%Qc.
Proof.
  split.
  - intros (d & m & A & B & C). rewrite <- (mag_fun _ _ _ A (mag_abs _)), <- (mag_fun _ _ _ B (mag_abs _)). exact C.
  - intros H. exists (qabs (middle (f a) (f b) - f (middle a b))), (qabs (f (middle a b))). split; [apply mag_abs|]. split; [apply mag_abs | exact H].
Qed.
Lemma abs_nonneg q : (0 <= qabs q)%Qc. Proof. exact (proj2 (mag_abs q)). Qed.
Lemma abs_mult p q : qabs (p * q) = (qabs p * qabs q)%Qc.
Proof.
  apply (mag_fun (p * q)%Qc); [apply mag_abs|]. destruct (mag_abs p) as [A A'], (mag_abs q) as [B B'].
  assert (0 <= qabs p * qabs q)%Qc by qcnra. split; [|assumption].
  destruct A as [->| ->], B as [->| ->]; [left|right|right|left]; ring.
Qed.
Lemma abs_zero q : qabs q = 0%Qc -> q = 0%Qc.
Proof. intros H. destruct (mag_abs q) as [[A|A] _]; rewrite H in A; [now rewrite A|]. replace q with (- - q)%Qc by ring. rewrite <- A. reflexivity. Qed.
Lemma refine_iff f tol a b : (0 <= tol)%Qc -> (a < b)%Qc -> refine f tol a (f a) b (f b) = false <-> good f tol a b.
Proof.
  intros T L. rewrite mag_iff. unfold refine. rewrite mid_eq, interp_mid by exact L.
  set (m := f (middle a b)). set (v := middle (f a) (f b)).
  destruct (qeqb_spec m 0) as [E|E].
  - rewrite E. replace (v - 0)%Qc with v by ring. assert (Z0 : qabs 0 = 0%Qc) by (apply Qc_is_canon; reflexivity).
    rewrite Z0, Qcmult_0_r. destruct (qeqb_spec v 0) as [E2|E2]; cbn [negb].
    + rewrite E2, Z0. split; intros; [apply Qcle_refl | reflexivity].
    + split; [discriminate|]. intros H. exfalso. apply E2, abs_zero. apply Qcle_antisym; [exact H | apply abs_nonneg].
  - rewrite qltb_nlt. assert (P : (0 < qabs m)%Qc).
    { destruct (Qcle_lt_or_eq _ _ (abs_nonneg m)) as [P|P]; [exact P|]. exfalso. apply E, abs_zero. now symmetry. }
    assert (Q : qabs (v - m) = (qabs ((v - m) / m) * qabs m)%Qc).
    { rewrite <- abs_mult. f_equal. field. exact E. }
    rewrite Q. split; intros H.
    + apply Qcmult_le_compat_r; [exact H | now apply Qclt_le_weak].
    + apply Qcnot_lt_le. intros K. apply (Qcle_not_lt _ _ H). now apply Qcmult_lt_compat_r.
Qed.
Lemma middle_in a b : (a < b)%Qc -> (a < middle a b)%Qc /\ (middle a b < b)%Qc.
Proof.
  intros H. unfold middle. assert (E : forall q, (q = q / qz 2 + q / qz 2)%Qc) by (intros q; unfold Qcdiv; rewrite <- Qcmult_plus_distr_r; rewrite <- (Qcmult_1_r q) at 1; f_equal; apply Qc_is_canon; reflexivity).
  assert (L : (a / qz 2 < b / qz 2)%Qc) by (apply Qcmult_lt_compat_r; [reflexivity | exact H]).
  assert (D : ((a + b) / qz 2 = a / qz 2 + b / qz 2)%Qc) by (unfold Qcdiv; ring).
  rewrite D. pose proof (E a) as EA. pose proof (E b) as EB. set (u := (a / qz 2)%Qc) in *. set (v := (b / qz 2)%Qc) in *. split.
  - rewrite EA. qclra.
  - rewrite EB. qclra.
Qed.

(** ** Points added *)
Definition pr (f : Qc -> Qc) (x : Qc) : Qc * Qc := (x, f x).
Lemma bisect_sound f tol (T : (0 <= tol)%Qc) : forall k x y r out s o, StronglySorted Qclt (x :: y :: r) ->
  inner k f tol (map (pr f) (x :: y :: r)) out = Some (s, o) ->
  exists q z, filled f tol (x :: y :: r) (q ++ [z]) /\ s = [pr f z] /\ z = last (y :: r) 0%Qc /\ o = out ++ map (pr f) q.
Proof.
  induction k as [|k IH]; intros x y r out s o SS H; [discriminate|].
  assert (L : (x < y)%Qc) by (apply StronglySorted_inv in SS; destruct SS as [_ F]; now inversion F).
  cbn [map inner] in H. unfold pr at 1 2 in H. cbn [inner] in H.
  destruct (refine f tol x (f x) y (f y)) eqn:R.
  - rewrite mid_eq in H. destruct (middle_in _ _ L) as [M1 M2].
    change ((x, f x) :: (middle x y, f (middle x y)) :: (y, f y) :: map (pr f) r) with (map (pr f) (x :: middle x y :: y :: r)) in H.
    apply IH in H.
    + destruct H as (q & z & F & Es & Ez & Eo). exists q, z. split; [|now split].
      inversion F as [|x' y' r' l o' B1 F1 E1 E2]. subst. inversion F1 as [|x'' y'' r'' l2 o'' B2 F2 E3 E4]. subst.
      replace (x :: l ++ middle x y :: l2 ++ o'') with (x :: (l ++ middle x y :: l2) ++ o'') by (now rewrite <- app_assoc).
      constructor; [|exact F2]. apply b_split; [|exact B1|exact B2]. intros G. apply (refine_iff _ _ _ _ T L) in G. rewrite G in R. discriminate.
    + apply StronglySorted_inv in SS. destruct SS as [SS F]. constructor.
      * constructor; [exact SS|]. constructor; [exact M2|]. apply StronglySorted_inv in SS. destruct SS as [_ F']. eapply Forall_impl; [|exact F']. intros c. apply Qclt_trans. exact M2.
      * constructor; [exact M1 | exact F].
  - apply refine_iff in R; [|exact T|exact L].
    destruct r as [|w r].
    + injection H as H1 H2. subst. exists [x], y. split; [|now repeat split]. change ([x] ++ [y]) with (x :: [] ++ [y]). constructor; [now constructor | constructor].
    + apply IH in H.
      * destruct H as (q & z & F & Es & Ez & Eo). exists (x :: q), z. split; [|split; [exact Es|split; [exact Ez|]]].
        -- change ((x :: q) ++ [z]) with (x :: [] ++ (q ++ [z])). constructor; [now constructor | exact F].
        -- rewrite Eo, <- app_assoc. reflexivity.
      * apply StronglySorted_inv in SS. exact (proj1 SS).
Qed.
Lemma filled_app f tol : forall xs q z ys p, filled f tol xs (q ++ [z]) -> filled f tol (z :: ys) p -> last xs 0%Qc = z -> filled f tol (xs ++ ys) (q ++ p).
Proof.
  intros xs q z ys p H. remember (q ++ [z]) as o eqn:E. revert q E. induction H as [x|x y r l o B F IH]; intros q E K Hl.
  - destruct q as [|a q]; [|destruct q; discriminate]. cbn in Hl. subst. exact K.
  - assert (N : exists a q', q = x :: l ++ q' /\ o = q' ++ [a]).
    { assert (o <> []) by (inversion F; discriminate). destruct (exists_last H) as (q' & a & Eo). exists a, q'. split; [|exact Eo].
      subst o. replace (x :: l ++ q' ++ [a]) with ((x :: l ++ q') ++ [a]) in E by (cbn; now rewrite app_assoc). now apply app_inj_tail in E. }
    destruct N as (a & q' & Eq & Eo). subst q. assert (a = z) by (subst o; replace (x :: l ++ q' ++ [a]) with ((x :: l ++ q') ++ [a]) in E by (cbn; now rewrite app_assoc); now apply app_inj_tail in E). subst a.
    change ((x :: y :: r) ++ ys) with (x :: y :: (r ++ ys)). replace ((x :: l ++ q') ++ p) with (x :: l ++ (q' ++ p)) by (cbn; now rewrite app_assoc).
    constructor; [exact B|]. apply IH; [exact Eo | exact K|]. exact Hl.
Qed.
Lemma outer_sound f tol (T : (0 <= tol)%Qc) : forall xs fuel x out s o, StronglySorted Qclt (x :: xs) ->
  outer fuel f tol xs [pr f x] out = Some (s, o) ->
  exists q z, filled f tol (x :: xs) (q ++ [z]) /\ s = [pr f z] /\ z = last (x :: xs) 0%Qc /\ o = out ++ map (pr f) q.
Proof.
  induction xs as [|y xs IH]; intros fuel x out s o SS H; cbn [outer] in H.
  - injection H as H1 H2. subst. exists [], x. split; [constructor|]. split; [reflexivity|]. split; [reflexivity|]. now rewrite app_nil_r.
  - change ([pr f x] ++ [(y, f y)]) with (map (pr f) [x; y]) in H.
    destruct (inner fuel f tol (map (pr f) [x; y]) out) as [[s1 o1]|] eqn:I; [|discriminate].
    apply (bisect_sound _ _ T) in I.
    + destruct I as (q & z & F & Es & Ez & Eo). cbn in Ez. subst z s1. apply IH in H.
      * destruct H as (q2 & z & F2 & Es2 & Ez2 & Eo2). exists (q ++ q2), z. split; [|split; [exact Es2|split; [exact Ez2|]]].
        -- rewrite <- app_assoc. change (x :: y :: xs) with ([x; y] ++ xs). eapply filled_app; [exact F | exact F2 | reflexivity].
        -- rewrite Eo2, Eo, map_app, app_assoc. reflexivity.
      * apply StronglySorted_inv in SS. exact (proj1 SS).
    + apply StronglySorted_inv in SS. destruct SS as [S1 F]. constructor; [repeat constructor|]. constructor; [now inversion F | constructor].
Qed.
(** ** And it ends when it can *)
Lemma inner_ends f tol (T : (0 <= tol)%Qc) : forall a b l, bisect f tol a b l -> (a < b)%Qc -> exists n, forall k r out,
  inner (n + k) f tol (map (pr f) (a :: b :: r)) out =
  match r with [] => Some ([pr f b], out ++ map (pr f) (a :: l)) | _ => inner k f tol (map (pr f) (b :: r)) (out ++ map (pr f) (a :: l)) end.
Proof.
  induction 1 as [a b G|a b l r N B1 IH1 B2 IH2]; intros L.
  - exists 1. intros k r out. apply (refine_iff _ _ _ _ T L) in G. change (1 + k) with (S k). cbn [map inner]. unfold pr at 1 2. cbn [inner]. rewrite G.
    destruct r; reflexivity.
  - destruct (middle_in _ _ L) as [M1 M2]. destruct (IH1 M1) as (n1 & H1). destruct (IH2 M2) as (n2 & H2). exists (S (n1 + n2)). intros k s out.
    assert (G : refine f tol a (f a) b (f b) = true).
    { destruct (refine f tol a (f a) b (f b)) eqn:E; [reflexivity|]. exfalso. now apply N, (refine_iff _ _ _ _ T L). }
    change (S (n1 + n2) + k) with (S (n1 + n2 + k)). cbn [map inner]. unfold pr at 1 2. cbn [inner]. rewrite G, mid_eq.
    change ((a, f a) :: (middle a b, f (middle a b)) :: (b, f b) :: map (pr f) s) with (map (pr f) (a :: middle a b :: b :: s)).
    rewrite <- Nat.add_assoc, H1, H2. rewrite <- app_assoc, <- map_app. reflexivity.
Qed.
Lemma filled_inv f tol x y r o : filled f tol (x :: y :: r) o -> exists l o', o = x :: l ++ o' /\ bisect f tol x y l /\ filled f tol (y :: r) o'.
Proof. intros H. inversion H; subst. eauto. Qed.
Lemma filled_head f tol x r o : filled f tol (x :: r) o -> exists o', o = x :: o'.
Proof. intros H. inversion H; subst; eauto. Qed.
Lemma outer_ends f tol (T : (0 <= tol)%Qc) : forall xs x o, StronglySorted Qclt (x :: xs) -> filled f tol (x :: xs) o ->
  exists n, forall k out, n <= k -> exists q z, o = q ++ [z] /\ outer k f tol xs [pr f x] out = Some ([pr f z], out ++ map (pr f) q).
Proof.
  induction xs as [|y xs IH]; intros x o SS F.
  - exists 0. intros k out _. inversion F; subst. exists [], x. split; [reflexivity|]. cbn. now rewrite app_nil_r.
  - apply filled_inv in F. destruct F as (l & o' & -> & B & F). apply StronglySorted_inv in SS. destruct SS as [SS FA].
    destruct (IH y o' SS F) as (n & H). assert (L : (x < y)%Qc) by now inversion FA.
    destruct (inner_ends f tol T _ _ _ B L) as (n1 & H1). exists (n1 + n). intros k out K.
    cbn [outer]. change ([pr f x] ++ [(y, f y)]) with (map (pr f) [x; y]).
    pose proof (H1 (k - n1) [] out) as I1. replace (n1 + (k - n1)) with k in I1 by lia. rewrite I1.
    destruct (H k (out ++ map (pr f) (x :: l)) ltac:(lia)) as (q & z & E & R).
    exists (x :: l ++ q), z. subst o'. split; [cbn; now rewrite app_assoc|].
    rewrite R. f_equal. f_equal. rewrite <- app_assoc, <- map_app. reflexivity.
Qed.
Lemma linearize_iff f tol xs out : (0 <= tol)%Qc -> StronglySorted Qclt xs ->
  (exists fuel, linearize fuel f tol xs = Some out) <-> exists o, filled f tol xs o /\ out = map (fun x => (x, f x)) o.
Proof.
  intros T SS. destruct xs as [|x xs].
  - split; [intros [k H]; discriminate | intros (o & H & _); inversion H].
  - split.
    + intros [k H]. unfold linearize in H. destruct (outer k f tol xs [(x, f x)] []) as [[s o]|] eqn:E; [|discriminate].
      apply (outer_sound _ _ T _ _ _ _ _ _ SS) in E. destruct E as (q & z & F & -> & _ & ->). injection H as H. exists (q ++ [z]). split; [exact F|].
      rewrite map_app. symmetry. exact H.
    + intros (o & F & ->). destruct (outer_ends f tol T xs x o SS F) as (n & H). exists n. destruct (H n [] (le_n _)) as (q & z & -> & R).
      unfold linearize. unfold pr at 1 in R. rewrite R. rewrite map_app. reflexivity.
Qed.
(** ** What a filled grid is *)
Lemma sorted_join (R : Qc -> Qc -> Prop) : forall l m r, Sorted R (l ++ [m]) -> Sorted R (m :: r) -> Sorted R (l ++ m :: r).
Proof.
  induction l as [|a l IH]; intros m r A B; [exact B|]. cbn in *. apply Sorted_inv in A. destruct A as [A H]. constructor; [now apply IH|].
  destruct l; cbn in *; inversion H; now constructor.
Qed.
Definition step f tol a b := (a < b)%Qc /\ good f tol a b.
Lemma bisect_steps f tol : forall a b l, bisect f tol a b l -> (a < b)%Qc -> Sorted (step f tol) (a :: l ++ [b]).
Proof.
  induction 1 as [a b G|a b l r N B1 IH1 B2 IH2]; intros L.
  - repeat constructor; assumption.
  - destruct (middle_in _ _ L) as [M1 M2]. rewrite <- app_assoc. change (a :: l ++ (middle a b :: r) ++ [b]) with ((a :: l) ++ middle a b :: (r ++ [b])).
    apply sorted_join; [apply IH1, M1 | apply IH2, M2].
Qed.
Lemma filled_steps f tol : forall xs o, filled f tol xs o -> StronglySorted Qclt xs -> Sorted (step f tol) o.
Proof.
  induction 1 as [x|x y r l o B F IH]; intros SS; [repeat constructor|].
  apply StronglySorted_inv in SS. destruct SS as [SS FA]. assert (L : (x < y)%Qc) by now inversion FA.
  destruct (filled_head _ _ _ _ _ F) as [o' ->]. change (x :: l ++ y :: o') with ((x :: l) ++ y :: o'). apply sorted_join; [now apply bisect_steps | now apply IH].
Qed.
Lemma filled_in f tol : forall xs o, filled f tol xs o -> (forall x, In x xs -> In x o) /\ hd_error o = hd_error xs /\ last o 0%Qc = last xs 0%Qc.
Proof.
  induction 1 as [x|x y r l o B F (I1 & I2 & I3)]; [auto|]. split; [|split].
  - intros z [->|Z]; [now left|]. right. apply in_app_iff. right. now apply I1.
  - reflexivity.
  - destruct (filled_head _ _ _ _ _ F) as [o' ->]. change (last (x :: y :: r) 0%Qc) with (last (y :: r) 0%Qc). rewrite <- I3.
    change (x :: l ++ y :: o') with ((x :: l) ++ y :: o'). clear. induction (x :: l) as [|a t IH]; [reflexivity|]. rewrite <- app_comm_cons. rewrite <- IH. destruct (t ++ y :: o') eqn:E; [destruct t; discriminate | reflexivity].
Qed.
Lemma sorted_nth (R : Qc -> Qc -> Prop) : forall l, Sorted R l -> forall i, S i < length l -> R (nth i l 0%Qc) (nth (S i) l 0%Qc).
Proof.
  induction 1 as [|a l S IH H]; intros i L; [cbn in L; lia|]. destruct i as [|i].
  - destruct l; [cbn in L; lia|]. now inversion H.
  - apply IH. cbn in L. lia.
Qed.
Lemma linearize_sound f tol xs fuel out : (0 <= tol)%Qc -> StronglySorted Qclt xs -> linearize fuel f tol xs = Some out -> linearized f tol xs out.
Proof.
  intros T SS H. assert (E : exists k, linearize k f tol xs = Some out) by eauto. apply (linearize_iff f tol xs out T SS) in E.
  destruct E as (o & F & ->). pose proof (filled_steps _ _ _ _ F SS) as ST. destruct (filled_in _ _ _ _ F) as (I1 & I2 & I3).
  assert (M : map fst (map (fun x => (x, f x)) o) = o) by (rewrite map_map; cbn; apply map_id).
  constructor; try rewrite M; auto.
  - apply Sorted_StronglySorted; [exact Qclt_trans|]. clear - ST. induction ST as [|a l S IH HR]; constructor; [exact IH|]. destruct HR; constructor. now destruct H.
  - intros p P. apply in_map_iff in P. destruct P as (x & <- & _). reflexivity.
  - intros i L. rewrite map_length in L. now apply (sorted_nth _ _ ST).
Qed.
(** ** Functions that need nothing, functions that end *)
Lemma filled_good f tol : forall xs, xs <> [] -> Sorted (good f tol) xs -> filled f tol xs xs.
Proof.
  induction xs as [|x xs IH]; intros N S; [congruence|]. apply Sorted_inv in S. destruct S as [S H].
  destruct xs as [|y xs]; [constructor|]. change (x :: y :: xs) with (x :: [] ++ (y :: xs)) at 2. constructor; [constructor; now inversion H | apply IH; [discriminate | exact S]].
Qed.
Lemma affine_good f tol a b : (0 <= tol)%Qc -> (forall x, f x = a + b * x)%Qc -> forall x y, good f tol x y.
Proof.
  intros T F x y. apply mag_iff. rewrite !F. unfold middle.
  assert (E : ((a + b * x + (a + b * y)) / qz 2 - (a + b * ((x + y) / qz 2)))%Qc = 0%Qc).
  { assert (E2 : qz 2 = (1 + 1)%Qc) by (apply Qc_is_canon; reflexivity). rewrite E2. field. discriminate. }
  rewrite E. assert (Z0 : qabs 0 = 0%Qc) by (apply Qc_is_canon; reflexivity). rewrite Z0. pose proof (abs_nonneg (a + b * ((x + y) / qz 2))%Qc). qcnra.
Qed.
Lemma linearize_good f tol xs : (0 <= tol)%Qc -> StronglySorted Qclt xs -> xs <> [] -> Sorted (good f tol) xs ->
  exists fuel, linearize fuel f tol xs = Some (map (fun x => (x, f x)) xs).
Proof. intros T SS N G. apply linearize_iff; [exact T|exact SS|]. exists xs. split; [now apply filled_good | reflexivity]. Qed.
Fixpoint pow2 (n : nat) : Qc := match n with O => 1%Qc | S k => (pow2 k + pow2 k)%Qc end.
Lemma pow2_ge : forall n, (qz (Z.of_nat n) <= pow2 n)%Qc /\ (1 <= pow2 n)%Qc.
Proof.
  induction n as [|n [A B]]; [split; discriminate|]. cbn [pow2]. split; [|qclra].
  assert (E : qz (Z.of_nat (S n)) = (qz (Z.of_nat n) + 1)%Qc).
  { apply Qc_is_canon. unfold qz. cbn [this Qcplus Q2Qc]. rewrite !Qred_correct. rewrite Nat2Z.inj_succ. unfold Qeq. cbn. lia. }
  rewrite E. qclra.
Qed.
Lemma below_pow2 (q : Qc) : exists n, (q <= pow2 n)%Qc.
Proof.
  exists (Z.to_nat (Qnum q)). eapply Qcle_trans; [|apply (proj1 (pow2_ge _))]. unfold Qcle, qz. cbn [this Q2Qc]. rewrite Qred_correct. unfold Qle. cbn [Qnum Qden].
  destruct q as [[a d] C]. cbn [this Qnum Qden]. rewrite Z.mul_1_r. destruct (Z.leb_spec 0 a).
  - rewrite Z2Nat.id by lia. nia.
  - assert (0 <= Z.of_nat (Z.to_nat a) * Zpos d)%Z by lia. lia.
Qed.
Lemma good_dec f tol a b : good f tol a b \/ ~ good f tol a b.
Proof. rewrite mag_iff. destruct (qleb_spec (qabs (middle (f a) (f b) - f (middle a b))) (tol * qabs (f (middle a b)))) as [H|H]; [now left|right]. intros K. qclra. Qed.
Lemma abs_tri p q : (qabs (p + q) <= qabs p + qabs q)%Qc.
Proof. destruct (qabs_spec (p + q)) as [[A ->]|[A ->]], (qabs_spec p) as [[B ->]|[B ->]], (qabs_spec q) as [[C ->]|[C ->]]; qclra. Qed.
Lemma half_sum q : (q / qz 2 + q / qz 2)%Qc = q.
Proof. unfold Qcdiv. rewrite <- Qcmult_plus_distr_r. rewrite <- (Qcmult_1_r q) at 2. f_equal. apply Qc_is_canon. reflexivity. Qed.
Section Ends.
Variables (f : Qc -> Qc) (tol K c lo hi : Qc).
Hypotheses (T : (0 < tol)%Qc) (C : (0 < c)%Qc).
Hypothesis lip : forall u v, (lo <= u)%Qc -> (u <= v)%Qc -> (v <= hi)%Qc -> (qabs (f u - f v) <= K * (v - u))%Qc.
Hypothesis off : forall u, (lo <= u)%Qc -> (u <= hi)%Qc -> (c <= qabs (f u))%Qc.
Lemma near_good a b : (lo <= a)%Qc -> (a < b)%Qc -> (b <= hi)%Qc -> (K * (b - a) <= tol * c)%Qc -> good f tol a b.
Proof.
  intros La L Lb H. apply mag_iff. destruct (middle_in _ _ L) as [M1 M2]. set (m := middle a b) in *.
  assert (E : (middle (f a) (f b) - f m = (f a - f m) / qz 2 + (- (f m - f b)) / qz 2)%Qc).
  { unfold middle. assert (E2 : qz 2 = (1 + 1)%Qc) by (apply Qc_is_canon; reflexivity). rewrite E2. field. discriminate. }
  assert (N : forall q, qabs (- q) = qabs q) by (intros q; destruct (qabs_spec (- q)) as [[A ->]|[A ->]], (qabs_spec q) as [[B ->]|[B ->]]; try reflexivity; apply Qcle_antisym; qclra).
  assert (Hh : forall q, qabs (q / qz 2) = (qabs q / qz 2)%Qc) by (intros q; unfold Qcdiv; rewrite abs_mult; f_equal; apply Qc_is_canon; reflexivity).
  rewrite E. eapply Qcle_trans; [apply abs_tri|]. rewrite !Hh, N.
  assert (A1 : (qabs (f a - f m) <= K * (m - a))%Qc) by (apply lip; [exact La|now apply Qclt_le_weak|qclra]).
  assert (A2 : (qabs (f m - f b) <= K * (b - m))%Qc) by (apply lip; [qclra|now apply Qclt_le_weak|exact Lb]).
  assert (A3 : (c <= qabs (f m))%Qc) by (apply off; qclra).
  assert (B1 : (qabs (f a - f m) / qz 2 <= K * (m - a))%Qc) by (pose proof (half_sum (qabs (f a - f m))); pose proof (abs_nonneg (f a - f m)); qclra).
  assert (B2 : (qabs (f m - f b) / qz 2 <= K * (b - m))%Qc) by (pose proof (half_sum (qabs (f m - f b))); pose proof (abs_nonneg (f m - f b)); qclra).
  assert (B3 : (K * (m - a) + K * (b - m) = K * (b - a))%Qc) by ring.
  assert (B4 : (tol * c <= tol * qabs (f m))%Qc) by (rewrite !(Qcmult_comm tol); apply Qcmult_le_compat_r; [exact A3 | now apply Qclt_le_weak]).
  qclra.
Qed.
Lemma bisect_exists : forall n a b, (lo <= a)%Qc -> (a < b)%Qc -> (b <= hi)%Qc -> (K * (b - a) <= tol * c * pow2 n)%Qc -> exists l, bisect f tol a b l.
Proof.
  induction n as [|n IH]; intros a b La L Lb H.
  - exists []. constructor. apply near_good; auto. cbn [pow2] in H. now rewrite Qcmult_1_r in H.
  - destruct (good_dec f tol a b) as [G|G]; [exists []; now constructor|].
    destruct (middle_in _ _ L) as [M1 M2]. cbn [pow2] in H. rewrite Qcmult_plus_distr_r in H.
    assert (Ea : (K * (b - a) = K * (middle a b - a) + K * (middle a b - a))%Qc).
    { rewrite <- Qcmult_plus_distr_r. f_equal. unfold middle. replace ((a + b) / qz 2)%Qc with (a / qz 2 + b / qz 2)%Qc by (unfold Qcdiv; ring).
      pose proof (half_sum a) as HA. pose proof (half_sum b) as HB. rewrite <- HA at 1. rewrite <- HB at 1. set (u := (a / qz 2)%Qc) in *. rewrite <- HA. ring. }
    assert (Eb : (K * (b - middle a b) = K * (b - a) - K * (middle a b - a))%Qc) by ring.
    destruct (IH a (middle a b)) as [l1 B1]; [exact La|exact M1|qclra|qclra|].
    destruct (IH (middle a b) b) as [l2 B2]; [qclra|exact M2|exact Lb|qclra|].
    exists (l1 ++ middle a b :: l2). now constructor.
Qed.
Lemma filled_exists : forall xs, xs <> [] -> StronglySorted Qclt xs -> (forall x, In x xs -> lo <= x /\ x <= hi)%Qc -> exists o, filled f tol xs o.
Proof.
  induction xs as [|x xs IH]; intros N SS B; [congruence|]. destruct xs as [|y xs]; [exists [x]; constructor|].
  apply StronglySorted_inv in SS. destruct SS as [SS F]. destruct IH as [o O]; [discriminate|exact SS|intros z Z; apply B; now right|].
  assert (L : (x < y)%Qc) by now inversion F.
  destruct (below_pow2 (K * (y - x) / (tol * c))%Qc) as [n P].
  assert (TC : (0 < tol * c)%Qc) by (rewrite <- (Qcmult_0_l c); now apply Qcmult_lt_compat_r).
  destruct (bisect_exists n x y) as [l Bl]; [apply B; now left|exact L|apply B; right; now left| |].
  - assert (E : (K * (y - x) = K * (y - x) / (tol * c) * (tol * c))%Qc).
    { assert (NZ : (tol * c)%Qc <> 0%Qc) by (intros Z; rewrite Z in TC; discriminate). field. split; intros Z; subst; [now rewrite Qcmult_0_r in TC | now rewrite Qcmult_0_l in TC]. }
    rewrite E, (Qcmult_comm (tol * c)). apply Qcmult_le_compat_r; [exact P | now apply Qclt_le_weak].
  - exists (x :: l ++ o). now constructor.
Qed.
End Ends.
Lemma linearize_ends f tol K c xs : (0 < tol)%Qc -> (0 < c)%Qc -> xs <> [] -> StronglySorted Qclt xs ->
  (forall u v, hd 0 xs <= u -> u <= v -> v <= last xs 0 -> qabs (f u - f v) <= K * (v - u))%Qc ->
  (forall u, hd 0 xs <= u -> u <= last xs 0 -> c <= qabs (f u))%Qc ->
  exists fuel out, linearize fuel f tol xs = Some out.
Proof.
  intros T C N SS L O. destruct (filled_exists f tol K c (hd 0%Qc xs) (last xs 0%Qc) T C L O xs N SS) as [o F].
  - destruct xs as [|x xs]; [congruence|]. cbn [hd]. apply StronglySorted_inv in SS. destruct SS as [SS FA]. intros z [<-|Z].
    + split; [apply Qcle_refl|]. clear -SS FA. revert x FA SS. induction xs as [|y xs IH]; intros x FA SS; [apply Qcle_refl|]. change (last (x :: y :: xs) 0%Qc) with (last (y :: xs) 0%Qc).
      apply StronglySorted_inv in SS. destruct SS as [SS FB]. inversion FA; subst. eapply Qcle_trans; [apply Qclt_le_weak; eassumption | now apply IH].
    + split; [apply Qclt_le_weak; rewrite Forall_forall in FA; now apply FA|]. clear -Z SS FA. revert z Z x FA SS. induction xs as [|y xs IH]; intros z Z x FA SS; [destruct Z|].
      change (last (x :: y :: xs) 0%Qc) with (last (y :: xs) 0%Qc). apply StronglySorted_inv in SS. destruct SS as [SS FB]. destruct xs as [|w xs].
      * destruct Z as [<-|[]]. apply Qcle_refl.
      * destruct Z as [<-|Z]; [|now apply IH]. apply Qcle_trans with w; [inversion FB; subst; now apply Qclt_le_weak|]. apply (IH w (or_introl eq_refl) y); [exact FB | exact SS].
  - assert (E : exists k, linearize k f tol xs = Some (map (fun x => (x, f x)) o)) by (apply linearize_iff; [now apply Qclt_le_weak|exact SS|eauto]). destruct E as [k E]. eauto.
Qed.
