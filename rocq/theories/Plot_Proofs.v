(** Proofs about plots. *)
From Verif Require Import Num Chi_Model AceEdit_Model AceEdit_Spec MapGroups_Model MapGroups_Spec MapGroups_Proofs Samp_Model Samp_Spec Samp_Proofs AceRead_Proofs Plot_Model Plot_Spec.
From Coq Require Import ZArith Lia.
Local Open Scope nat_scope.

Lemma final_snoc {A} (l : list A) v : final (l ++ [v]) = Some v.
Proof. unfold final. now rewrite rev_app_distr. Qed.
Lemma snoc_cases {A} (l : list A) : l = [] \/ exists r v, l = r ++ [v].
Proof. destruct l as [|x l]; [now left|]. right. destruct (@exists_last A (x :: l) ltac:(discriminate)) as (r & v & ->). eauto. Qed.
Lemma nth_combine {A B} (xs : list A) (ys : list B) : forall i x y, nth_error (combine xs ys) i = Some (x, y) <-> nth_error xs i = Some x /\ nth_error ys i = Some y.
Proof.
  revert ys. induction xs as [|a xs IH]; intros [|b ys] [|i] x y; cbn; try (split; [discriminate|intros []; discriminate]).
  - split; [intros H; inversion H; auto|intros [H1 H2]; congruence].
  - apply IH.
Qed.
Lemma qz_nonzero z : z <> 0%Z -> qz z <> 0%Qc.
Proof.
  intros N E. apply N. apply (f_equal this) in E. unfold qz, Q2Qc in E. cbn [this] in E. assert (K : (z # 1 == 0)%Q) by (rewrite <- (Qred_correct (z # 1)), E; reflexivity).
  unfold Qeq in K. cbn in K. lia.
Qed.
Lemma halves (v : Qc) : (v / qz 2 + v / qz 2 = v)%Qc.
Proof. unfold Qcdiv. rewrite <- Qcmult_plus_distr_r. replace (/ qz 2 + / qz 2)%Qc with 1%Qc by (apply Qc_is_canon; reflexivity). ring. Qed.

Section Groups.
Variables (rs : list row).
Hypothesis CH : chained rs.
(** Bounds of later groups are lower. *)
Lemma below i j r s : i < j -> nth_error rs i = Some r -> nth_error rs j = Some s -> (high s <= low r)%Qc.
Proof.
  destruct CH as (_ & B & C). revert s. induction j as [|j IH]; intros s L Hi Hj; [lia|]. destruct (Nat.eq_dec i j) as [->|N].
  - rewrite (C _ _ _ Hi Hj). apply Qcle_refl.
  - destruct (nth_error rs j) as [t|] eqn:E.
    + specialize (IH t ltac:(lia) Hi eq_refl). pose proof (C _ _ _ E Hj) as Q. destruct (B _ _ E) as [_ Q2]. rewrite <- Q. eapply Qcle_trans; [|exact IH]. apply Qclt_le_weak. exact Q2.
    + apply nth_error_None in E. assert (S j < length rs)%nat by (apply nth_error_Some; congruence). lia.
Qed.
Lemma one_group i j x : inside rs i x -> inside rs j x -> i = j.
Proof.
  intros (r & Ei & L1 & H1) (s & Ej & L2 & H2). destruct (Nat.lt_trichotomy i j) as [L|[->|L]]; [|reflexivity|]; exfalso.
  - pose proof (below _ _ _ _ L Ei Ej). qclra.
  - pose proof (below _ _ _ _ L Ej Ei). qclra.
Qed.
(** Steps drawn from upper bound to upper bound. *)
Lemma steps {A} (ys : list A) e y0 : length ys = length rs -> (forall r, final rs = Some r -> (e < high r)%Qc) -> final ys = Some y0 -> forall i x y, inside rs i x -> (S i = length rs -> (e < x)%Qc) ->
  (step_shown (points (map high rs ++ [e]) (ys ++ [y0])) x y <-> nth_error ys i = Some y).
Proof.
  intros Ly He Hf i x y (r & Er & L1 & H1) Hx. assert (Hi : i < length rs) by (apply nth_error_Some; congruence).
  assert (Hd : forall j a b, nth_error (map high rs ++ [e]) j = Some a -> nth_error (map high rs ++ [e]) (S j) = Some b -> (b < a)%Qc /\ (amid a b x -> j = i)).
  { intros j a b Ha Hb. assert (Hj : j < length rs).
    { assert (S j < length (map high rs ++ [e])) by (apply nth_error_Some; congruence). rewrite app_length, map_length in *. cbn in *. lia. }
    rewrite nth_error_app1 in Ha by (rewrite map_length; exact Hj). destruct (nth_error rs j) as [s|] eqn:Es; [|apply nth_error_None in Es; lia]. rewrite (map_nth_error high _ _ Es) in Ha. inversion Ha; subst a; clear Ha.
    destruct CH as (_ & B & C). destruct (B _ _ Es) as [B1 B2]. destruct (Nat.eq_dec (S j) (length rs)) as [E|N].
    - assert (b = e). { rewrite nth_error_app2 in Hb by (rewrite map_length; lia). rewrite map_length, E, Nat.sub_diag in Hb. now inversion Hb. } subst b.
      assert (F : final rs = Some s). { destruct (snoc_cases rs) as [->|(l & v & El)]; [cbn in *; lia|]. rewrite El in *. rewrite final_snoc. rewrite app_length in *. cbn in *. rewrite nth_error_app2 in Es by lia. replace (j - length l) with 0 in Es by lia. exact Es. }
      pose proof (He s F) as K. split; [exact K|]. intros [[? ?]|[K1 K2]]; [exfalso; qclra|]. destruct (Nat.eq_dec i j) as [->|D]; [reflexivity|]. exfalso. pose proof (below i j r s ltac:(lia) Er Es). qclra.
    - assert (Hs : S j < length rs) by lia. rewrite nth_error_app1 in Hb by (rewrite map_length; lia). destruct (nth_error rs (S j)) as [t|] eqn:Et; [|apply nth_error_None in Et; lia].
      rewrite (map_nth_error high _ _ Et) in Hb. inversion Hb; subst b; clear Hb. rewrite <- (C _ _ _ Es Et). split; [exact B2|]. intros [[? ?]|[K1 K2]]; [exfalso; qclra|].
      apply (one_group j i x); [exists s; auto|exists r; auto]. }
  split.
  - intros (j & a & b & z & P1 & P2 & Bt). unfold points in P1, P2. apply nth_combine in P1. apply nth_combine in P2. destruct P1 as [X1 Y1], P2 as [X2 _]. destruct (Hd j a b X1 X2) as [_ K]. rewrite (K Bt) in Y1.
    rewrite nth_error_app1 in Y1 by lia. exact Y1.
  - intros Ey. assert (X1 : nth_error (map high rs ++ [e]) i = Some (high r)) by (rewrite nth_error_app1 by (rewrite map_length; exact Hi); exact (map_nth_error high _ _ Er)).
    destruct (nth_error (map high rs ++ [e]) (S i)) as [b|] eqn:X2; [|apply nth_error_None in X2; rewrite app_length, map_length in X2; cbn in X2; lia].
    destruct (nth_error (ys ++ [y0]) (S i)) as [z|] eqn:Y2; [|apply nth_error_None in Y2; rewrite app_length in Y2; cbn in Y2; lia].
    exists i, (high r), b, z. unfold points. rewrite !nth_combine. rewrite (nth_error_app1 ys) by lia. repeat split; try assumption. right. split; [|exact H1].
    destruct CH as (_ & B & C). destruct (Nat.eq_dec (S i) (length rs)) as [E|N].
    + rewrite nth_error_app2 in X2 by (rewrite map_length; lia). rewrite map_length, E, Nat.sub_diag in X2. inversion X2; subst b. now apply Hx.
    + rewrite nth_error_app1 in X2 by (rewrite map_length; lia). destruct (nth_error rs (S i)) as [t|] eqn:Et; [|apply nth_error_None in Et; lia].
      rewrite (map_nth_error high _ _ Et) in X2. inversion X2; subst b. rewrite <- (C _ _ _ Er Et). exact L1.
Qed.

(** Cells. *)
Lemma rev_nth_error {A} (l : list A) i : i < length l -> nth_error (rev l) i = nth_error l (length l - 1 - i).
Proof.
  intros H. destruct (nth_error l (length l - 1 - i)) as [v|] eqn:E; [|apply nth_error_None in E; lia]. rewrite (nth_error_nth' _ v) by (rewrite rev_length; exact H). rewrite rev_nth by exact H.
  replace (length l - S i) with (length l - 1 - i) by lia. now rewrite (nth_error_nth _ _ v E).
Qed.
Lemma edge_place es : edges rs = Some es -> exists e, es = rev (map high rs ++ [e]) /\ (forall r, final rs = Some r -> (e < high r)%Qc /\ (low r <= e)%Qc /\ ((0 < low r)%Qc -> e = low r) /\ (0 < e)%Qc).
Proof.
  intros H. destruct CH as (NE & B & C). destruct (snoc_cases rs) as [?|(l & v & El)]; [contradiction|]. unfold edges in H. rewrite El, map_app, rev_app_distr in H. cbn [map rev app] in H.
  pose proof (final_snoc l v) as F. rewrite <- El in F. assert (Ev : nth_error rs (length l) = Some v) by (rewrite El, nth_error_app2, Nat.sub_diag by lia; reflexivity). destruct (B _ _ Ev) as [B1 B2].
  destruct (qeqb (low v) 0%Qc) eqn:Z.
  - apply qeqb_eq in Z. destruct (snoc_cases l) as [->|(l' & w & El')]; [cbn in H; discriminate|]. rewrite El', map_app, rev_app_distr in H. cbn [map rev app] in H. inversion H as [H1]. exists (low w / qz 2)%Qc. rewrite El, El'. split; [reflexivity|].
    rewrite final_snoc. intros r Q; inversion Q; subst r. assert (Ew : nth_error rs (length l') = Some w) by (rewrite El, El', <- app_assoc, nth_error_app2, Nat.sub_diag by lia; reflexivity).
    assert (Lw : low w = high v) by (apply (C (length l')); [exact Ew|rewrite El' in Ev; rewrite app_length in Ev; cbn in Ev; rewrite Nat.add_1_r in Ev; exact Ev]). rewrite Lw, Z in *.
    assert (H2 : (high v / qz 2 + high v / qz 2 = high v)%Qc) by apply halves. split; [qclra|]. split; [qclra|]. split; [intros K; exfalso; qclra|qclra].
  - inversion H as [H1]. exists (low v). rewrite El. split; [reflexivity|]. rewrite final_snoc. intros r Q; inversion Q; subst r. assert ((0 < low v)%Qc). { apply Qcnot_le_lt. intros K. assert (low v = 0)%Qc by (apply Qcle_antisym; assumption). apply Qc_eq_bool_correct in Z || (rewrite H0 in Z; discriminate Z). }
    repeat split; try qclra.
Qed.
Lemma edge_cell es i x k a b : edges rs = Some es -> inside rs i x -> (hd 0%Qc es < x)%Qc -> nth_error es k = Some a -> nth_error es (S k) = Some b ->
  ((a < x /\ x < b)%Qc <-> k = length rs - 1 - i).
Proof.
  intros H (r & Er & L1 & H1) Hx Ha Hb. destruct (edge_place es H) as (e & -> & He). assert (Hi : i < length rs) by (apply nth_error_Some; congruence).
  set (l := map high rs ++ [e]) in *. assert (Ll : length l = S (length rs)) by (unfold l; rewrite app_length, map_length; cbn; lia).
  assert (Hk : S k < length l) by (rewrite <- (rev_length l); apply nth_error_Some; congruence). rewrite rev_nth_error in Ha, Hb by lia.
  assert (E0 : hd 0%Qc (rev l) = e) by (unfold l; now rewrite rev_app_distr). rewrite E0 in Hx. clear E0. set (j := length rs - 1 - k). assert (Hj : j < length rs) by lia.
  replace (length l - 1 - k) with (S j) in Ha by (unfold j; lia). replace (length l - 1 - S k) with j in Hb by (unfold j; lia).
  assert (Ih : (a < x /\ x < b)%Qc <-> j = i); [|rewrite Ih; unfold j; lia].
  unfold l in Hb. rewrite nth_error_app1 in Hb by (rewrite map_length; exact Hj). destruct (nth_error rs j) as [s|] eqn:Es; [|apply nth_error_None in Es; lia]. rewrite (map_nth_error high _ _ Es) in Hb. inversion Hb; subst b; clear Hb.
  destruct CH as (_ & B & C). destruct (B _ _ Es) as [B1 B2]. assert (K : (low s <= a)%Qc /\ (j = i -> (a < x)%Qc)).
  { destruct (Nat.eq_dec (S j) (length rs)) as [E|N].
    - unfold l in Ha. rewrite nth_error_app2 in Ha by (rewrite map_length; lia). rewrite map_length, E, Nat.sub_diag in Ha. inversion Ha; subst a.
      assert (F : final rs = Some s). { destruct (snoc_cases rs) as [->|(l' & v & El)]; [cbn in *; lia|]. rewrite El in *. rewrite final_snoc. rewrite app_length in *. cbn in *. rewrite nth_error_app2 in Es by lia. replace (j - length l') with 0 in Es by lia. exact Es. }
      destruct (He s F) as (_ & K & _). auto.
    - unfold l in Ha. rewrite nth_error_app1 in Ha by (rewrite map_length; lia). destruct (nth_error rs (S j)) as [t|] eqn:Et; [|apply nth_error_None in Et; lia].
      rewrite (map_nth_error high _ _ Et) in Ha. inversion Ha; subst a. rewrite <- (C _ _ _ Es Et). split; [apply Qcle_refl|]. intros ->. rewrite Er in Es. inversion Es; subst s. exact L1. }
  destruct K as [K1 K2]. split.
  - intros [Q1 Q2]. apply (one_group j i x); [exists s|exists r]; repeat split; auto. now apply (Qcle_lt_trans _ a).
  - intros ->. split; [now apply K2|]. rewrite Er in Es. inversion Es; subst s. exact H1.
Qed.
Lemma cells es m i j x y v : edges rs = Some es -> inside rs i x -> inside rs j y -> (hd 0%Qc es < x)%Qc -> (hd 0%Qc es < y)%Qc ->
  (cell_shown es (flipped (length rs) m) x y v <-> m j i = v).
Proof.
  intros H Ix Iy Hx Hy. assert (Li : i < length rs /\ j < length rs) by (destruct Ix as (r & E & _), Iy as (s & E' & _); split; apply nth_error_Some; congruence). destruct (edge_place es H) as (e & Ees & _).
  assert (Le : length es = S (length rs)) by (rewrite Ees, rev_length, app_length, map_length; cbn; lia). split.
  - intros (k & q & a & b & c & d & Ea & Eb & Bx & Ec & Ed & By & M). apply (edge_cell es i x k a b H Ix Hx Ea Eb) in Bx. apply (edge_cell es j y q c d H Iy Hy Ec Ed) in By. subst k q. unfold flipped in M.
    replace (length rs - 1 - (length rs - 1 - i)) with i in M by lia. replace (length rs - 1 - (length rs - 1 - j)) with j in M by lia. exact M.
  - intros M. destruct (nth_error es (length rs - 1 - i)) as [a|] eqn:Ea; [|apply nth_error_None in Ea; lia]. destruct (nth_error es (S (length rs - 1 - i))) as [b|] eqn:Eb; [|apply nth_error_None in Eb; lia].
    destruct (nth_error es (length rs - 1 - j)) as [c|] eqn:Ec; [|apply nth_error_None in Ec; lia]. destruct (nth_error es (S (length rs - 1 - j))) as [d|] eqn:Ed; [|apply nth_error_None in Ed; lia].
    exists (length rs - 1 - i), (length rs - 1 - j), a, b, c, d. repeat (split; [assumption|]). split; [now apply (edge_cell es i x _ a b H Ix Hx Ea Eb)|]. repeat (split; [assumption|]). split; [now apply (edge_cell es j y _ c d H Iy Hy Ec Ed)|].
    unfold flipped. replace (length rs - 1 - (length rs - 1 - i)) with i by lia. replace (length rs - 1 - (length rs - 1 - j)) with j by lia. exact M.
Qed.
End Groups.

(** Curves of samples. *)
Definition factors_of (rs : list row) (c : Z -> option Qc) : request := mkReq 0 (map high rs) (map low rs) c.
Lemma scale_mt m h l c es ys : scale (mkReq m h l c) es ys = scale (mkReq 0 h l c) es ys.
Proof. reflexivity. Qed.
Lemma all_some_spec {A} (l : list (option A)) r : all_some l = Some r <-> l = map Some r.
Proof.
  revert r. induction l as [|[a|] l IH]; intros r; cbn.
  - split; [intros H; inversion H; reflexivity|destruct r; [auto|discriminate]].
  - destruct (all_some l) as [q|]; cbn.
    + split; [intros H; inversion H; subst; cbn; f_equal; now apply IH|]. destruct r as [|b r]; [discriminate|]. cbn. intros H; inversion H; subst. f_equal. f_equal. assert (E : Some q = Some r) by (apply IH; reflexivity). now inversion E.
    + split; [discriminate|]. destruct r as [|b r]; [discriminate|]. cbn. intros H; inversion H; subst. assert (E : None = Some r) by (apply IH; reflexivity). discriminate.
  - split; [discriminate|]. destruct r; discriminate.
Qed.
Lemma curves t mt rs cols es ys lo vs : data_of t mt = Some (es, ys) -> length ys = length es -> ~ In lo es ->
  Forall2 (fun c v => good_groups (factors_of rs c) lo v) cols vs ->
  exists cs, sample_curves t mt rs cols = Some (points es ys, cs) /\ length cs = Nat.min (length cols) 10 /\
    forall k c, nth_error cs k = Some c -> exists col v pdf, nth_error cols k = Some col /\ nth_error vs k = Some v /\ c = points es pdf /\ scaled_pdf (factors_of rs col) lo v (mkDist es ys []) pdf.
Proof.
  intros D L N F. unfold sample_curves. rewrite D. assert (Eh : how_many (length cols) = Nat.min (length cols) 10) by (unfold how_many; destruct (Nat.ltb_spec (length cols) 10); lia).
  rewrite Eh. set (n := Nat.min (length cols) 10). assert (Hn : n <= length cols) by lia. clearbody n. clear Eh.
  assert (G : exists ps, map (fun c => scale (mkReq mt (map high rs) (map low rs) c) es ys) (firstn n cols) = map Some ps /\ length ps = n /\
    forall k p, nth_error ps k = Some p -> exists col v, nth_error cols k = Some col /\ nth_error vs k = Some v /\ scaled_pdf (factors_of rs col) lo v (mkDist es ys []) p).
  { revert cols vs F Hn. induction n as [|n IH]; intros cols vs F Hn; [exists []; repeat split; intros [|k]; discriminate|].
    destruct F as [|c v cols vs G F]; [cbn in Hn; lia|]. destruct (IH cols vs F ltac:(cbn in Hn; lia)) as (ps & E & Lp & P). destruct (scale_pdf _ lo v (mkDist es ys []) G N L) as (p & Ep & Sp). cbn [dx dp] in Ep.
    exists (p :: ps). cbn [firstn map]. rewrite scale_mt. unfold factors_of in Ep. rewrite Ep, E. split; [reflexivity|]. split; [cbn; lia|]. intros [|k] q Hq; cbn in Hq; [inversion Hq; subst q; exists c, v; auto|].
    destruct (P k q Hq) as (col & w & H1 & H2 & H3). exists col, w. auto. }
  destruct G as (ps & E & Lp & P). rewrite (proj2 (all_some_spec _ _) E). exists (map (points es) ps). split; [reflexivity|]. split; [now rewrite map_length|].
  intros k c H. rewrite nth_error_map in H. destruct (nth_error ps k) as [p|] eqn:Ek; [|discriminate]. inversion H; subst c. destruct (P k p Ek) as (col & v & H1 & H2 & H3). exists col, v, p. auto.
Qed.

(** Range of colours. *)
Lemma list_max_spec l m : list_max l = Some m -> In m l /\ forall v, In v l -> (v <= m)%Qc.
Proof.
  revert m. induction l as [|x l IH]; intros m H; [discriminate|]. cbn in H. destruct (list_max l) as [k|] eqn:E.
  - destruct (IH k eq_refl) as [I B]. destruct (qltb x k) eqn:Q; inversion H; subst m.
    + apply qltb_lt in Q. split; [now right|]. intros v [<-|Iv]; [qclra|auto].
    + apply qltb_nlt in Q. split; [now left|]. intros v [<-|Iv]; [apply Qcle_refl|]. specialize (B v Iv). qclra.
  - apply list_max_nil in E. subst l. inversion H; subst m. split; [now left|]. intros v [<-|[]]. apply Qcle_refl.
Qed.
Lemma list_min_spec l m : list_min l = Some m -> In m l /\ forall v, In v l -> (m <= v)%Qc.
Proof.
  revert m. induction l as [|x l IH]; intros m H; [discriminate|]. cbn in H. destruct (list_min l) as [k|] eqn:E.
  - destruct (IH k eq_refl) as [I B]. destruct (qltb k x) eqn:Q; inversion H; subst m.
    + apply qltb_lt in Q. split; [now right|]. intros v [<-|Iv]; [qclra|auto].
    + apply qltb_nlt in Q. split; [now left|]. intros v [<-|Iv]; [apply Qcle_refl|]. specialize (B v Iv). qclra.
  - apply list_min_nil in E. subst l. inversion H; subst m. split; [now left|]. intros v [<-|[]]. apply Qcle_refl.
Qed.
Lemma in_entries n m v : In v (entries n m) <-> exists i j, i < n /\ j < n /\ m i j = v.
Proof.
  unfold entries. rewrite in_concat. split.
  - intros (l & Il & Iv). apply in_map_iff in Il. destruct Il as (i & <- & Ii). apply in_map_iff in Iv. destruct Iv as (j & <- & Ij). apply in_seq in Ii. apply in_seq in Ij. exists i, j. repeat split; lia.
  - intros (i & j & Hi & Hj & <-). exists (map (m i) (seq 0 n)). split; [apply in_map_iff; exists i; split; [reflexivity|apply in_seq; lia]|apply in_map, in_seq; lia].
Qed.
Definition finite (n : nat) (m : matrix) : Prop := forall i j, i < n -> j < n -> exists v, m i j = Some v.
Lemma extremes n m : 0 < n -> finite n m -> exists a b, amin n m = Some a /\ amax n m = Some b /\ forall i j v, i < n -> j < n -> m i j = Some v -> (a <= v /\ v <= b)%Qc.
Proof.
  intros Hn F. unfold amin, amax. assert (E : exists l, all_some (entries n m) = Some l /\ entries n m = map Some l).
  { assert (G : forall es : list (option Qc), (forall v, In v es -> exists q, v = Some q) -> exists l, es = map Some l).
    { induction es as [|e es IH]; intros H; [exists []; reflexivity|]. destruct (H e (or_introl eq_refl)) as (q & ->). destruct IH as (l & ->); [intros v Iv; apply H; now right|]. now exists (q :: l). }
    destruct (G (entries n m)) as (l & El); [intros v Iv; apply in_entries in Iv; destruct Iv as (i & j & Hi & Hj & <-); destruct (F i j Hi Hj) as (q & ->); eauto|]. exists l. split; [now apply all_some_spec|exact El]. }
  destruct E as (l & -> & El). assert (NE : l <> []) by (intros ->; destruct (F 0 0 Hn Hn) as (v & Ev); assert (I : In (Some v) (entries n m)) by (apply in_entries; exists 0, 0; auto); rewrite El in I; exact I).
  destruct (list_min l) as [a|] eqn:Ea; [|apply list_min_nil in Ea; contradiction]. destruct (list_max l) as [b|] eqn:Eb; [|apply list_max_nil in Eb; contradiction]. exists a, b. split; [reflexivity|]. split; [reflexivity|].
  intros i j v Hi Hj Ev. assert (I : In v l). { assert (I : In (Some v) (entries n m)) by (apply in_entries; exists i, j; auto). rewrite El in I. apply in_map_iff in I. destruct I as (q & Eq & I). now inversion Eq; subst. }
  split; [now apply (list_min_spec l)|now apply (list_max_spec l)].
Qed.
Lemma second_finite n corr coef : finite n (second false corr coef).
Proof. intros i j _ _. cbn. destruct (_ || _); [eauto|]. destruct (coef i j); eauto. Qed.
Lemma colours_cover n corr shown i j v : 0 < n -> finite n shown -> i < n -> j < n -> (corr i j = Some v /\ (qz (-1) <= v /\ v <= qz 1)%Qc) \/ shown i j = Some v -> in_range (colours true n corr shown) v.
Proof.
  intros Hn F Hi Hj H. destruct (extremes n shown Hn F) as (a & b & Ea & Eb & B). unfold colours, in_range. rewrite Ea, Eb. cbn [above].
  exists (if qltb a (qz (-1)) then a else qz (-1)), (if qltb (qz 1) b then b else qz 1). split; [destruct (qltb a (qz (-1))), (qltb (qz 1) b); reflexivity|].
  assert (W : (qz (-1) <= v /\ v <= qz 1)%Qc \/ (a <= v /\ v <= b)%Qc) by (destruct H as [[_ H]|H]; [now left|right; now apply (B i j)]).
  destruct (qltb a (qz (-1))) eqn:Q1; [apply qltb_lt in Q1|apply qltb_nlt in Q1]; destruct (qltb (qz 1) b) eqn:Q2; [apply qltb_lt in Q2|apply qltb_nlt in Q2|apply qltb_lt in Q2|apply qltb_nlt in Q2]; split; destruct W as [[? ?]|[? ?]]; qclra.
Qed.

(** Data of a reaction. *)
Lemma data_reaction t mt rx : mt <> 452%Z -> mt <> 1018%Z -> lookup mt (reactions t) = Some rx -> tx rx <> [] -> length (ty rx) = length (tx rx) -> increasing (tx rx) -> ends_separated (tx rx) ->
  data_of t mt = Some (tx rx, ty rx).
Proof.
  intros N1 N2 L NE Le Inc Sep. unfold data_of. rewrite (proj2 (Z.eqb_neq _ _) N1), (proj2 (Z.eqb_neq _ _) N2). unfold get_energy, get_sigma. rewrite (proj2 (Z.eqb_neq _ _) N1). cbn [cur open_editor]. rewrite L. cbn [option_map].
  unfold tab_call. destruct (tx rx) as [|x xs] eqn:E; [contradiction|]. rewrite <- E in *. cbn [option_map]. f_equal. f_equal. apply (nth_ext _ _ 0%Qc 0%Qc); [now rewrite map_length|]. intros i Hi. rewrite map_length in Hi.
  rewrite (nth_indep _ 0%Qc (tab_at rx 0%Qc)) by (now rewrite map_length). rewrite map_nth. now apply tab_at_grid.
Qed.
(** The factor of an energy is determined. *)
Lemma factor_one hs v lo e f f' : hs <> [] -> decreasing hs -> (lo < last hs 0)%Qc -> e <> lo -> right_value hs v lo (hd 0%Qc hs) 1%Qc e f -> right_value hs v lo (hd 0%Qc hs) 1%Qc e f' -> f = f'.
Proof.
  intros NE D L N [A1 A2] [B1 B2]. destruct (Qclt_le_dec e lo) as [H|H]; [rewrite A1, B1 by auto; reflexivity|]. destruct (Qclt_le_dec (hd 0%Qc hs) e) as [H'|H']; [rewrite A1, B1 by auto; reflexivity|].
  destruct (group_exists hs lo (hd 0%Qc hs) NE D L (Qcle_refl _) e) as (g & G); [apply Qcnot_le_lt; intros K; apply N; now apply Qcle_antisym|exact H'|]. now rewrite (A2 g G), (B2 g G).
Qed.
(** The last group is not drawn if the reaction starts above it. *)
Lemma undrawn rs e0 c x y r : chained rs -> deviations rs e0 = Some c -> final rs = Some r -> (high r <= e0)%Qc -> inside rs (length rs - 1) x -> ~ step_shown c x y.
Proof.
  intros CH D F He I (j & a & b & z & P1 & P2 & Bt). unfold deviations in D. destruct (snoc_cases rs) as [->|(l & v & El)]; [discriminate|].
  assert (v = r) by (rewrite El, final_snoc in F; now inversion F). subst v. 
  assert (F1 : final (map high rs) = Some (high r)) by (rewrite El, map_app; apply final_snoc). assert (F2 : final (map (fun q => rel q * qz 100)%Qc rs) = Some (rel r * qz 100)%Qc) by (rewrite El, map_app; apply (final_snoc _ (rel r * qz 100)%Qc)).
  rewrite F1, F2 in D.
  destruct (qltb e0 (high r)) eqn:Q; [apply qltb_lt in Q; exfalso; qclra|]. inversion D; subst c; clear D. unfold points in P1, P2. apply nth_combine in P1. apply nth_combine in P2. destruct P1 as [X1 _], P2 as [X2 _].
  assert (Hj : S j < length rs) by (rewrite <- (map_length high); apply nth_error_Some; congruence). destruct (nth_error rs j) as [s|] eqn:Es; [|apply nth_error_None in Es; lia]. destruct (nth_error rs (S j)) as [t|] eqn:Et; [|apply nth_error_None in Et; lia].
  rewrite (map_nth_error high _ _ Es) in X1. rewrite (map_nth_error high _ _ Et) in X2. inversion X1; subst a. inversion X2; subst b. pose proof CH as (_ & B & C). pose proof (C _ _ _ Es Et) as Q2. pose proof (B _ _ Es) as [B1 B2].
  rewrite <- Q2 in Bt. destruct Bt as [[? ?]|[? ?]]; [qclra|]. assert (j = length rs - 1) by (apply (one_group rs CH j _ x); [exists s; auto|exact I]). lia.
Qed.
