(** Proofs about the group mapping. *)
From Verif Require Import Num MapGroups_Model MapGroups_Spec.
Local Open Scope Qc_scope.

Fixpoint count_lt (l : list Qc) (e : Qc) : nat :=
  match l with [] => 0%nat | x :: r => ((if qltb x e then 1 else 0) + count_lt r e)%nat end.

Fixpoint ascending (l : list Qc) : Prop :=
  match l with
  | x :: r => Forall (fun y => x <= y) r /\ ascending r
  | _ => True
  end.

Lemma insert_count x l e : count_lt (insert x l) e = count_lt (x :: l) e.
Proof.
  induction l as [|y l IH]; [reflexivity|]. cbn [insert]. destruct (qleb x y); [reflexivity|].
  cbn [count_lt] in *. rewrite IH. lia.
Qed.
Lemma sort_count l e : count_lt (sort l) e = count_lt l e.
Proof. induction l as [|x l IH]; [reflexivity|]. cbn [sort]. rewrite insert_count. cbn. now rewrite IH. Qed.

Lemma insert_Forall (P : Qc -> Prop) x l : P x -> Forall P l -> Forall P (insert x l).
Proof.
  intros Hx. induction 1 as [|y l Hy Hl IH]; cbn [insert]; [auto|]. destruct (qleb x y); auto.
Qed.

Lemma insert_asc x l : ascending l -> ascending (insert x l).
Proof.
  induction l as [|y l IH]; cbn [insert ascending]; [auto|]. intros [H1 H2].
  destruct (qleb x y) eqn:E; cbn [ascending].
  - split; [|auto]. constructor; [qclra|]. eapply Forall_impl; [|exact H1]. cbn. intros a Ha. qclra.
  - split; [|auto]. apply insert_Forall; [qclra|exact H1].
Qed.
Lemma sort_asc l : ascending (sort l).
Proof. induction l; cbn [sort]; [exact I|]. now apply insert_asc. Qed.

Lemma ssleft_count l e : ascending l -> ssleft l e = count_lt l e.
Proof.
  induction l as [|x l IH]; [reflexivity|]. cbn [ascending ssleft count_lt]. intros [H1 H2].
  destruct (qltb x e) eqn:E; [now rewrite IH|].
  symmetry. cbn [Nat.add]. clear IH H2. induction l as [|y l IH]; [reflexivity|]. cbn [count_lt].
  inversion H1; subst. rewrite IH by assumption.
  assert (qltb y e = false) as -> by (apply qltb_nlt; qclra). reflexivity.
Qed.

Lemma count_app l m e : count_lt (l ++ m) e = (count_lt l e + count_lt m e)%nat.
Proof. induction l; cbn; [reflexivity|]. rewrite IHl. lia. Qed.
Lemma count_none l e : Forall (fun x => e <= x) l -> count_lt l e = 0%nat.
Proof.
  induction 1 as [|x l H _ IH]; [reflexivity|]. cbn. rewrite IH.
  assert (qltb x e = false) as -> by (apply qltb_nlt; exact H). reflexivity.
Qed.
Lemma count_all l e : Forall (fun x => x < e) l -> count_lt l e = length l.
Proof.
  induction 1 as [|x l H _ IH]; [reflexivity|]. cbn. rewrite IH.
  assert (qltb x e = true) as -> by (apply qltb_lt; exact H). reflexivity.
Qed.

Lemma decreasing_nth l : decreasing l -> forall i j, (i < j < length l)%nat -> nth j l 0 < nth i l 0.
Proof.
  induction l as [|x l IH]; intros Hd i j Hij; [cbn in Hij; lia|].
  destruct j as [|j]; [lia|]. cbn [length] in Hij. 
  assert (Hd' : decreasing l) by (destruct l; [exact I|apply Hd]).
  destruct i as [|i]; cbn [nth].
  - destruct l as [|y l]; [cbn in Hij; lia|]. destruct Hd as [H0 _].
    destruct j as [|j]; [exact H0|]. specialize (IH Hd' 0%nat (S j) ltac:(cbn in *; lia)). cbn [nth] in *. qclra.
  - apply IH; [exact Hd'|lia].
Qed.

Lemma decreasing_cons x l : decreasing l -> (forall y r, l = y :: r -> y < x) -> decreasing (x :: l).
Proof. intros H1 H2. destruct l as [|y r]; [exact I|]. split; [eauto|exact H1]. Qed.
Lemma decreasing_snoc l x : decreasing l -> (l <> [] -> x < last l 0) -> decreasing (l ++ [x]).
Proof.
  induction l as [|a l IH]; intros H1 H2; [exact I|]. cbn [app].
  destruct l as [|b l].
  - split; [|exact I]. specialize (H2 ltac:(discriminate)). exact H2.
  - cbn [app]. destruct H1 as [H0 H1]. split; [exact H0|]. apply IH; [exact H1|].
    intros _. apply H2. discriminate.
Qed.

(** Number of bounds below an energy in a decreasing list of bounds. *)
Lemma count_decreasing bs e g : decreasing bs -> (1 <= g)%nat -> (g < length bs)%nat ->
  nth g bs 0 < e -> e <= nth (g - 1) bs 0 -> count_lt bs e = (length bs - g)%nat.
Proof.
  intros Hd H1 H2 Hlo Hhi. 
  replace (count_lt bs e) with (count_lt (firstn g bs ++ skipn g bs) e) by (now rewrite firstn_skipn).
  rewrite count_app.
  rewrite count_none, count_all.
  - now rewrite skipn_length.
  - apply Forall_forall. intros x Hx. apply In_nth with (d := 0) in Hx as (i & Hi & <-).
    rewrite skipn_length in Hi.
    assert (E : nth i (skipn g bs) 0 = nth (g + i) bs 0).
    { clear. revert bs. induction g; intros bs; [reflexivity|]. destruct bs; [now destruct i|apply IHg]. }
    rewrite E. destruct i as [|i]; [now rewrite Nat.add_0_r|].
    pose proof (decreasing_nth bs Hd g (g + S i)%nat ltac:(lia)). qclra.
  - apply Forall_forall. intros x Hx. apply In_nth with (d := 0) in Hx as (i & Hi & <-).
    rewrite firstn_length_le in Hi by lia.
    assert (E : nth i (firstn g bs) 0 = nth i bs 0).
    { clear -Hi. revert i bs Hi. induction g; intros i bs Hi; [lia|].
      destruct bs; [reflexivity|]. destruct i; [reflexivity|]. cbn. apply IHg. lia. }
    rewrite E. destruct (Nat.eq_dec i (g - 1)) as [->|Hne]; [exact Hhi|].
    pose proof (decreasing_nth bs Hd i (g - 1)%nat ltac:(lia)). qclra.
Qed.

(** The bin list the code builds, for a good group structure. *)
Section Bins.
Variables (hs : list Qc) (min_e max_e : Qc).
Hypothesis Hne : hs <> [].
Hypothesis Hdec : decreasing hs.
Hypothesis Hmin : min_e < last hs 0.
Hypothesis Hmax : hd 0 hs <= max_e.
Let bs := max_e :: tl (hs ++ [min_e]).

Lemma bins_length : length bs = S (length hs).
Proof. unfold bs. destruct hs as [|h r]; [congruence|]. cbn. rewrite app_length. cbn. lia. Qed.

Lemma bins_dec : decreasing bs.
Proof.
  unfold bs. clear bs. destruct hs as [|h r]; [congruence|]. cbn [app tl hd] in *.
  assert (D : decreasing ((h :: r) ++ [min_e])) by (apply decreasing_snoc; auto).
  cbn [app] in D. destruct (r ++ [min_e]) as [|y s] eqn:E; [exact I|].
  destruct D as [D1 D2]. split; [qclra|exact D2].
Qed.

Lemma bins_nth_upper g : (1 <= g <= length hs)%nat -> nth (g - 1) bs 0 = upper hs max_e g.
Proof.
  intros H. unfold bs, upper. destruct hs as [|h r]; [congruence|]. cbn [app tl].
  destruct (g =? 1)%nat eqn:E.
  - apply Nat.eqb_eq in E. subst. reflexivity.
  - apply Nat.eqb_neq in E. destruct g as [|[|g]]; try lia. cbn [Nat.sub nth].
    cbn [length] in H. apply app_nth1. lia.
Qed.
Lemma bins_nth_lower g : (1 <= g <= length hs)%nat -> nth g bs 0 = lower hs min_e g.
Proof.
  intros H. unfold bs, lower. destruct hs as [|h r]; [congruence|]. cbn [app tl].
  destruct (g =? length (h :: r))%nat eqn:E.
  - apply Nat.eqb_eq in E. subst. cbn [length nth]. rewrite app_nth2 by lia. now rewrite Nat.sub_diag.
  - apply Nat.eqb_neq in E. destruct g as [|g]; try lia. cbn [length nth] in *. apply app_nth1. lia.
Qed.

Lemma group_of e g : in_group hs min_e max_e g e ->
  count_lt bs e = (S (length hs) - g)%nat.
Proof.
  intros (H1 & H2 & H3). rewrite <- bins_length. apply count_decreasing; auto using bins_dec.
  - lia.
  - rewrite bins_length. lia.
  - rewrite bins_nth_lower; auto.
  - rewrite bins_nth_upper; auto.
Qed.

(** Every energy in (min_e, max_e] lies in some group. *)
Lemma group_exists e : min_e < e -> e <= max_e -> exists g, in_group hs min_e max_e g e.
Proof.
  intros H1 H2.
  assert (K : forall k, (k <= length hs)%nat ->
    (exists g, (1 <= g <= k)%nat /\ nth g bs 0 < e /\ e <= nth (g - 1) bs 0) \/ e <= nth k bs 0).
  { induction k as [|k IH]; intros Hk; [right; exact H2|].
    destruct IH as [(g & Hg & Hl & Hu)|Hu]; [lia|left; exists g; split; [lia|auto]|].
    destruct (qltb (nth (S k) bs 0) e) eqn:E.
    - left. exists (S k). replace (S k - 1)%nat with k by lia. split; [lia|]. split; [qclra|exact Hu].
    - right. qclra. }
  destruct (K (length hs) (le_n _)) as [(g & Hg & Hl & Hu)|Hu].
  - exists g. split; [exact Hg|]. rewrite <- bins_nth_lower, <- bins_nth_upper; auto.
  - exfalso. rewrite bins_nth_lower in Hu.
    + unfold lower in Hu. rewrite Nat.eqb_refl in Hu. qclra.
    + destruct hs; [congruence|cbn; lia].
Qed.

Lemma group_unique e g g' : in_group hs min_e max_e g e -> in_group hs min_e max_e g' e -> g = g'.
Proof. intros H H'. pose proof (group_of e g H). pose proof (group_of e g' H'). destruct H, H'. lia. Qed.

Lemma in_group_range e g : in_group hs min_e max_e g e -> min_e < e /\ e <= max_e.
Proof.
  intros (H1 & H2 & H3). rewrite <- bins_nth_lower in H2 by exact H1. rewrite <- bins_nth_upper in H3 by exact H1.
  pose proof bins_length as L. pose proof bins_dec as D.
  assert (Hn : nth (length hs) bs 0 = min_e).
  { rewrite bins_nth_lower by (destruct hs; [congruence|cbn; lia]). unfold lower. now rewrite Nat.eqb_refl. }
  assert (H0 : nth 0 bs 0 = max_e) by reflexivity. split.
  - destruct (Nat.eq_dec g (length hs)) as [->|N]; [now rewrite Hn in H2|].
    pose proof (decreasing_nth bs D g (length hs) ltac:(lia)). rewrite Hn in H. qclra.
  - destruct (Nat.eq_dec g 1) as [->|N]; [exact H3|].
    pose proof (decreasing_nth bs D 0 (g - 1)%nat ltac:(lia)). rewrite H0 in H. qclra.
Qed.

Lemma min_lt_max : min_e < max_e.
Proof.
  pose proof bins_length as L. pose proof bins_dec as D.
  assert (1 <= length hs)%nat by (destruct hs; [congruence|cbn; lia]).
  pose proof (decreasing_nth bs D 0 (length hs) ltac:(lia)) as K. cbn [nth] in K.
  rewrite bins_nth_lower in K by lia. unfold lower in K. rewrite Nat.eqb_refl in K. exact K.
Qed.

(** Group number chosen for one energy. *)
Lemma group_num_ok e : e <> min_e ->
  let g := group_num (length hs) (sort bs) min_e max_e e in
  (1 <= g <= Z.of_nat (length hs))%Z /\
  (forall k, in_group hs min_e max_e k e -> g = Z.of_nat k).
Proof.
  intros Hn. cbv zeta. unfold group_num. rewrite ssleft_count by apply sort_asc. rewrite sort_count.
  assert (1 <= length hs)%nat by (destruct hs; [congruence|cbn; lia]).
  destruct (qltb max_e e) eqn:E1; [|destruct (qltb e min_e) eqn:E2].
  - split; [lia|]. intros k Hk. apply in_group_range in Hk as [Hk1 Hk2]. exfalso. qclra.
  - split; [lia|]. intros k Hk. apply in_group_range in Hk as [Hk1 Hk2]. exfalso. qclra.
  - apply qltb_nlt in E1, E2.
    assert (min_e < e) by (apply Qcnot_le_lt; intros K; apply Hn; apply Qcle_antisym; auto).
    destruct (group_exists e) as [g Hg]; auto. rewrite (group_of e g Hg).
    pose proof Hg as [Hr _]. split; [lia|]. intros k Hk. rewrite (group_unique e k g Hk Hg). lia.
Qed.

Lemma group_num_min : group_num (length hs) (sort bs) min_e max_e min_e = Z.of_nat (S (length hs)).
Proof.
  unfold group_num. pose proof min_lt_max.
  assert (qltb max_e min_e = false) as -> by (apply qltb_nlt; qclra).
  assert (qltb min_e min_e = false) as -> by (apply qltb_nlt; qclra).
  rewrite ssleft_count by apply sort_asc. rewrite sort_count, count_none; [lia|].
  apply Forall_forall. intros x Hx. apply In_nth with (d := 0) in Hx as (i & Hi & <-).
  rewrite bins_length in Hi.
  assert (Hnn : nth (length hs) bs 0 = min_e).
  { rewrite bins_nth_lower by (destruct hs; [congruence|cbn; lia]). unfold lower. now rewrite Nat.eqb_refl. }
  destruct (Nat.eq_dec i (length hs)) as [->|N]; [rewrite Hnn; apply Qcle_refl|].
  pose proof (decreasing_nth bs bins_dec i (length hs)) as K. rewrite Hnn in K.
  assert (min_e < nth i bs 0) by (apply K; rewrite bins_length; lia). qclra.
Qed.
End Bins.

(** Minimum and maximum of the bounds. *)
Lemma list_min_nil l : list_min l = None -> l = [].
Proof. destruct l as [|x l]; [auto|]. cbn. destruct (list_min l); discriminate. Qed.
Lemma list_max_nil l : list_max l = None -> l = [].
Proof. destruct l as [|x l]; [auto|]. cbn. destruct (list_max l); discriminate. Qed.

Lemma list_min_last l m : decreasing l -> list_min l = Some m -> m = last l 0.
Proof.
  revert m; induction l as [|x l IH]; intros m Hd; [discriminate|]. cbn [list_min].
  destruct (list_min l) as [k|] eqn:E.
  - assert (Hd' : decreasing l) by (destruct l; [exact I|apply Hd]).
    specialize (IH k Hd' eq_refl). destruct l as [|y l]; [discriminate|].
    change (last (x :: y :: l) 0) with (last (y :: l) 0). rewrite <- IH.
    assert (Hk : k < x).
    { pose proof (decreasing_nth _ Hd 0 (length (y :: l)) ltac:(cbn; lia)) as K. cbn [nth length] in K.
      rewrite IH. clear -K. revert y K. induction l as [|z l IHl]; intros y K; [exact K|].
      change (last (y :: z :: l) 0) with (last (z :: l) 0). apply IHl. cbn in *. exact K. }
    assert (qltb k x = true) as -> by (apply qltb_lt; exact Hk). congruence.
  - apply list_min_nil in E. subst. intros [= <-]. reflexivity.
Qed.

Lemma list_max_hd l m : decreasing l -> list_max l = Some m -> m = hd 0 l.
Proof.
  revert m; induction l as [|x l IH]; intros m Hd; [discriminate|]. cbn [list_max hd].
  destruct (list_max l) as [k|] eqn:E; [|congruence].
  assert (Hd' : decreasing l) by (destruct l; [exact I|apply Hd]).
  specialize (IH k Hd' eq_refl). destruct l as [|y l]; [discriminate|]. cbn [hd] in IH. subst k.
  destruct Hd as [Hd _]. assert (qltb x y = false) as -> by (apply qltb_nlt; qclra). congruence.
Qed.

Lemma pick_ok val (v : Z -> Qc) gs : (forall g, In g gs -> val g = Some (v g)) -> pick val gs = Ok (map v gs).
Proof.
  induction gs as [|g gs IH]; intros H; [reflexivity|]. cbn [pick map].
  rewrite (H g) by now left. rewrite IH; [reflexivity|]. intros; apply H; now right.
Qed.

Lemma pick_key val gs : (exists g, In g gs /\ val g = None) -> exists g, pick val gs = Raise (KeyError g).
Proof.
  induction gs as [|g gs IH]; intros (x & Hx & Hv); [destruct Hx|]. cbn [pick].
  destruct (val g) as [w|] eqn:E; [|now exists g].
  destruct Hx as [<-|Hx]; [congruence|]. destruct IH as [k ->]; [now exists x|]. now exists k.
Qed.


(** The call on a decreasing, non-empty group structure, unfolded. *)
Lemma map_groups_eq es hs val ma mi out : hs <> [] -> decreasing hs ->
  let max_e := eff_max hs ma in let min_e := eff_min hs mi in
  map_groups es hs val ma mi out =
  if qeqb min_e (last hs 0) then Raise MinTooHigh
  else if qltb max_e (hd 0 hs) then Raise MaxTooLow
  else match pick val (map (group_num (length hs) (sort (max_e :: tl (hs ++ [min_e]))) min_e max_e) es) with
       | Raise e => Raise e
       | Ok vs => Ok (map2 (overwrite min_e max_e out) es vs)
       end.
Proof.
  intros Hne Hd. cbv zeta. unfold map_groups.
  destruct (list_max hs) as [mx|] eqn:E1; [|apply list_max_nil in E1; congruence].
  destruct (list_min hs) as [mn|] eqn:E2; [|apply list_min_nil in E2; congruence].
  apply list_max_hd in E1; [|exact Hd]. apply list_min_last in E2; [|exact Hd]. subst mx mn.
  unfold eff_max, eff_min.
  destruct (qeqb _ (last hs 0)); [reflexivity|].
  assert (Eh : hd 0 (hs ++ [match mi with Some m => m | None => last hs 0 / qz 10 end]) = hd 0 hs)
    by (destruct hs; [congruence|reflexivity]).
  rewrite Eh. set (mx := match ma with Some m => m | None => hd 0 hs end).
  destruct (qltb mx (hd 0 hs)) eqn:E3.
  - assert (qeqb (hd 0 hs) mx = false) as -> by (apply qeqb_neq; intros E4; rewrite E4 in E3; qclra). reflexivity.
  - rewrite andb_false_r. reflexivity.
Qed.

Lemma map_groups_raises es hs val ma mi out : hs <> [] -> decreasing hs ->
  (map_groups es hs val ma mi out = Raise MinTooHigh <-> eff_min hs mi = last hs 0) /\
  (map_groups es hs val ma mi out = Raise MaxTooLow <->
     eff_min hs mi <> last hs 0 /\ eff_max hs ma < hd 0 hs).
Proof.
  intros Hne Hd. rewrite (map_groups_eq es hs val ma mi out Hne Hd). cbv zeta.
  destruct (qeqb_spec (eff_min hs mi) (last hs 0)) as [E|E].
  - split; split; auto; [discriminate|tauto].
  - destruct (qltb_spec (eff_max hs ma) (hd 0 hs)) as [F|F].
    + split; split; auto; try discriminate; try tauto.
    + assert (K : forall r : result (list Qc), (exists g, r = Raise (KeyError g)) \/ (exists l, r = Ok l) ->
        (r <> Raise MinTooHigh /\ r <> Raise MaxTooLow)).
      { intros r [[g ->]|[l ->]]; split; discriminate. }
      assert (P : forall gs, (exists g, pick val gs = Raise (KeyError g)) \/ (exists l, pick val gs = Ok l)).
      { induction gs as [|g gs IH]; [right; now exists []|]. cbn [pick]. destruct (val g); [|left; now exists g].
        destruct IH as [[k ->]|[l ->]]; [left; now exists k|right; eexists; reflexivity]. }
      match goal with |- context [pick val ?gs] => destruct (P gs) as [[k ->]|[l ->]] end;
        split; split; try discriminate; tauto.
Qed.

Lemma map_groups_values es hs val (v : nat -> Qc) ma mi out :
  let max_e := eff_max hs ma in let min_e := eff_min hs mi in
  hs <> [] -> decreasing hs -> min_e < last hs 0 -> hd 0 hs <= max_e ->
  (forall g, (1 <= g <= length hs)%nat -> val (Z.of_nat g) = Some (v g)) ->
  ~ In min_e es ->
  exists r, map_groups es hs val ma mi out = Ok r /\
            Forall2 (right_value hs v min_e max_e out) es r.
Proof.
  cbv zeta. intros Hne Hd Hmin Hmax Hval Hno. rewrite (map_groups_eq es hs val ma mi out Hne Hd). cbv zeta.
  set (max_e := eff_max hs ma) in *. set (min_e := eff_min hs mi) in *.
  assert (qeqb min_e (last hs 0) = false) as -> by (apply qeqb_neq; intros E; rewrite E in Hmin; qclra).
  assert (qltb max_e (hd 0 hs) = false) as -> by (apply qltb_nlt; exact Hmax).
  set (gn := group_num _ _ _ _).
  assert (Hg : forall e, e <> min_e -> (1 <= gn e <= Z.of_nat (length hs))%Z /\
                (forall k, in_group hs min_e max_e k e -> gn e = Z.of_nat k)).
  { intros e He. exact (group_num_ok hs min_e max_e Hne Hd Hmin Hmax e He). }
  rewrite (pick_ok val (fun g => v (Z.to_nat g))).
  2:{ intros g Hg'. apply in_map_iff in Hg' as (e & <- & He).
      destruct (Hg e) as [R _]; [intros ->; auto|]. rewrite <- Hval by lia. f_equal. lia. }
  eexists. split; [reflexivity|].
  induction es as [|e es IH]; cbn [map map2]; constructor.
  - destruct (Hg e) as [R1 R2]; [intros ->; apply Hno; now left|]. unfold overwrite. split.
    + intros [H|H].
      * destruct (qltb max_e e); [reflexivity|]. assert (qltb e min_e = true) as -> by (apply qltb_lt; exact H). reflexivity.
      * assert (qltb max_e e = true) as -> by (apply qltb_lt; exact H). reflexivity.
    + intros g K. destruct (in_group_range hs min_e max_e Hne Hd Hmin Hmax e g K) as [K1 K2].
      assert (qltb max_e e = false) as -> by (apply qltb_nlt; qclra).
      assert (qltb e min_e = false) as -> by (apply qltb_nlt; qclra).
      rewrite (R2 g K). now rewrite Nat2Z.id.
  - apply IH. intros H. apply Hno. now right.
Qed.

(** An energy equal to min_e asks for the non-existent group n+1. *)
Lemma map_groups_min es hs val ma mi out :
  let max_e := eff_max hs ma in let min_e := eff_min hs mi in
  hs <> [] -> decreasing hs -> min_e < last hs 0 -> hd 0 hs <= max_e ->
  val (Z.of_nat (S (length hs))) = None -> In min_e es ->
  exists g, map_groups es hs val ma mi out = Raise (KeyError g).
Proof.
  cbv zeta. intros Hne Hd Hmin Hmax Hval Hin. rewrite (map_groups_eq es hs val ma mi out Hne Hd). cbv zeta.
  set (max_e := eff_max hs ma) in *. set (min_e := eff_min hs mi) in *.
  assert (qeqb min_e (last hs 0) = false) as -> by (apply qeqb_neq; intros E; rewrite E in Hmin; qclra).
  assert (qltb max_e (hd 0 hs) = false) as -> by (apply qltb_nlt; exact Hmax).
  destruct (pick_key val (map (group_num (length hs) (sort (max_e :: tl (hs ++ [min_e]))) min_e max_e) es)) as [g ->].
  - exists (Z.of_nat (S (length hs))). split; [|exact Hval]. apply in_map_iff. exists min_e. split; [|exact Hin].
    apply group_num_min; auto.
  - now exists g.
Qed.
