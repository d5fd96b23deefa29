From Verif Require Import Num Text Dec PyNum Endf_Model Endf_Spec.
From Coq Require Import ZArith NArith.
Local Open Scope list_scope.
Local Open Scope nat_scope.

(** ** Numbers *)
Lemma numeral_digits ds m : numeral ds m -> forallb is_digit ds = true /\ ds <> [] /\ dval ds = m.
Proof.
  intros [k ->]. split; [|split].
  - rewrite forallb_app, decN_digits, andb_true_r. induction k; [reflexivity|exact IHk].
  - intros E. apply app_eq_nil in E as [_ E]. now apply decN_nonnil in E.
  - now rewrite dval_zeros, dval_decN.
Qed.

Lemma is_digit_dot : is_digit "." = false. Proof. reflexivity. Qed.
Lemma pm_not_digit c : is_pm c = true -> is_digit c = false.
Proof. unfold is_pm. rewrite orb_true_iff, !eqc_eq. intros [-> | ->]; reflexivity. Qed.
Lemma digit_not_pm c : is_digit c = true -> is_pm c = false.
Proof. intros H. destruct (is_pm c) eqn:E; [|reflexivity]. apply pm_not_digit in E. congruence. Qed.

Definition nodigit (r : text) : bool := match r with [] => true | c :: _ => negb (is_digit c) end.

Lemma match_num_some pre ip fp s es r :
  match pre with [] => true | [c] => is_space c || is_pm c | _ => false end = true ->
  forallb is_digit ip = true -> forallb is_digit fp = true -> fp <> [] ->
  is_pm s = true -> forallb is_digit es = true -> es <> [] -> nodigit r = true ->
  match_num (pre ++ ip ++ "."%char :: fp ++ s :: es ++ r) = Some (pre ++ ip ++ "."%char :: fp, s :: es, r).
Proof.
  intros Hpre Hip Hfp Hfn Hs Hes Hen Hr.
  assert (K : forall p u, digits (ip ++ "."%char :: fp ++ s :: es ++ r) = (ip, "."%char :: fp ++ s :: es ++ r) ->
    u = ip ++ "."%char :: fp ++ s :: es ++ r ->
    (let (ip0, r1) := digits u in
     match r1 with
     | c :: r2 =>
         if eqc c "." then
           match digits r2 with
           | ((_ :: _) as fp0, s0 :: r4) =>
               if is_pm s0 then
                 match digits r4 with
                 | ((_ :: _) as es0, r5) => Some (p ++ ip0 ++ c :: fp0, s0 :: es0, r5)
                 | ([], _) => None
                 end
               else None
           | _ => None
           end
         else None
     | [] => None
     end) = Some (p ++ ip ++ "."%char :: fp, s :: es, r)).
  { intros p u Hd ->. rewrite Hd. rewrite eqc_refl.
    rewrite digits_app; [|assumption|now rewrite pm_not_digit]. destruct fp as [|f0 fp']; [congruence|].
    rewrite Hs. rewrite digits_app by assumption. destruct es as [|e0 es']; [congruence|]. reflexivity. }
  assert (D : digits (ip ++ "."%char :: fp ++ s :: es ++ r) = (ip, "."%char :: fp ++ s :: es ++ r))
    by (apply digits_app; [assumption|reflexivity]).
  unfold match_num. destruct pre as [|c [|? ?]]; [| |discriminate].
  - cbn [app]. destruct ip as [|c ip'].
    + cbn [app]. change (is_space "." || is_pm ".") with false. cbv iota. exact (K [] _ D eq_refl).
    + cbn [app] in *. cbn in Hip. apply andb_true_iff in Hip as [Hc _].
      rewrite (is_digit_not_space c Hc), (digit_not_pm c Hc). cbn [orb]. exact (K [] _ D eq_refl).
  - cbn [app]. rewrite Hpre. exact (K [c] _ D eq_refl).
Qed.

Lemma match_num_inv t g1 g2 r : match_num t = Some (g1, g2, r) ->
  exists x fp s y, t = x ++ "."%char :: fp ++ s :: y /\ forallb is_digit fp = true /\ fp <> [] /\ is_pm s = true.
Proof.
  unfold match_num.
  destruct (match t with [] => ([], []) | c :: r0 => if is_space c || is_pm c then ([c], r0) else ([], t) end) as [pre u] eqn:E.
  assert (Et : t = pre ++ u).
  { destruct t as [|c t']; [now injection E as <- <-|]. destruct (is_space c || is_pm c); injection E as <- <-; reflexivity. }
  clear E. pose proof (digits_split u) as [Su _]. destruct (digits u) as [ip r1]. cbn [fst snd] in Su.
  destruct r1 as [|c r2]; [discriminate|]. destruct (eqc c ".") eqn:Ec; [|discriminate]. apply eqc_eq in Ec. subst c.
  pose proof (digits_split r2) as [S2 D2]. destruct (digits r2) as [fp r3]. cbn [fst snd] in *.
  destruct fp as [|f0 fp']; [discriminate|]. destruct r3 as [|s r4]; [discriminate|].
  destruct (is_pm s) eqn:Es; [|discriminate]. intros _.
  exists (pre ++ ip), (f0 :: fp'), s, r4. repeat split; try assumption; [|discriminate].
  rewrite Et, <- Su, <- S2. now rewrite <- !app_assoc.
Qed.

Lemma sub_none k t : (forall x u, t = x ++ u -> match_num u = None) -> sub_ k t = t.
Proof.
  revert t. induction k as [|k IH]; intros t H; [reflexivity|]. cbn [sub_].
  rewrite (H [] t eq_refl). destruct t as [|c r]; [reflexivity|].
  f_equal. apply IH. intros x u ->. now apply (H (c :: x)).
Qed.

Lemma split_dot p1 q1 p2 q2 : p1 ++ "."%char :: q1 = p2 ++ "."%char :: q2 ->
  ~ In "."%char p2 -> ~ In "."%char q2 -> q1 = q2.
Proof.
  revert p2. induction p1 as [|c p1 IH]; intros [|c2 p2] E H1 H2; cbn in E.
  - congruence.
  - injection E as <- E. exfalso. apply H1. now left.
  - injection E as -> E. exfalso. apply H2. rewrite <- E. apply in_or_app. right. now left.
  - injection E as -> E. apply (IH p2 E); [|assumption]. intros K. apply H1. now right.
Qed.

Lemma digits_unique a c r b s y : forallb is_digit a = true -> forallb is_digit b = true ->
  is_digit c = false -> is_digit s = false -> a ++ c :: r = b ++ s :: y -> c = s.
Proof.
  revert b. induction a as [|x a IH]; intros [|z b] Ha Hb Hc Hs E; cbn in *.
  - congruence.
  - injection E as -> E. apply andb_true_iff in Hb as [Hb _]. congruence.
  - injection E as -> E. apply andb_true_iff in Ha as [Ha _]. congruence.
  - injection E as -> E. apply andb_true_iff in Ha as [_ Ha], Hb as [_ Hb]. eauto.
Qed.

(** A text whose only point is followed by digits and then neither a sign. *)
Lemma sub_id_dot p ds q k : ~ In "."%char p -> forallb is_digit ds = true -> ~ In "."%char q ->
  match q with [] => true | c :: _ => negb (is_digit c) && negb (is_pm c) end = true ->
  sub_ k (p ++ "."%char :: ds ++ q) = p ++ "."%char :: ds ++ q.
Proof.
  intros Hp Hds Hq Hc. apply sub_none. intros x u E.
  destruct (match_num u) as [[[g1 g2] r]|] eqn:M; [|reflexivity]. exfalso.
  apply match_num_inv in M as (x' & fp & s & y & -> & Hfp & Hfn & Hs).
  rewrite app_assoc in E. symmetry in E. apply split_dot in E; [|assumption|].
  - destruct q as [|c q'].
    + rewrite app_nil_r in E. subst ds. rewrite forallb_app in Hds. apply andb_true_iff in Hds as [_ Hds].
      cbn in Hds. rewrite (pm_not_digit s Hs) in Hds. discriminate.
    + apply andb_true_iff in Hc as [Hc1 Hc2]. apply negb_true_iff in Hc1, Hc2. symmetry in E.
      apply (digits_unique ds c q' fp s y) in E; auto using pm_not_digit. subst. congruence.
  - intros K. apply in_app_or in K as [K|K]; [|contradiction].
    rewrite forallb_forall in Hds. apply Hds in K. discriminate.
Qed.
Lemma sub_id_nodot t k : ~ In "."%char t -> sub_ k t = t.
Proof.
  intros H. apply sub_none. intros x u ->. destruct (match_num u) as [[[g1 g2] r]|] eqn:M; [|reflexivity]. exfalso.
  apply match_num_inv in M as (x' & fp & s & y & -> & _). apply H. apply in_or_app. right. apply in_or_app. right. now left.
Qed.

Lemma notin_spaces k c : c <> sp -> ~ In c (repeat sp k).
Proof. intros H K. apply repeat_spec in K. congruence. Qed.
Lemma notin_digits ds c : is_digit c = false -> forallb is_digit ds = true -> ~ In c ds.
Proof. intros Hc H K. rewrite forallb_forall in H. apply H in K. congruence. Qed.
Lemma notin_sign s : ~ In "."%char (sign_text s).
Proof. destruct s as [[]|]; cbn; intuition discriminate. Qed.

(** The substitution inserts the letter. *)
Lemma sub_eless a b s ip fp sc es k :
  forallb is_digit ip = true -> forallb is_digit fp = true -> fp <> [] -> is_pm sc = true ->
  forallb is_digit es = true -> es <> [] -> a + 2 <= k ->
  sub_ k (repeat sp a ++ (sign_text s ++ ip ++ "."%char :: fp ++ sc :: es) ++ repeat sp b) =
  repeat sp a ++ (sign_text s ++ ip ++ "."%char :: fp ++ "e"%char :: sc :: es) ++ repeat sp b.
Proof.
  intros Hip Hfp Hfn Hs Hes Hen.
  assert (Nb : nodigit (repeat sp b) = true) by (destruct b; reflexivity).
  assert (Tb : forall k, sub_ k (repeat sp b) = repeat sp b).
  { intros k'. apply sub_id_nodot. apply notin_spaces. discriminate. }
  assert (K : forall pre k, 1 <= k ->
    match pre with [] => true | [c] => is_space c || is_pm c | _ => false end = true ->
    sub_ k (pre ++ (ip ++ "."%char :: fp ++ sc :: es) ++ repeat sp b) =
    pre ++ (ip ++ "."%char :: fp ++ "e"%char :: sc :: es) ++ repeat sp b).
  { intros pre k' Hk Hpre. destruct k' as [|k']; [lia|].
    replace (pre ++ (ip ++ "."%char :: fp ++ sc :: es) ++ repeat sp b)
      with (pre ++ ip ++ "."%char :: fp ++ sc :: es ++ repeat sp b)
      by (rewrite <- !app_assoc; cbn [app]; rewrite <- !app_assoc; reflexivity).
    cbn [sub_]. rewrite match_num_some by assumption.
    rewrite Tb. rewrite <- !app_assoc. cbn [app]. rewrite <- !app_assoc. cbn [app]. reflexivity. }
  revert k. induction a as [|a IH]; intros k Hk.
  - cbn [repeat app]. destruct s as [[]|]; cbn [sign_text].
    + apply (K ["-"%char]); [lia|reflexivity].
    + apply (K ["+"%char]); [lia|reflexivity].
    + apply (K []); [lia|reflexivity].
  - destruct k as [|k]; [lia|]. destruct a as [|a'], s as [sg|].
    + (* the last blank before a sign *)
      cbn [repeat app sub_].
      assert (M : match_num (sp :: (sign_text (Some sg) ++ ip ++ "."%char :: fp ++ sc :: es) ++ repeat sp b) = None).
      { destruct sg; reflexivity. }
      rewrite M. f_equal. apply IH. lia.
    + cbn [repeat sign_text]. apply (K [sp]); [lia|reflexivity].
    + cbn [repeat app sub_].
      assert (M : forall u, match_num (sp :: sp :: u) = None) by reflexivity.
      rewrite M. f_equal. apply IH. lia.
    + cbn [repeat app sub_].
      assert (M : forall u, match_num (sp :: sp :: u) = None) by reflexivity.
      rewrite M. f_equal. apply IH. lia.
Qed.

(** ** [float] on the resulting literals *)
Lemma sign_sign_text s u : match u with [] => false | c :: _ => is_digit c || eqc c "." end = true ->
  sign (sign_text s ++ u) = (minus s, u).
Proof.
  intros H. destruct s as [[]|]; cbn [sign_text app minus sign]; try reflexivity.
  destruct u as [|c u]; [discriminate|]. cbn [sign].
  destruct (eqc c "-") eqn:E; [apply eqc_eq in E; subst; discriminate|].
  destruct (eqc c "+") eqn:E'; [apply eqc_eq in E'; subst; discriminate|]. reflexivity.
Qed.

Lemma decimal_value neg m f en e : decimal neg m f (signed en (Z.of_N e)) = value neg m f en e.
Proof.
  unfold decimal, value, pow10, qz, signed. apply Qc_is_canon. cbn zeta.
  rewrite this_mul, !this_Q2Qc. destruct neg, en; reflexivity.
Qed.

Lemma head_ok s u : match u with [] => false | c :: _ => is_digit c || eqc c "." end = true ->
  head_space (sign_text s ++ u) = false.
Proof.
  intros H. destruct s as [[]|]; try reflexivity. cbn [sign_text app]. destruct u as [|c u]; [discriminate|].
  apply orb_true_iff in H as [H|H]; cbn; [now apply is_digit_not_space|]. apply eqc_eq in H. now subst.
Qed.
Lemma head_ip ip r : forallb is_digit ip = true ->
  match ip ++ "."%char :: r with [] => false | c :: _ => is_digit c || eqc c "." end = true.
Proof. destruct ip as [|c ip]; cbn; [reflexivity|]. intros H. apply andb_true_iff in H as [-> _]. reflexivity. Qed.

Lemma py_float_core a b s ip fp tail e m :
  numeral (ip ++ fp) m -> exponent tail = Some e -> nodigit tail = true ->
  ends_space (sign_text s ++ ip ++ "."%char :: fp ++ tail) = false ->
  py_float (repeat sp a ++ (sign_text s ++ ip ++ "."%char :: fp ++ tail) ++ repeat sp b) =
  Some (decimal (minus s) m (length fp) e).
Proof.
  intros Hm He Ht Hend. apply numeral_digits in Hm as (Hd & Hn & Hv).
  rewrite forallb_app in Hd. apply andb_true_iff in Hd as [Hip Hfp].
  unfold py_float. rewrite trim_padded; [|apply head_ok; now apply head_ip|assumption].
  rewrite sign_sign_text by now apply head_ip.
  rewrite digits_app by (assumption || reflexivity). rewrite eqc_refl.
  rewrite digits_app by assumption. destruct (ip ++ fp) as [|c0 l0] eqn:E; [congruence|].
  rewrite <- Hv, He. reflexivity.
Qed.
Lemma py_float_int a b s ip m : numeral ip m ->
  py_float (repeat sp a ++ (sign_text s ++ ip) ++ repeat sp b) = Some (decimal (minus s) m 0 0).
Proof.
  intros Hm. apply numeral_digits in Hm as (Hd & Hn & Hv).
  assert (Hh : match ip with [] => false | c :: _ => is_digit c || eqc c "." end = true).
  { destruct ip; [congruence|]. cbn in Hd. apply andb_true_iff in Hd as [-> _]. reflexivity. }
  unfold py_float. rewrite trim_padded; [|now apply head_ok|now apply ends_digit_not_space].
  rewrite sign_sign_text by assumption. rewrite digits_all by assumption. rewrite app_nil_r.
  destruct ip as [|c0 l0] eqn:E; [congruence|]. rewrite <- Hv. reflexivity.
Qed.

Lemma exponent_digits (up : bool) en es e : numeral es e ->
  exponent ((if up then "E" else "e")%char :: sign_text en ++ es) = Some (signed (minus en) (Z.of_N e)).
Proof.
  intros H. apply numeral_digits in H as (Hd & Hn & Hv).
  assert (Hh : match es with [] => false | c :: _ => is_digit c || eqc c "." end = true).
  { destruct es; [congruence|]. cbn in Hd. apply andb_true_iff in Hd as [-> _]. reflexivity. }
  assert (E : (eqc (if up then "E" else "e")%char "e" || eqc (if up then "E" else "e")%char "E") = true) by (destruct up; reflexivity).
  unfold exponent. rewrite E, sign_sign_text, digits_all by assumption.
  destruct es; [congruence|]. now rewrite Hv.
Qed.

Lemma ends_digits_app t ds : ds <> [] -> forallb is_digit ds = true -> ends_space (t ++ ds) = false.
Proof. apply ends_digit_not_space. Qed.

Lemma float_endf_denotes t x : denotes t x -> float_endf t = Some x.
Proof.
  intros H. unfold float_endf, sub_exponent. destruct H as [a b s ip fp m en es e Hm Hfn He|a b s ip fp m up es en e Hm He|a b s ip fp m Hm|a b s ip m Hm].
  - pose proof (numeral_digits _ _ Hm) as (Hd & Hn & Hv). rewrite forallb_app in Hd. apply andb_true_iff in Hd as [Hip Hfp].
    pose proof (numeral_digits _ _ He) as (Hde & Hne & Hve).
    assert (Es : exists sc, sign_text (Some en) ++ es = sc :: es /\ sign_text (Some en) = [sc] /\ is_pm sc = true).
    { destruct en; eexists; split; try reflexivity; split; reflexivity. }
    destruct Es as (sc & Es & Es' & Hpm). rewrite Es.
    rewrite sub_eless; try assumption.
    + pose proof (exponent_digits false (Some en) es e He) as Hx. rewrite Es in Hx. cbn iota in Hx.
      rewrite <- decimal_value. apply py_float_core; try assumption; try reflexivity.
      * replace (sign_text s ++ ip ++ "."%char :: fp ++ "e"%char :: sc :: es)
          with ((sign_text s ++ ip ++ "."%char :: fp ++ ["e"%char; sc]) ++ es)
          by (rewrite <- !app_assoc; cbn [app]; rewrite <- !app_assoc; reflexivity).
        now apply ends_digits_app.
    + rewrite !app_length, repeat_length. cbn [length]. rewrite app_length. cbn [length]. lia.
  - pose proof (numeral_digits _ _ Hm) as (Hd & Hn & Hv). rewrite forallb_app in Hd. apply andb_true_iff in Hd as [Hip Hfp].
    pose proof (numeral_digits _ _ He) as (Hde & Hne & Hve).
    set (L := (if up then "E" else "e")%char).
    assert (HL : is_digit L = false /\ is_pm L = false /\ L <> "."%char) by (unfold L; destruct up; repeat split; discriminate).
    destruct HL as (HL1 & HL2 & HL3).
    assert (Hid : forall k, sub_ k (repeat sp a ++ (sign_text s ++ ip ++ "."%char :: fp ++ L :: sign_text en ++ es) ++ repeat sp b)
                 = repeat sp a ++ (sign_text s ++ ip ++ "."%char :: fp ++ L :: sign_text en ++ es) ++ repeat sp b).
    { intros k.
      replace (repeat sp a ++ (sign_text s ++ ip ++ "."%char :: fp ++ L :: sign_text en ++ es) ++ repeat sp b)
        with ((repeat sp a ++ sign_text s ++ ip) ++ "."%char :: fp ++ L :: sign_text en ++ es ++ repeat sp b)
        by (rewrite <- !app_assoc; cbn [app]; rewrite <- !app_assoc; cbn [app]; rewrite <- !app_assoc; reflexivity).
      apply sub_id_dot; auto.
      - rewrite !in_app_iff. intros [K|[K|K]]; revert K; [apply notin_spaces; discriminate|apply notin_sign|now apply notin_digits].
      - cbn [In]. rewrite !in_app_iff. intros [K|[K|[K|K]]]; [congruence|revert K; apply notin_sign|revert K; now apply notin_digits|].
        revert K. apply notin_spaces. discriminate.
      - now rewrite HL1, HL2. }
    rewrite Hid, <- decimal_value. apply py_float_core; auto.
    + apply exponent_digits. assumption.
    + cbn. now rewrite HL1.
    + replace (sign_text s ++ ip ++ "."%char :: fp ++ L :: sign_text en ++ es)
        with ((sign_text s ++ ip ++ "."%char :: fp ++ L :: sign_text en) ++ es)
        by (rewrite <- !app_assoc; cbn [app]; rewrite <- !app_assoc; reflexivity).
      now apply ends_digits_app.
  - pose proof (numeral_digits _ _ Hm) as (Hd & Hn & Hv). rewrite forallb_app in Hd. apply andb_true_iff in Hd as [Hip Hfp].
    replace (repeat sp a ++ (sign_text s ++ ip ++ "."%char :: fp) ++ repeat sp b)
      with ((repeat sp a ++ sign_text s ++ ip) ++ "."%char :: fp ++ repeat sp b)
      by (rewrite <- !app_assoc; cbn [app]; reflexivity).
    rewrite sub_id_dot; auto.
    + replace ((repeat sp a ++ sign_text s ++ ip) ++ "."%char :: fp ++ repeat sp b)
        with (repeat sp a ++ (sign_text s ++ ip ++ "."%char :: fp ++ []) ++ repeat sp b)
        by (rewrite app_nil_r, <- !app_assoc; cbn [app]; reflexivity).
      rewrite <- decimal_value. apply py_float_core; auto.
      rewrite app_nil_r. destruct fp as [|f0 fp'] using rev_ind.
      * unfold ends_space. rewrite app_assoc, rev_app_distr. reflexivity.
      * clear IHfp'. replace (sign_text s ++ ip ++ "."%char :: fp' ++ [f0]) with ((sign_text s ++ ip ++ "."%char :: fp') ++ [f0])
          by (rewrite <- !app_assoc; reflexivity).
        apply ends_digits_app; [discriminate|]. rewrite forallb_app in Hfp. apply andb_true_iff in Hfp as [_ Hfp]. exact Hfp.
    + rewrite !in_app_iff. intros [K|[K|K]]; revert K; [apply notin_spaces; discriminate|apply notin_sign|now apply notin_digits].
    + apply notin_spaces. discriminate.
    + destruct b; reflexivity.
  - pose proof (numeral_digits _ _ Hm) as (Hd & Hn & Hv).
    rewrite sub_id_nodot.
    + rewrite <- decimal_value. now apply py_float_int.
    + rewrite !in_app_iff. intros [K|[[K|K]|K]]; revert K;
        [apply notin_spaces; discriminate|apply notin_sign|now apply notin_digits|apply notin_spaces; discriminate].
Qed.
