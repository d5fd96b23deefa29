From Coq Require Import Reals ZArith QArith Qcanon List Lia Bool.
From Verif Require Import Num Neut_Model Fer_Model Fer_Spec FerReal_Proofs.
From Verif Require AceEdit_Model Tab1d_Model Tab1d_Spec Tab1d_Proofs Tab1dMix_Proofs Tab1dSum_Proofs.
From Coq Require Import Lra.
Import ListNotations.
Local Open Scope list_scope.
Local Open Scope nat_scope.

(** ** Polynomials *)
Lemma horner_cadd a : forall b e, horner (cadd a b) e = (horner a e + horner b e)%Qc.
Proof. induction a as [|x a IH]; intros b e; [cbn [cadd horner]; ring|]. destruct b as [|y b]; cbn [cadd horner]; [ring|]. rewrite IH. ring. Qed.
Lemma cadd_nonempty a b : a <> [] -> cadd a b <> [].
Proof. destruct a; [congruence|destruct b; discriminate]. Qed.
Lemma cadd_length a : forall b n, List.length a <= n -> List.length b <= n -> List.length (cadd a b) <= n.
Proof.
  induction a as [|x a IH]; intros b n Ha Hb; [assumption|]. destruct b as [|y b]; [assumption|]. destruct n as [|n]; [cbn in Ha; lia|].
  cbn [cadd List.length] in *. apply le_n_S, IH; lia.
Qed.
Definition isPoly (f : yield) : Prop := match f with Poly c => c <> [] | Tabd _ => False end.
Section Sums.
Context {D A : Type} (R : readers D A).

Lemma forall_values fs e : Forall isPoly fs -> Forall2 (fun f v => value_at R f e = Some v) fs (map (fun c => horner c e) (map coeffs fs)).
Proof. induction 1 as [|f fs H F IH]; [constructor|]. cbn [map]. constructor; [|exact IH]. destruct f; [reflexivity|destruct H]. Qed.
Lemma grids_polys fs : Forall isPoly fs -> grids fs = Some [].
Proof. induction 1 as [|f fs H F IH]; [reflexivity|]. destruct f; [exact IH|destruct H]. Qed.
Lemma cadds_value fs e : Forall isPoly fs -> horner (fold_right cadd [] (map coeffs fs)) e = qsum (map (fun c => horner c e) (map coeffs fs)).
Proof. induction 1 as [|f fs H F IH]; [reflexivity|]. cbn [map fold_right]. rewrite horner_cadd, IH. reflexivity. Qed.
Lemma sum_polys fs : Forall isPoly fs -> fs <> [] -> exists c, sum_functions R fs = Some (Poly c) /\ c <> [] /\ c = fold_right cadd [] (map coeffs fs) /\
  forall e, horner c e = qsum (map (fun c => horner c e) (map coeffs fs)).
Proof.
  intros F N. unfold sum_functions. rewrite (grids_polys fs F). pose proof (fun e => cadds_value fs e F) as V.
  assert (Nc : fold_right cadd [] (map coeffs fs) <> []) by (destruct F as [|f fs H F]; [congruence|]; cbn [map fold_right]; destruct f; [apply cadd_nonempty, H|destruct H]).
  destruct (fold_right cadd [] (map coeffs fs)) as [|c0 c] eqn:E; [congruence|]. exists (c0 :: c). repeat split; try assumption; discriminate.
Qed.
Lemma qsum_app l : forall m, qsum (l ++ m) = (qsum l + qsum m)%Qc.
Proof. intros m. unfold qsum. induction l as [|x l IH]; cbn [app fold_right]; [ring|]. rewrite IH. ring. Qed.

(** ** Tables *)
Lemma close_real a b : Tab1d_Spec.close (qr a) (qr b) <-> close a b.
Proof.
  rewrite <- Tab1d_Proofs.near_close, near_real. unfold AceEdit_Model.isclose, close.
  match goal with |- (qleb ?u ?v = true <-> _) => destruct (qleb_spec u v) as [H|H] end; split; try tauto; discriminate.
Qed.
Lemma apart_real a b e : Tab1dMix_Proofs.apart (qr a) (qr b) (qr e) <-> apart a b e.
Proof.
  unfold Tab1dMix_Proofs.apart, apart. rewrite !close_real. split; intros [H|[H|H]]; auto; [left|right; left|left|right; left]; try (now apply qr_inj); now rewrite H.
Qed.
Lemma nth_real l i : nth i (map qr l) 0%R = qr (nth i l 0%Qc).
Proof. rewrite <- qr_0. apply map_nth. Qed.
Lemma last_real l : last (map qr l) 0%R = qr (last l 0%Qc).
Proof. rewrite <- qr_0. induction l as [|x [|y l] IH]; [reflexivity|reflexivity|exact IH]. Qed.
Lemma linear_real t : Tab1dSum_Proofs.linear (rl t) <-> linear_table t.
Proof.
  unfold Tab1dSum_Proofs.linear, Tab1d_Spec.table, linear_table, Tab1d_Spec.increasing, rising. cbn [rl Tab1d_Model.xs Tab1d_Model.ys Tab1d_Model.bps Tab1d_Model.schemes].
  rewrite !map_length. split.
  - intros ((H1 & H2 & H3 & H4 & H5 & H6 & H7) & H8). repeat split; try assumption. intros i Hi. apply qr_lt. rewrite <- !nth_real. now apply H3.
  - intros (H1 & H2 & H3 & H4 & H5 & H6 & H7 & H8). repeat split; try assumption. intros i Hi. rewrite !nth_real. apply qr_lt. now apply H3.
Qed.
Lemma spans_real a b f : spans a b f -> Tab1dMix_Proofs.good (qr a) (qr b) (ry f).
Proof.
  destruct f as [c|t]; cbn [spans ry Tab1dMix_Proofs.good].
  - intros [_ H]. now rewrite map_length.
  - intros (L & E1 & E2 & H). split; [now apply linear_real|]. cbn [rl Tab1d_Model.xs]. rewrite nth_real, last_real, E1, E2. repeat split.
    intros u Iu. apply in_map_iff in Iu as (v & <- & Iv). apply apart_real. now apply H.
Qed.
Lemma real_spans a b t : Tab1dMix_Proofs.good (qr a) (qr b) (ry (Tabd t)) -> spans a b (Tabd t).
Proof.
  cbn [spans ry Tab1dMix_Proofs.good rl Tab1d_Model.xs]. rewrite nth_real, last_real. intros (L & E1 & E2 & H). split; [now apply linear_real|].
  split; [now apply qr_inj|]. split; [now apply qr_inj|]. intros u Iu. apply apart_real, H. now apply in_map.
Qed.
Lemma spans_straight a b f : spans a b f -> straight f.
Proof. destruct f as [c|t]; [intros _; exact I|]. intros ((_ & _ & _ & _ & _ & _ & _ & H) & _). exact H. Qed.
Lemma grids_spans a b fs : (forall f, In f fs -> spans a b f) -> exists gs, grids fs = Some gs /\ (forall t, In (Tabd t) fs -> gs <> []).
Proof.
  induction fs as [|f fs IH]; intros H; [exists []; split; [reflexivity|intros t []]|].
  destruct IH as (gs & E & I); [intros g Hg; apply H; now right|]. destruct f as [c|t]; cbn [grids].
  - exists gs. split; [exact E|]. intros t [?|?]; [discriminate|eauto].
  - pose proof (H _ (or_introl eq_refl)) as ((L2 & _ & _ & _ & _ & _ & _ & Hs) & _).
    assert (E2 : forallb (Z.eqb 2) (fint t) = true) by (apply forallb_forall; intros s Is; rewrite (Hs s Is); reflexivity).
    assert (E3 : Nat.eqb (List.length (fx t)) 0 = false) by (apply Nat.eqb_neq; lia). rewrite E2, E3, E. cbn [andb negb option_map]. eexists. split; [reflexivity|]. discriminate.
Qed.
(** The sum exists if it does over the real numbers. *)
Lemma sum_back fs gs h : grids fs = Some gs -> gs <> [] -> Tab1d_Model.sum_functions (map ry fs) = Some h -> exists g, sum_functions R fs = Some (Tabd g) /\ h = ry (Tabd g).
Proof.
  intros E N H. destruct (grids_straight fs gs E) as [F G].
  assert (X : exists g, sum_functions R fs = Some (Tabd g)).
  { unfold sum_functions. unfold Tab1d_Model.sum_functions in H. rewrite E. rewrite G in H. destruct gs as [|g0 gs]; [congruence|]. cbn [map] in H.
    rewrite unions_real, map_map in H. rewrite (map_ext _ (fun x => option_map qr (sum_at R fs x))) in H by (intros x; now apply sum_at_real).
    rewrite <- (map_map (sum_at R fs) (option_map qr)), all_some_real in H. destruct (Neut_Model.all_some _) as [y|]; [|discriminate]. eexists. reflexivity. }
  destruct X as (g & Eg). exists g. split; [exact Eg|]. destruct (sum_real R fs _ Eg) as [_ S]. congruence.
Qed.
Lemma option_qr (o : option Qc) v : option_map qr o = Some (qr v) -> o = Some v.
Proof. destruct o as [w|]; [|discriminate]. cbn [option_map]. intros E. assert (E2 : qr w = qr v) by congruence. now rewrite (qr_inj _ _ E2). Qed.
Lemma values_some fs e v : sum_at R fs e = Some v -> exists vs, Forall2 (fun f v => value_at R f e = Some v) fs vs /\ v = qsum vs.
Proof.
  unfold sum_at. destruct (all_some _) as [vs|] eqn:E; [|discriminate]. cbn [option_map]. intros E1. exists vs. split; [|congruence].
  clear E1 v. revert vs E. induction fs as [|f fs IH]; intros vs; cbn [map all_some]; [intros [= <-]; constructor|].
  destruct (value_at R f e) as [w|] eqn:Ef; [|discriminate]. destruct (all_some (map _ fs)) as [ws|]; [|discriminate].
  cbn [option_map]. intros E. assert (vs = w :: ws) as -> by congruence. constructor; [assumption|]. now apply IH.
Qed.
Lemma sum_at_some a b fs e : (forall f, In f fs -> spans a b f) -> exists v, sum_at R fs e = Some v.
Proof.
  intros H. unfold sum_at. assert (X : exists vs, all_some (map (fun f => value_at R f e) fs) = Some vs); [|destruct X as (vs & ->); eexists; reflexivity].
  induction fs as [|f fs IH]; [exists []; reflexivity|]. destruct IH as (vs & E); [intros g Hg; apply H; now right|]. cbn [map all_some].
  assert (V : exists v, value_at R f e = Some v).
  { pose proof (H f (or_introl eq_refl)) as Hf. destruct f as [c|t]; [eexists; reflexivity|]. pose proof (value_real R (Tabd t) e (spans_straight _ _ _ Hf)) as Hv.
    apply spans_real in Hf. destruct Hf as ((T & _) & _). cbn [ry Tab1d_Model.func_at] in Hv. rewrite (Tab1dSum_Proofs.val_call _ (qr e) T) in Hv.
    destruct (value_at R (Tabd t) e); [eexists; reflexivity|discriminate]. }
  destruct V as (v & ->). rewrite E. eexists. reflexivity.
Qed.
Definition sums (a b : Qc) (fs : list yield) (g : yield) : Prop :=
  spans a b g /\ (forall e, (a <= e <= b)%Qc -> apart a b e -> value_at R g e = sum_at R fs e) /\
  ((exists t, In (Tabd t) fs) -> (exists t, g = Tabd t) /\ forall e, (e < a \/ b < e)%Qc -> ~ close e a -> ~ close e b -> value_at R g e = Some 0%Qc).
Theorem sum_spans a b fs : (forall f, In f fs -> spans a b f) -> fs <> [] -> ~ close a b -> exists g, sum_functions R fs = Some g /\ sums a b fs g.
Proof.
  intros H N C. destruct (grids_spans a b fs H) as (gs & Egs & Ngs).
  assert (Dec : (exists t, In (Tabd t) fs) \/ Forall isPoly fs).
  { clear - H. induction fs as [|f fs IH]; [right; constructor|]. destruct IH as [(t & I)|F]; [intros g Hg; apply H; now right|left; exists t; now right|].
    destruct f as [c|t]; [|left; exists t; now left]. right. constructor; [|exact F]. apply (H _ (or_introl eq_refl)). }
  destruct Dec as [(t & It)|F].
  - assert (X : exists g, Tab1d_Model.sum_functions (map ry fs) = Some (Tab1d_Model.Tab g) /\ Tab1dMix_Proofs.good (qr a) (qr b) (Tab1d_Model.Tab g) /\
      (forall e, (qr a <= e <= qr b)%R -> Tab1dMix_Proofs.apart (qr a) (qr b) e -> Tab1d_Model.call_at g e = Tab1d_Model.sum_at (map ry fs) e) /\
      (forall e, (e < qr a \/ qr b < e)%R -> ~ Tab1d_Spec.close e (qr a) -> ~ Tab1d_Spec.close e (qr b) -> Tab1d_Model.call_at g e = Some 0%R)).
    { apply Tab1dMix_Proofs.sum_mixed.
      - intros f If. apply in_map_iff in If as (f' & <- & If). apply spans_real. now apply H.
      - exists (rl t). apply in_map_iff. exists (Tabd t). now split.
      - now rewrite close_real. }
    destruct X as (g' & E & G & V & Z). destruct (sum_back fs gs _ Egs (Ngs t It) E) as (g & Eg & Er). injection Er as ->.
    assert (Sg : spans a b (Tabd g)) by now apply real_spans. pose proof (spans_straight _ _ _ Sg) as St.
    assert (Sf : Forall straight fs) by (apply Forall_forall; intros f If; now apply (spans_straight a b), H).
    exists (Tabd g). split; [exact Eg|]. split; [exact Sg|]. split.
    + intros e [H1 H2] Ha. destruct (sum_at_some a b fs e H) as (v & Ev). rewrite Ev. apply option_qr. rewrite <- (value_real R (Tabd g) e St). cbn [ry Tab1d_Model.func_at].
      rewrite V; [|split; now apply qr_le|now apply apart_real]. rewrite (sum_at_real R fs e Sf), Ev. reflexivity.
    + intros _. split; [eexists; reflexivity|]. intros e He N1 N2. apply option_qr. rewrite <- (value_real R (Tabd g) e St). cbn [ry Tab1d_Model.func_at].
      rewrite Z, qr_0; [reflexivity| |now rewrite close_real|now rewrite close_real]. destruct He as [He|He]; [left|right]; now apply qr_lt.
  - destruct (sum_polys fs F N) as (c & E & Nc & Ec & V). exists (Poly c). split; [exact E|]. split; [|split].
    + split; [assumption|]. rewrite Ec. clear - H F. induction F as [|f fs Hf F IH]; [cbn; lia|]. cbn [map fold_right]. apply cadd_length.
      * pose proof (H f (or_introl eq_refl)) as S. destruct f; [apply S|cbn; lia].
      * apply IH. intros g Hg. apply H. now right.
    + intros e _ _. cbn [value_at]. rewrite V. symmetry. unfold sum_at.
      assert (X : all_some (map (fun f => value_at R f e) fs) = Some (map (fun c => horner c e) (map coeffs fs))); [|now rewrite X].
      clear - F. induction F as [|f fs Hf F IH]; [reflexivity|]. cbn [map all_some]. rewrite IH. destruct f; [reflexivity|destruct Hf].
    + intros (t & It). exfalso. rewrite Forall_forall in F. exact (F _ It).
Qed.
End Sums.
