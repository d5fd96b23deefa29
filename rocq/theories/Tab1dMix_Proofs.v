From Coq Require Import Reals ZArith List Lia Lra Bool.
From Verif Require Import Tab1d_Model Tab1d_Spec Tab1d_Proofs Tab1dSum_Proofs.
Import ListNotations.
Local Open Scope R_scope.

(** ** Sums of tables and straight lines *)
Lemma asc_lower x l : asc (x :: l) -> forall y, In y l -> x < y.
Proof.
  revert x. induction l as [|z l IH]; intros x Ha y; [intros []|]. inversion Ha as [| |? ? ? H1 H2]. subst. intros [<-|Hy]; [assumption|].
  pose proof (IH z H2 y Hy). lra.
Qed.
Lemma asc_ext l : forall l', asc l -> asc l' -> (forall u, In u l <-> In u l') -> l = l'.
Proof.
  induction l as [|x l IH]; intros [|y l'] Ha Hb H; [reflexivity|exfalso; apply (H y); now left|exfalso; apply (H x); now left|].
  assert (x = y) as ->.
  { pose proof (proj1 (H x) (or_introl eq_refl)) as [E|I1]; [now symmetry|]. pose proof (proj2 (H y) (or_introl eq_refl)) as [E|I2]; [assumption|].
    pose proof (asc_lower _ _ Hb _ I1). pose proof (asc_lower _ _ Ha _ I2). lra. }
  f_equal. apply IH.
  - inversion Ha; [constructor|assumption].
  - inversion Hb; [constructor|assumption].
  - intros u. pose proof (H u) as Hu. cbn [In] in Hu. split; intros I.
    + destruct (proj1 Hu (or_intror I)) as [<-|?]; [|assumption]. pose proof (asc_lower _ _ Ha _ I). lra.
    + destruct (proj2 Hu (or_intror I)) as [<-|?]; [|assumption]. pose proof (asc_lower _ _ Hb _ I). lra.
Qed.

(** At an end, or close to neither. *)
Definition apart (a b e : R) : Prop := e = a \/ e = b \/ (~ close e a /\ ~ close e b).
(** A linear table from [a] to [b], or a straight line. *)
Definition good (a b : R) (f : func) : Prop :=
  match f with
  | Tab t => linear t /\ nth 0 (xs t) 0 = a /\ last (xs t) 0 = b /\ (forall u, In u (xs t) -> apart a b u)
  | Poly c => (length c <= 2)%nat
  end.

Section Mix.
Variables (a b : R) (fs : list func).
Hypothesis Hgood : forall f, In f fs -> good a b f.
Hypothesis Htab : exists t, In (Tab t) fs.
Hypothesis Hab : ~ close a b.

Lemma mix_lt : a < b.
Proof.
  destruct Htab as (t & Ht). destruct (Hgood _ Ht) as ((T & _) & <- & <- & _).
  destruct (nonempty t T) as [Nx _]. destruct T as (H2 & _ & Hx & _). rewrite last_nth by assumption. apply increasing_lt; [assumption|lia].
Qed.
Definition sub (f : func) : tab1 := match f with Tab t => t | Poly c => tabulated [a; b] [horner c a; horner c b] end.
Lemma line_table c : table (tabulated [a; b] [horner c a; horner c b]) /\ linear (tabulated [a; b] [horner c a; horner c b]).
Proof. pose proof mix_lt. apply tabulated_table; cbn; try lia. intros [|[|i]] Hi; cbn in *; try lia; lra. Qed.
Lemma sub_linear f : In f fs -> linear (sub f).
Proof. intros H. destruct f as [t|c]; [apply (Hgood _ H)|apply line_table]. Qed.
Lemma sub_ends f : In f fs -> nth 0 (xs (sub f)) 0 = a /\ last (xs (sub f)) 0 = b.
Proof. intros H. destruct f as [t|c]; [destruct (Hgood _ H) as (_ & ? & ? & _); now split|split; reflexivity]. Qed.
Lemma sub_pts f u : In f fs -> In u (xs (sub f)) -> apart a b u.
Proof.
  intros H. destruct f as [t|c]; [apply (Hgood _ H)|]. cbn. unfold apart. intros [<-|[<-|[]]]; auto.
Qed.
Lemma sub_at f e : In f fs -> a <= e <= b -> apart a b e -> func_at (Tab (sub f)) e = func_at f e.
Proof.
  intros H He Hc. destruct f as [t|c]; [reflexivity|]. cbn [sub func_at]. pose proof mix_lt as L. pose proof (Hgood _ H) as Hl. cbn in Hl.
  destruct (line_table c) as [T TL]. rewrite (val_call _ e T). f_equal.
  rewrite (val_lin _ 0 e TL); cbn [tabulated xs ys nth last]; [|assumption|cbn; lia|lra|exact Hc].
  destruct c as [|c0 [|c1 [|]]]; cbn [horner length] in *; try lia; field; lra.
Qed.
Lemma sum_sub e : a <= e <= b -> apart a b e -> sum_at fs e = sum_at (map Tab (map sub fs)) e.
Proof.
  intros He Hc. unfold sum_at. f_equal. f_equal. rewrite !map_map. apply map_ext_in. intros f Hf. symmetry. now apply sub_at.
Qed.

Lemma grids_good l : (forall f, In f l -> good a b f) -> exists gs, grids l = Some gs /\ (forall t, In (Tab t) l -> In (xs t) gs).
Proof.
  induction l as [|f l IH]; intros H; [exists []; split; [reflexivity|intros t []]|].
  destruct IH as (gs & E & I); [intros g Hg; apply H; now right|]. destruct f as [t|c].
  - cbn [grids]. pose proof (H _ (or_introl eq_refl)) as ((_ & Hs) & _).
    assert (E2 : forallb (Z.eqb 2) (schemes t) = true) by (apply forallb_forall; intros s Is; rewrite (Hs s Is); reflexivity).
    rewrite E2, E. cbn [option_map]. exists (xs t :: gs). split; [reflexivity|]. intros u [[= <-]|Hu]; [now left|right; now apply I].
  - exists gs. split; [exact E|]. intros t [?|Hu]; [discriminate|now apply I].
Qed.

Theorem sum_mixed : exists g, sum_functions fs = Some (Tab g) /\ good a b (Tab g) /\
  (forall e, a <= e <= b -> apart a b e -> call_at g e = sum_at fs e) /\
  (forall e, e < a \/ b < e -> ~ close e a -> ~ close e b -> call_at g e = Some 0).
Proof.
  pose proof mix_lt as L.
  assert (Nts : map sub fs <> []) by (destruct Htab as (t & Ht); destruct fs; [destruct Ht|discriminate]).
  assert (Hlin : forall t, In t (map sub fs) -> linear t) by (intros t It; apply in_map_iff in It as (f & <- & If); now apply sub_linear).
  assert (Hends : forall t, In t (map sub fs) -> nth 0 (xs t) 0 = a /\ last (xs t) 0 = b) by (intros t It; apply in_map_iff in It as (f & <- & If); now apply sub_ends).
  assert (Hpts : forall t u, In t (map sub fs) -> In u (xs t) -> u = a \/ u = b \/ (~ close u a /\ ~ close u b))
    by (intros t u It; apply in_map_iff in It as (f & <- & If); now apply (sub_pts f u)).
  destruct (sum_between a b (map sub fs) Nts Hlin Hends Hab Hpts) as (g & Eg & _ & V).
  assert (TT : forall t, In (Tab t) (map Tab (map sub fs)) -> table t).
  { intros t It. apply in_map_iff in It as (t' & [= <-] & It). apply (Hlin _ It). }
  destruct (sum_grid (map Tab (map sub fs)) g TT Eg) as (Gin & Gasc & Gly & _ & _).
  assert (Gin' : forall u, In u (xs g) <-> exists f, In f fs /\ In u (xs (sub f))).
  { intros u. rewrite Gin. split.
    - intros (t & It & Iu). apply in_map_iff in It as (t' & [= <-] & It). apply in_map_iff in It as (f & <- & If). eauto.
    - intros (f & If & Iu). exists (sub f). split; [|assumption]. apply in_map, in_map, If. }
  assert (Grange : forall u, In u (xs g) -> a <= u <= b /\ apart a b u).
  { intros u Iu. apply Gin' in Iu as (f & If & Iu). split; [|now apply (sub_pts f u)].
    apply (table_range a b (map sub fs) Hlin Hends (sub f) u); [now apply in_map|assumption]. }
  destruct (grids_good fs Hgood) as (gs & Egs & Igs).
  destruct gs as [|g0 gs]; [destruct Htab as (t & Ht); destruct (Igs t Ht)|].
  destruct (grids_first fs g0 gs Egs) as (t0 & It0 & E0).
  set (x := fold_left union1d gs g0).
  assert (Ax : asc x).
  { apply unions_asc. rewrite <- E0. apply asc_increasing. pose proof (Hgood _ It0) as (((_ & _ & ? & _) & _) & _). assumption. }
  assert (Xin : forall u, In u x <-> In u (xs g)).
  { intros u. rewrite Gin'. unfold x. rewrite unions_in. split.
    - intros H. assert (exists t, In (Tab t) fs /\ In u (xs t)) as (t & It & Iu).
      { destruct H as [H|(h & Hh & H)]; [exact (grids_in fs _ Egs u g0 (or_introl eq_refl) H)|exact (grids_in fs _ Egs u h (or_intror Hh) H)]. }
      exists (Tab t). now split.
    - intros ([t|c] & If & Iu).
      + destruct (Igs t If) as [->|I]; [now left|right; eauto].
      + left. rewrite <- E0. pose proof (Hgood _ It0) as ((T0 & _) & Ea & Eb & _). destruct (nonempty t0 T0) as [Nx _]. destruct T0 as (H2 & _).
        cbn in Iu. destruct Iu as [<-|[<-|[]]]; [rewrite <- Ea; apply nth_In; lia|]. rewrite <- Eb, last_nth by assumption. apply nth_In. lia. }
  assert (Ex : x = xs g) by (apply asc_ext; [assumption|now apply asc_increasing|assumption]).
  assert (Es : sum_functions fs = Some (Tab g)).
  { unfold sum_functions in Eg |- *. rewrite Egs. fold x. rewrite (grids_tabs _ Hlin) in Eg.
    destruct (map xs (map sub fs)) as [|h0 hs] eqn:Eh; [destruct (map sub fs); [congruence|discriminate]|].
    destruct (all_some (map (sum_at (map Tab (map sub fs))) (fold_left union1d hs h0))) as [y|] eqn:Ey; [|discriminate].
    assert (Eg2 : g = tabulated (fold_left union1d hs h0) y) by congruence. rewrite Eg2 in Ex. cbn [tabulated xs] in Ex.
    rewrite (map_ext_in _ (sum_at (map Tab (map sub fs)))).
    - rewrite Ex, Ey. congruence.
    - intros u Iu. apply Xin in Iu. apply Grange in Iu as [R1 R2]. now apply sum_sub. }
  assert (Gt : table g /\ linear g).
  { unfold sum_functions in Es. rewrite Egs in Es. fold x in Es. destruct (all_some (map (sum_at fs) x)) as [y|] eqn:Ey; [|discriminate].
    assert (Eg2 : g = tabulated x y) by congruence. destruct (all_some_map _ 0 _ _ Ey) as [Ly _]. rewrite Eg2. apply tabulated_table; [|assumption|now apply asc_increasing].
    pose proof (Hgood _ It0) as ((T0 & _) & _). pose proof T0 as (H2 & _ & Hx & _). transitivity (length (xs t0)); [assumption|]. apply sub_length; [assumption|].
    intros u Iu. apply Xin, Gin'. exists (Tab t0). now split. }
  destruct Gt as [GT GL].
  assert (Ga : In a (xs g) /\ In b (xs g)).
  { pose proof (Hgood _ It0) as ((T0 & _) & Ea & Eb & _). destruct (nonempty t0 T0) as [Nx _]. destruct T0 as (H2 & _). split; apply Gin'; exists (Tab t0); (split; [assumption|]); cbn [sub].
    - rewrite <- Ea. apply nth_In. lia.
    - rewrite <- Eb, last_nth by assumption. apply nth_In. lia. }
  destruct (nonempty g GT) as [Ng _]. pose proof GT as (G2 & _ & _).
  assert (Ge : nth 0 (xs g) 0 = a /\ last (xs g) 0 = b).
  { destruct Ga as [Ia Ib]. destruct (In_nth _ _ 0 Ia) as (i & Hi & Ei). destruct (In_nth _ _ 0 Ib) as (j & Hj & Ej). split.
    - assert (K : (0 < length (xs g))%nat) by lia. pose proof (Grange _ (nth_In (xs g) 0 K)) as [R0 _]. pose proof (increasing_le _ Gasc i 0 ltac:(lia)). lra.
    - rewrite last_nth by assumption. assert (K : (length (xs g) - 1 < length (xs g))%nat) by lia. pose proof (Grange _ (nth_In (xs g) 0 K)) as [R0 _].
      pose proof (increasing_le _ Gasc (length (xs g) - 1) j ltac:(lia)). lra. }
  exists g. split; [exact Es|]. split; [|split].
  - split; [exact GL|]. split; [apply Ge|]. split; [apply Ge|]. intros u Iu. now apply Grange.
  - intros e He Hc. rewrite (V e). symmetry. now apply sum_sub.
  - intros e He C1 C2. destruct Ge as [Ea Eb]. rewrite (call_out g GT) by (rewrite Ea, Eb; destruct He; [now left|right; lra]).
    rewrite Ea, Eb. now rewrite (near_not _ _ C1), (near_not _ _ C2).
Qed.
End Mix.
