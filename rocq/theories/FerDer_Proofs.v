From Coq Require Import Reals ZArith QArith Qcanon List Lia Bool String.
From Verif Require Import Num Neut_Model Hdf_Model Hdf_Spec Hdf_Proofs Fer_Model Fer_Spec FerReal_Proofs FerSum_Proofs.
From Verif Require Tab1d_Model Tab1d_Spec Tab1d_Proofs Tab1dMix_Proofs Tab1dSum_Proofs.
From Coq Require Import Lra.
Import ListNotations.
Local Open Scope list_scope.
Local Open Scope nat_scope.

Section Derived.
Context {D A : Type} (R : readers D A).
Lemma minus_value e : value_at R minus_energy e = Some (- e)%Qc.
Proof. cbn [minus_energy value_at horner]. f_equal. ring. Qed.
Lemma less_energy fs e v : sum_at R (fs ++ [minus_energy]) e = Some v -> exists vs, Forall2 (fun f v => value_at R f e = Some v) fs vs /\ v = (qsum vs - e)%Qc.
Proof.
  intros H. apply values_some in H as (ws & F & ->). apply Forall2_app_inv_l in F as (vs & m & F & M & ->). inversion M as [|? w ? ? Hw M']. subst. inversion M'. subst.
  rewrite minus_value in Hw. assert (w = (- e)%Qc) as -> by congruence. exists vs. split; [exact F|]. rewrite qsum_app. unfold qsum. cbn [fold_right]. ring.
Qed.

(** ** Polynomials *)
Lemma polys_adds fs : Forall isPoly fs -> fs <> [] -> exists c, sum_functions R fs = Some (Poly c) /\ c <> [] /\ forall e, adds R fs 0%Qc (Poly c) e.
Proof.
  intros F N. destruct (sum_polys R fs F N) as (c & E & Nc & _ & V). exists c. split; [exact E|]. split; [exact Nc|]. intros e. eexists. split; [now apply forall_values|].
  cbn [value_at]. rewrite V. f_equal. ring.
Qed.
Lemma polys_less fs c : (forall e, adds R fs 0%Qc (Poly c) e) -> c <> [] -> exists d, sum_functions R [Poly c; minus_energy] = Some (Poly d) /\ forall e, adds R fs e (Poly d) e.
Proof.
  intros H N. destruct (sum_polys R [Poly c; minus_energy]) as (d & E & _ & _ & V); [repeat constructor; [assumption|discriminate]|discriminate|].
  exists d. split; [exact E|]. intros e. destruct (H e) as (vs & F & Ev). exists vs. split; [exact F|]. cbn [value_at] in *. rewrite V. cbn [map coeffs minus_energy horner].
  assert (E1 : horner c e = (qsum vs - 0)%Qc) by congruence. f_equal. unfold qsum at 1. cbn [fold_right]. rewrite E1. ring.
Qed.
Lemma derived_polys r : Forall isPoly (parts r) -> derived R r (fun fs off g => (exists c, g = Poly c) /\ forall e, adds R fs (off e) g e).
Proof.
  intros F. pose proof F as G. unfold parts in G. inversion G as [|? ? G0 G1]. inversion G1 as [|? ? G2 G3]. inversion G3 as [|? ? G4 G5]. inversion G5 as [|? ? G6 G7]. inversion G7 as [|? ? G8 G9].
  inversion G9 as [|? ? G10 G11]. inversion G11 as [|? ? G12 G13]. subst. clear G G1 G3 G5 G7 G9 G11 G13.
  destruct (polys_adds (firstn 6 (parts r))) as (c1 & E1 & N1 & V1); [cbn [firstn parts]; repeat constructor; assumption|discriminate|].
  destruct (polys_adds (parts r) F) as (c2 & E2 & N2 & V2); [discriminate|].
  destruct (sum_polys R [e_fragments r; e_prompt_neutrons r; e_prompt_photons r; minus_energy]) as (c3 & E3 & _ & _ & V3); [repeat constructor; try assumption; discriminate|discriminate|].
  destruct (polys_less _ c1 V1 N1) as (c4 & E4 & V4). destruct (polys_less _ c2 V2 N2) as (c5 & E5 & V5).
  exists (Poly c1), (Poly c2), (Poly c3), (Poly c4), (Poly c5).
  split; [exact E1|]. split; [split; [eexists; reflexivity|exact V1]|]. split; [exact E2|]. split; [split; [eexists; reflexivity|exact V2]|].
  split; [exact E3|]. split.
  { split; [eexists; reflexivity|]. intros e. exists [horner (coeffs (e_fragments r)) e; horner (coeffs (e_prompt_neutrons r)) e; horner (coeffs (e_prompt_photons r)) e]. split.
    - apply (forall_values R [e_fragments r; e_prompt_neutrons r; e_prompt_photons r] e). repeat constructor; assumption.
    - cbn [value_at]. rewrite V3. cbn [map coeffs minus_energy horner]. unfold qsum. cbn [fold_right]. f_equal. ring. }
  split; [unfold q_recoverable, recoverable; cbn [firstn parts] in E1; rewrite E1; exact E4|]. split; [split; [eexists; reflexivity|exact V4]|].
  split; [unfold q_total, total; unfold parts in E2; rewrite E2; exact E5|]. split; [eexists; reflexivity|exact V5].
Qed.

(** ** Tables *)
(** What [derived] is applied to. *)
Definition between (a b : Qc) (fs : list yield) (off : Qc -> Qc) (g : yield) : Prop :=
  (forall e, (a <= e <= b)%Qc -> apart a b e -> adds R fs (off e) g e) /\
  ((exists t, In (Tabd t) fs) -> forall e, (e < a \/ b < e)%Qc -> ~ close e a -> ~ close e b -> value_at R g e = Some 0%Qc).
Lemma minus_spans a b : spans a b minus_energy.
Proof. split; [discriminate|cbn; lia]. Qed.
Lemma sums_between a b fs g : (forall f, In f fs -> spans a b f) -> sums R a b fs g -> between a b fs (fun _ => 0%Qc) g.
Proof.
  intros H (S & V & Z). split; [|intros T; apply (Z T)]. intros e He Ha. destruct (sum_at_some R a b fs e H) as (v & Ev). destruct (values_some R fs e v Ev) as (vs & F & ->).
  exists vs. split; [exact F|]. rewrite V, Ev by assumption. f_equal. ring.
Qed.
Lemma less_between a b fs g h : (forall f, In f fs -> spans a b f) -> sums R a b fs g -> sums R a b [g; minus_energy] h -> between a b fs (fun e => e) h.
Proof.
  intros H (S & V & Z) (S2 & V2 & Z2). split.
  - intros e He Ha. destruct (sum_at_some R a b fs e H) as (v & Ev). destruct (values_some R fs e v Ev) as (vs & F & ->). exists vs. split; [exact F|].
    rewrite V2 by assumption. unfold sum_at. cbn [map]. rewrite V, Ev, minus_value by assumption. cbn [all_some option_map]. unfold qsum at 1. cbn [fold_right]. f_equal. ring.
  - intros T e He N1 N2. destruct (Z T) as [(t & ->) _]. apply Z2; try assumption. exists t. now left.
Qed.
Lemma derived_spans a b r : (forall f, In f (parts r) -> spans a b f) -> ~ close a b -> derived R r (between a b).
Proof.
  intros H C.
  assert (H6 : forall f, In f (firstn 6 (parts r)) -> spans a b f) by (intros f If; apply H; cbn [firstn parts In] in *; tauto).
  destruct (sum_spans R a b (firstn 6 (parts r)) H6) as (g1 & E1 & S1); [discriminate|assumption|].
  destruct (sum_spans R a b (parts r) H) as (g2 & E2 & S2); [discriminate|assumption|].
  assert (H3 : forall f, In f ([e_fragments r; e_prompt_neutrons r; e_prompt_photons r] ++ [minus_energy]) -> spans a b f)
    by (intros f If; cbn [app In] in If; destruct If as [<-|[<-|[<-|[<-|[]]]]]; try apply minus_spans; apply H; cbn [parts In]; auto).
  destruct (sum_spans R a b _ H3) as (g3 & E3 & S3); [discriminate|assumption|].
  destruct (sum_spans R a b [g1; minus_energy]) as (g4 & E4 & S4); [intros f [<-|[<-|[]]]; [apply S1|apply minus_spans]|discriminate|assumption|].
  destruct (sum_spans R a b [g2; minus_energy]) as (g5 & E5 & S5); [intros f [<-|[<-|[]]]; [apply S2|apply minus_spans]|discriminate|assumption|].
  exists g1, g2, g3, g4, g5. split; [exact E1|]. split; [now apply sums_between|]. split; [exact E2|]. split; [now apply sums_between|]. split; [exact E3|]. split.
  { destruct S3 as (Sp & V & Z). split.
    - intros e He Ha. destruct (sum_at_some R a b _ e H3) as (v & Ev). destruct (less_energy _ _ _ Ev) as (vs & F & ->). exists vs. split; [exact F|]. now rewrite V, Ev.
    - intros (t & T). apply Z. exists t. apply in_or_app. now left. }
  split; [unfold q_recoverable, recoverable; cbn [firstn parts] in E1; rewrite E1; exact E4|]. split; [now apply (less_between a b _ g1)|].
  split; [unfold q_total, total; unfold parts in E2; rewrite E2; exact E5|]. now apply (less_between a b _ g2).
Qed.
Lemma sum_curved fs t s : In (Tabd t) fs -> In s (fint t) -> s <> 2%Z -> sum_functions R fs = None.
Proof.
  intros It Is N. unfold sum_functions. assert (E : grids fs = None); [|now rewrite E]. induction fs as [|f fs IH]; [destruct It|]. destruct It as [->|It].
  - cbn [grids]. assert (E : forallb (Z.eqb 2) (fint t) = false); [|now rewrite E]. destruct (forallb (Z.eqb 2) (fint t)) eqn:E; [|reflexivity].
    rewrite forallb_forall in E. apply E, Z.eqb_eq in Is. congruence.
  - cbn [grids]. destruct f; [now apply IH|]. rewrite (IH It). destruct (_ && _); reflexivity.
Qed.
Lemma sum_fine fs g : sum_functions R fs = Some g -> yield_fine g.
Proof.
  unfold sum_functions. destruct (grids fs) as [[|g0 gs]|]; [| |discriminate].
  - destruct (fold_right cadd [] (map coeffs fs)) as [|c0 c]; [discriminate|]. intros E. assert (g = Poly (c0 :: c)) as -> by congruence. exact I.
  - destruct (all_some _) as [y|] eqn:E; [|discriminate]. intros E1. assert (g = Tabd (linear (fold_left union1d gs g0) y)) as -> by congruence.
    cbn [yield_fine]. unfold fn_fine, linear. cbn [fx fy]. clear E1. revert y E. induction (fold_left union1d gs g0) as [|x l IH]; intros y; cbn [map all_some]; [intros [= <-]; reflexivity|].
    destruct (sum_at R fs x) as [v|]; [|discriminate]. destruct (all_some (map _ l)) as [w|]; [|discriminate]. cbn [option_map]. intros E. assert (y = v :: w) as -> by congruence.
    cbn [List.length]. f_equal. now apply IH.
Qed.

(** ** Between the points of a table *)
Lemma table_value t i e : linear_table t -> ~ close (nth 0 (fx t) 0%Qc) (last (fx t) 0%Qc) -> S i < List.length (fx t) ->
  (nth i (fx t) 0 <= e <= nth (S i) (fx t) 0)%Qc -> apart (nth 0 (fx t) 0%Qc) (last (fx t) 0%Qc) e ->
  value_at R (Tabd t) e = Some (nth i (fy t) 0 + (e - nth i (fx t) 0) / (nth (S i) (fx t) 0 - nth i (fx t) 0) * (nth (S i) (fy t) 0 - nth i (fy t) 0))%Qc.
Proof.
  intros L C Hi [H1 H2] Ha. apply option_qr. assert (St : straight (Tabd t)) by (destruct L as (_ & _ & _ & _ & _ & _ & _ & H8); exact H8). rewrite <- (value_real R (Tabd t) e St). cbn [ry Tab1d_Model.func_at].
  pose proof (proj2 (linear_real t) L) as LR. rewrite (Tab1dSum_Proofs.val_call _ _ (proj1 LR)).
  rewrite (Tab1dSum_Proofs.val_lin (rl t) i (qr e) LR); cbn [rl Tab1d_Model.xs Tab1d_Model.ys].
  - rewrite !nth_real, qr_add, qr_mul, qr_div, !qr_sub. reflexivity.
  - now rewrite nth_real, last_real, close_real.
  - now rewrite map_length.
  - rewrite !nth_real. split; now apply qr_le.
  - unfold Tab1dSum_Proofs.clean. cbn [rl Tab1d_Model.xs]. rewrite nth_real, last_real. apply apart_real. exact Ha.
Qed.
Lemma bracket l e : rising l -> 2 <= List.length l -> (nth 0 l 0 <= e <= last l 0)%Qc -> exists i, S i < List.length l /\ (nth i l 0 <= e <= nth (S i) l 0)%Qc.
Proof.
  induction l as [|x l IH]; [cbn; lia|]. intros Hr Hl [H1 H2]. destruct l as [|y l]; [cbn in Hl; lia|]. destruct (qleb_spec e y) as [L|L].
  - exists 0. split; [cbn; lia|]. now split.
  - destruct l as [|z l].
    + exfalso. apply L. exact H2.
    + destruct IH as (i & Hi & Hv).
      * intros i Hi. apply (Hr (S i)). cbn [List.length] in *. lia.
      * cbn. lia.
      * split; [|exact H2]. cbn [nth]. apply Qclt_le_weak, Qcnot_le_lt, L.
      * exists (S i). split; [cbn [List.length] in *; lia|exact Hv].
Qed.
Lemma neutrons_between e0 t f e v : by_neutrons e0 (Tabd t) f -> linear_table t -> ~ close (nth 0 (fx t) 0%Qc) (last (fx t) 0%Qc) ->
  (nth 0 (fx t) 0 <= e <= last (fx t) 0)%Qc -> apart (nth 0 (fx t) 0%Qc) (last (fx t) 0%Qc) e -> value_at R (Tabd t) e = Some v ->
  value_at R f e = Some (e0 + qc 1307 1000 * e - qz 8070000 * (v - nth 0 (fy t) 0))%Qc.
Proof.
  intros (ys & -> & Ly & Y) L C He Ha. pose proof L as (H2 & Hy & Hr & H4 & H5 & H6 & H7 & H8).
  destruct (bracket (fx t) e Hr H2 He) as (i & Hi & Hv). rewrite (table_value t i e L C Hi Hv Ha). intros Ev.
  set (f := mkFn (fx t) ys (fbp t) (fint t)).
  assert (Lf : linear_table f) by (repeat split; assumption).
  rewrite (table_value f i e Lf C Hi Hv Ha). f_equal. cbn [f fx fy]. rewrite (Y i), (Y (S i)) by lia.
  assert (N : (nth (S i) (fx t) 0 - nth i (fx t) 0)%Qc <> 0%Qc).
  { intros E. pose proof (Hr i Hi) as Q. apply (Qclt_not_eq _ _ Q). assert (E2 : nth (S i) (fx t) 0%Qc = (nth (S i) (fx t) 0 - nth i (fx t) 0 + nth i (fx t) 0)%Qc) by ring. rewrite E2, E. ring. }
  assert (Ev2 : v = (nth i (fy t) 0 + (e - nth i (fx t) 0) / (nth (S i) (fx t) 0 - nth i (fx t) 0) * (nth (S i) (fy t) 0 - nth i (fy t) 0))%Qc) by congruence.
  rewrite Ev2. field. exact N.
Qed.

(** ** HDF5 *)
Lemma put_inv k f at_ d ks n : put k f (Node at_ d ks) = Some n -> exists c, yield_of c = Some f /\ look k ks = None /\ n = Node at_ d (ks ++ [(k, c)]).
Proof.
  unfold put. destruct (yield_node f) as [c|] eqn:E; [|discriminate]. cbn [create]. destruct (look k ks) eqn:L; [discriminate|]. intros E1. exists c. split; [|split; [reflexivity|congruence]].
  assert (F : yield_fine f) by (destruct f as [p|t]; [exact I|]; cbn [yield_node] in E; unfold fn_node in E; destruct (Nat.eqb_spec (List.length (fx t)) (List.length (fy t))); [assumption|discriminate]).
  destruct (yield_back f F) as (c' & E2 & E3). congruence.
Qed.
Lemma put_ok k f at_ d ks : yield_fine f -> look k ks = None -> exists c, put k f (Node at_ d ks) = Some (Node at_ d (ks ++ [(k, c)])).
Proof. intros F L. destruct (yield_back f F) as (c & E & _). exists c. unfold put. rewrite E. cbn [create]. now rewrite L. Qed.
Lemma to_hdf5_inv r at_ d ks n : to_hdf5 R r (Node at_ d ks) = Some n ->
  exists p q c0 c1 c2 c3 c4 c5 c6 c7 c8, q_prompt R r = Some p /\ q_recoverable R r = Some q /\ (forall k, In k stored_names -> look k ks = None) /\
    n = Node at_ d (ks ++ combine stored_names [c0; c1; c2; c3; c4; c5; c6; c7; c8]) /\
    yield_of c0 = Some (e_fragments r) /\ yield_of c1 = Some (e_prompt_neutrons r) /\ yield_of c2 = Some (e_delayed_neutrons r) /\ yield_of c3 = Some (e_prompt_photons r) /\
    yield_of c4 = Some (e_delayed_photons r) /\ yield_of c5 = Some (e_betas r) /\ yield_of c6 = Some (e_neutrinos r) /\ yield_of c7 = Some p /\ yield_of c8 = Some q.
Proof.
  unfold to_hdf5. intros H.
  destruct (put "fragments" _ _) as [n0|] eqn:P0; [|discriminate]. apply put_inv in P0 as (c0 & Y0 & L0 & ->).
  destruct (put "prompt_neutrons" _ _) as [n1|] eqn:P1; [|discriminate]. apply put_inv in P1 as (c1 & Y1 & L1 & ->).
  destruct (put "delayed_neutrons" _ _) as [n2|] eqn:P2; [|discriminate]. apply put_inv in P2 as (c2 & Y2 & L2 & ->).
  destruct (put "prompt_photons" _ _) as [n3|] eqn:P3; [|discriminate]. apply put_inv in P3 as (c3 & Y3 & L3 & ->).
  destruct (put "delayed_photons" _ _) as [n4|] eqn:P4; [|discriminate]. apply put_inv in P4 as (c4 & Y4 & L4 & ->).
  destruct (put "betas" _ _) as [n5|] eqn:P5; [|discriminate]. apply put_inv in P5 as (c5 & Y5 & L5 & ->).
  destruct (put "neutrinos" _ _) as [n6|] eqn:P6; [|discriminate]. apply put_inv in P6 as (c6 & Y6 & L6 & ->).
  destruct (q_prompt R r) as [p|]; [|discriminate].
  destruct (put "q_prompt" _ _) as [n7|] eqn:P7; [|discriminate]. apply put_inv in P7 as (c7 & Y7 & L7 & ->).
  destruct (q_recoverable R r) as [q|]; [|discriminate]. apply put_inv in H as (c8 & Y8 & L8 & ->).
  exists p, q, c0, c1, c2, c3, c4, c5, c6, c7, c8. split; [reflexivity|]. split; [reflexivity|]. split.
  - rewrite !look_app_ne in L1 by reflexivity. rewrite !look_app_ne in L2 by reflexivity. rewrite !look_app_ne in L3 by reflexivity. rewrite !look_app_ne in L4 by reflexivity.
    rewrite !look_app_ne in L5 by reflexivity. rewrite !look_app_ne in L6 by reflexivity. rewrite !look_app_ne in L7 by reflexivity. rewrite !look_app_ne in L8 by reflexivity. intros k Ik. cbn [stored_names In] in Ik. repeat (destruct Ik as [<-|Ik]; [assumption|]). destruct Ik.
  - split; [|repeat (split; [assumption|]); assumption]. f_equal. rewrite <- !app_assoc. reflexivity.
Qed.
Lemma look_app_skip {B} k (l m : list (string * B)) : look k l = None -> look k (l ++ m) = look k m.
Proof. induction l as [|[k' b] l IH]; [reflexivity|]. cbn [look app]. destruct (String.eqb k k'); [discriminate|exact IH]. Qed.
Lemma look_app_hit {B} k (l m : list (string * B)) v : look k l = Some v -> look k (l ++ m) = Some v.
Proof. induction l as [|[k' b] l IH]; [discriminate|]. cbn [look app]. destruct (String.eqb k k'); [auto|exact IH]. Qed.
Lemma look_out {B} k ns : forall (l : list B), ~ In k ns -> look k (combine ns l) = None.
Proof.
  induction ns as [|x ns IH]; intros [|b l] H; try reflexivity. cbn [combine look]. destruct (String.eqb_spec k x) as [->|N]; [exfalso; apply H; now left|]. apply IH. intros I. apply H. now right.
Qed.
Lemma stored_back r at_ d ks n : to_hdf5 R r (Node at_ d ks) = Some n ->
  from_hdf5 n = Some r /\ q_prompt R r = get "q_prompt" n /\ q_prompt R r <> None /\ q_recoverable R r = get "q_recoverable" n /\ q_recoverable R r <> None /\
  forall k, ~ In k stored_names -> kid n k = look k ks.
Proof.
  intros H. apply to_hdf5_inv in H as (p & q & c0 & c1 & c2 & c3 & c4 & c5 & c6 & c7 & c8 & Ep & Eq & L & -> & Y0 & Y1 & Y2 & Y3 & Y4 & Y5 & Y6 & Y7 & Y8).
  assert (K : forall k v, In k stored_names -> look k (combine stored_names [c0; c1; c2; c3; c4; c5; c6; c7; c8]) = v ->
    get k (Node at_ d (ks ++ combine stored_names [c0; c1; c2; c3; c4; c5; c6; c7; c8])) = match v with Some c => yield_of c | None => None end)
    by (intros k v Ik E; unfold get; cbn [kid]; rewrite (look_app_skip k ks _ (L k Ik)), E; reflexivity).
  split; [|split; [|split; [|split; [|split]]]]; try congruence.
  - unfold from_hdf5.
    rewrite (K "fragments"%string (Some c0)), (K "prompt_neutrons"%string (Some c1)), (K "delayed_neutrons"%string (Some c2)), (K "prompt_photons"%string (Some c3)),
      (K "delayed_photons"%string (Some c4)), (K "betas"%string (Some c5)), (K "neutrinos"%string (Some c6)) by (reflexivity || (cbn; tauto)).
    rewrite Y0, Y1, Y2, Y3, Y4, Y5, Y6. destruct r; reflexivity.
  - rewrite (K "q_prompt"%string (Some c7)) by (reflexivity || (cbn; tauto)). congruence.
  - rewrite (K "q_recoverable"%string (Some c8)) by (reflexivity || (cbn; tauto)). congruence.
  - intros k Nk. cbn [kid]. destruct (look k ks) as [v|] eqn:E; [now apply look_app_hit|]. rewrite (look_app_skip k ks _ E). now apply look_out.
Qed.
Lemma to_hdf5_ok r at_ d ks p q : Forall yield_fine (parts r) -> (forall k, In k stored_names -> look k ks = None) -> q_prompt R r = Some p -> q_recoverable R r = Some q ->
  exists n, to_hdf5 R r (Node at_ d ks) = Some n.
Proof.
  intros F L Ep Eq. unfold parts in F. inversion F as [|? ? G0 G1]. inversion G1 as [|? ? G2 G3]. inversion G3 as [|? ? G4 G5]. inversion G5 as [|? ? G6 G7]. inversion G7 as [|? ? G8 G9].
  inversion G9 as [|? ? G10 G11]. inversion G11 as [|? ? G12 G13]. subst. clear G1 G3 G5 G7 G9 G11 G13.
  assert (Fp : yield_fine p) by (eapply sum_fine; exact Ep).
  assert (Fq : yield_fine q) by (unfold q_recoverable in Eq; destruct (recoverable R r) as [f|]; [|discriminate]; eapply sum_fine; exact Eq).
  unfold to_hdf5.
  Ltac put_step k f := match goal with |- context [put k f (Node ?a ?d ?l)] => let c := fresh "c" in let E := fresh "E" in
    destruct (put_ok k f a d l) as (c & E); [assumption|rewrite ?look_app_ne by reflexivity; match goal with L : forall k, In k stored_names -> _ |- _ => apply L end; cbn; tauto|rewrite E; clear E] end.
  put_step "fragments"%string (e_fragments r). put_step "prompt_neutrons"%string (e_prompt_neutrons r). put_step "delayed_neutrons"%string (e_delayed_neutrons r).
  put_step "prompt_photons"%string (e_prompt_photons r). put_step "delayed_photons"%string (e_delayed_photons r). put_step "betas"%string (e_betas r). put_step "neutrinos"%string (e_neutrinos r).
  rewrite Ep. put_step "q_prompt"%string p. rewrite Eq. put_step "q_recoverable"%string q. eexists. reflexivity.
Qed.
End Derived.
