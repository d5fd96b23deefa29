(** What NJOY made, proofs. *)
From Coq Require Import ZArith QArith Qcanon List Bool Lia String Permutation.
From Verif Require Import Num Neut_Model Hdf_Model Nuc_Model Nuc_Spec Nuc_Proofs Temp_Model Temp_Spec Temp_Proofs Temp_Props Pendf_Model Pendf_Spec.
From Verif Require Sab_Model Sab_Proofs Cold_Proofs.
Import ListNotations.
Local Open Scope string_scope.
Local Open Scope list_scope.
Local Open Scope Z_scope.

Lemma put_cold_some xs d : In 2 (map fst (d_rx d)) -> exists r d', reaction_at (d_rx d) 2 = Some r /\ put_cold xs d = Some d' /\
  d_endf d' = d_endf d /\ d_name d' = d_name d /\ d_z d' = d_z d /\ d_a d' = d_a d /\ d_m d' = d_m d /\ d_awr d' = d_awr d /\ d_kts d' = d_kts d /\ d_urr d' = d_urr d /\
  d_energy d' = Sab_Model.set_at "0K" (fx xs) (d_energy d) /\ d_rx d' = assign 2 (put_xs "0K" (Table xs None) r) (d_rx d).
Proof.
  intros I0. destruct (reaction_at (d_rx d) 2) as [r|] eqn:R; [|exfalso; unfold reaction_at in R; destruct (find _ (d_rx d)) as [|] eqn:F; [discriminate|]; apply in_map_iff in I0 as ([k s] & Ek & Is); cbn [fst] in Ek; subst k; pose proof (find_none _ _ F _ Is) as H; cbn in H; discriminate].
  exists r. unfold put_cold. rewrite R. eexists. split; [reflexivity|]. split; [reflexivity|]. cbn [d_endf d_name d_z d_a d_m d_awr d_kts d_urr d_energy d_rx]. repeat split.
Qed.
Lemma look_cold xs l k : look k (Sab_Model.set_at "0K" (fx xs) l) = if String.eqb k "0K" then Some (fx xs) else look k l.
Proof. apply Sab_Proofs.look_set. Qed.

(** Loops keep what is fit to be stored. *)
Lemma fine_loop : forall datas qs self d, Forall2 at_one qs datas -> (forall x, In x datas -> d_name x = d_name self) -> NoDup (temperatures self ++ map kelvin qs) ->
  nuclide_fine self -> (forall x, In x datas -> nuclide_fine x /\ covers self x) -> loop add_temperature datas self = Some d -> nuclide_fine d.
Proof.
  intros datas qs self d F. revert self. induction F as [|q data qs datas A F IH]; intros self Nm N Fs H E; cbn [loop] in E; [congruence|].
  cbn [map] in N. assert (Nt : ~ In (kelvin q) (temperatures self)) by (intros I0; apply NoDup_remove_2 in N; apply N; apply in_or_app; now left).
  assert (Ns : NoDup (map fst (d_rx self))) by apply Fs. destruct (added self data q A Nt (Nm data (or_introl eq_refl)) Ns) as (d1 & E1 & W). rewrite E1 in E.
  destruct (H data (or_introl eq_refl)) as [Fd Cd]. pose proof (fine_with self data d1 q Fs Fd A Nt Cd E1 W) as F1. pose proof A as (Kq & _). pose proof (temperatures_with q self data d1 Kq W) as T.
  apply (IH d1).
  - intros x Ix. destruct W as (_ & -> & _). apply Nm. now right.
  - rewrite T, <- app_assoc. exact N.
  - exact F1.
  - intros x Ix. destruct (H x (or_intror Ix)) as [Fx Cx]. split; [exact Fx|]. intros mt r' Ir' Wr'. destruct W as (_ & _ & _ & _ & _ & _ & _ & _ & _ & W10 & _).
    destruct (forall2_in _ _ _ _ W10 Ir') as ([mt0 r] & Ir & Ek & M). cbn [fst snd] in Ek, M. subst mt0. apply (Cx mt r Ir). now apply (more_written _ _ _ _ _ M).
  - exact E.
Qed.
Lemma assign_in {V} k (v : V) l e : In e (assign k v l) -> e = (k, v) \/ (In e l).
Proof.
  induction l as [|[k' v'] l IH]; cbn [assign].
  - intros [<-|[]]. now left.
  - destruct (Z.eqb k k').
    + intros [<-|I0]; [now left|right; now right].
    + intros [<-|I0]; [right; now left|]. destruct (IH I0); [now left|right; now right].
Qed.
Lemma cold_written xs r : written (put_xs "0K" (Table xs None) r) <-> written r.
Proof. reflexivity. Qed.
Lemma fine_cold xs d d' : nuclide_fine d -> put_cold xs d = Some d' -> nuclide_fine d'.
Proof.
  intros F E. assert (I2 : In 2 (map fst (d_rx d))).
  { unfold put_cold in E. destruct (reaction_at (d_rx d) 2) as [r|] eqn:R; [|discriminate]. apply reaction_In in R. now apply (in_map fst) in R. }
  destruct (put_cold_some xs d I2) as (r & d1 & R & E1 & X1 & X2 & X3 & X4 & X5 & X6 & X7 & X8 & X9 & X10). assert (d1 = d') as -> by congruence. clear E1.
  destruct F as (S1 & S2 & S3 & S4 & S5 & S6 & S7 & S8 & S9 & S10 & S11). assert (T : temperatures d' = temperatures d) by (unfold temperatures; now rewrite X7).
  assert (En : forall t, look t (d_energy d) <> None -> look t (d_energy d') <> None) by (intros t Ht; rewrite X9, look_cold; destruct (String.eqb t "0K"); [discriminate|exact Ht]).
  assert (Rf : forall s, rx_fine d s -> rx_fine d' s).
  { intros s (Y1 & Y2 & Y3 & Y4 & Y5). unfold rx_fine, gridded. rewrite T. repeat (split; [assumption|]). split; [|now split]. intros t x I0. destruct (Y3 t x I0) as (G & L & Fx). split; [exact G|]. split; [now apply En|exact Fx]. }
  unfold nuclide_fine. rewrite X1, X3, X4, X5, X6, T, X8, X10. do 6 (split; [assumption|]). split; [intros t I0; apply En; now apply S7|]. split; [rewrite assign_keys by exact I2; exact S8|]. split; [|split; assumption].
  intros mt s I0. apply assign_in in I0 as [I0|I0]; [|destruct (S9 mt s I0) as (Z1 & Z2 & Z3); split; [exact Z1|]; split; [exact Z2|]; intros Ws; apply Rf; now apply Z3].
  injection I0 as -> ->. apply reaction_In in R. destruct (S9 2 r R) as (Z1 & Z2 & Z3). split; [exact Z1|]. split; [exact Z2|]. intros Ws. destruct (Z3 Ws) as (Y1 & Y2 & Y3 & Y4 & Y5).
  unfold rx_fine, gridded. rewrite T. cbn [put_xs x_xs x_products x_derived]. split; [now apply set_at_nodup|]. split; [intros t It; rewrite Sab_Proofs.look_set; destruct (String.eqb t "0K"); [discriminate|now apply Y2]|].
  split; [|now split]. intros t x I0. apply set_at_in in I0 as [I0|I0].
  - injection I0 as -> ->. split; [now right|]. split; [rewrite X9, look_cold; discriminate|exact I].
  - destruct (Y3 t x I0) as (G & L & Fx). split; [exact G|]. split; [now apply En|exact Fx].
Qed.
