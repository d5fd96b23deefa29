From Coq Require Import ZArith QArith Qcanon List Bool Lia String Permutation.
From Verif Require Import Num Neut_Model Neut_Proofs Hdf_Model Hdf_Spec Hdf_Proofs Nuc_Model Nuc_Spec Nuc_Proofs Temp_Model Temp_Spec.
From Verif Require Sab_Model Sab_Proofs.
Import ListNotations.
Local Open Scope string_scope.
Local Open Scope list_scope.
Local Open Scope Z_scope.

Lemma assign_keys {V} k (v : V) l : In k (map fst l) -> map fst (assign k v l) = map fst l.
Proof.
  induction l as [|[k' v'] l IH]; intros I0; [destruct I0|]. cbn [assign map fst]. destruct (Z.eqb_spec k k') as [->|N]; [reflexivity|]. cbn [map fst]. f_equal. apply IH. destruct I0 as [E|E]; [now destruct N|exact E].
Qed.
Lemma assign_rel {V} (P : Z * V -> Z * V -> Prop) k v v0 : forall l, NoDup (map fst l) -> In (k, v0) l -> (forall e, In e l -> fst e <> k -> P e e) -> P (k, v0) (k, v) -> Forall2 P l (assign k v l).
Proof.
  induction l as [|[k' v'] l IH]; intros N I0 H Hk; [destruct I0|]. cbn [map fst] in N. inversion N as [|? ? N1 N2]. subst. cbn [assign]. destruct (Z.eqb_spec k k') as [->|Ne].
  - destruct I0 as [E|E]; [|exfalso; apply N1; now apply (in_map fst) in E]. injection E as ->. constructor; [exact Hk|].
    assert (G : forall e, In e l -> P e e). { intros e Ie. apply H; [now right|]. intros X. apply N1. rewrite <- X. now apply in_map. }
    clear - G. induction l as [|e l IH]; constructor; [apply G; now left|apply IH; intros e' I'; apply G; now right].
  - constructor; [apply H; [now left|cbn; congruence]|]. apply IH; [exact N2| |intros e Ie; apply H; now right|exact Hk]. destruct I0 as [E|E]; [injection E as -> _; congruence|exact E].
Qed.
Lemma forall2_keys (P : Z * nrx -> Z * nrx -> Prop) l l' : Forall2 P l l' -> (forall e e', P e e' -> fst e' = fst e) -> map fst l' = map fst l.
Proof. intros F H. induction F as [|e e' l l' Pe _ IH]; [reflexivity|]. cbn [map]. now rewrite (H e e' Pe), IH. Qed.
(** The loop: one more reaction of the data each turn. *)
Lemma taken t data : NoDup (map fst (d_rx data)) -> (forall mt r, In (mt, r) (d_rx data) -> look t (x_xs r) <> None) -> forall rx0, NoDup (map fst rx0) ->
  exists rx, loop (take_xs t) (d_rx data) rx0 = Some rx /\ Forall2 (fun e e' => fst e' = fst e /\ more_rx t (fst e) data (snd e) (snd e')) rx0 rx.
Proof.
  destruct data as [en nm z a m w ks gs l us]. cbn [d_rx]. unfold more_rx. cbn [d_rx]. induction l as [|[mt s] l IH] using rev_ind; intros N H rx0 N0.
  - exists rx0. split; [reflexivity|]. clear. induction rx0 as [|e r IH]; constructor; [|exact IH]. cbn [In]. repeat (split; [reflexivity|]). split; [intros ? []|reflexivity].
  - rewrite map_app in N. cbn [map fst] in N. assert (Nl : NoDup (map fst l)) by (apply NoDup_remove_1 in N; now rewrite app_nil_r in N). assert (Nm : ~ In mt (map fst l)) by (apply NoDup_remove_2 in N; now rewrite app_nil_r in N).
    destruct (IH Nl (fun k r I => H k r (in_or_app _ _ _ (or_introl I))) rx0 N0) as (rx & E & F).
    assert (L : forall A B (f : A -> B -> option A) l1 l2 s0, loop f (l1 ++ l2) s0 = match loop f l1 s0 with Some s1 => loop f l2 s1 | None => None end).
    { clear. intros A B f. induction l1 as [|b l1 IH]; intros l2 s0; [reflexivity|]. cbn [app loop]. destruct (f s0 b); [apply IH|reflexivity]. }
    rewrite L, E. cbn [loop]. unfold take_xs. cbn [fst snd]. pose proof (forall2_keys _ _ _ F (fun e e' P => proj1 P)) as K.
    destruct (reaction_at rx mt) as [r|] eqn:R.
    + destruct (look t (x_xs s)) as [x|] eqn:X; [|exfalso; apply (H mt s); [apply in_or_app; right; now left|exact X]]. eexists. split; [reflexivity|]. apply reaction_In in R.
      assert (Nr : NoDup (map fst rx)) by now rewrite K.
      assert (G : Forall2 (fun e e' => fst e' = fst e /\ (fst e <> mt -> e' = e) /\ (fst e = mt -> e' = (mt, put_xs t x (snd e)))) rx (assign mt (put_xs t x r) rx)).
      { apply (assign_rel _ mt _ r); [exact Nr|exact R| |]; cbn [fst snd]; [|repeat split; congruence]. intros e _ Ne. split; [reflexivity|]. split; [reflexivity|congruence]. }
      clear - F G Nm X. revert G. generalize (assign mt (put_xs t x r) rx). intros rx' G. revert rx' G. induction F as [|[k0 r0] [k1 r1] rx0 rx [Ek P] F IH]; intros rx' G; inversion G as [|? e2 ? ? G1 G2]; subst; [constructor|]. constructor; [|now apply IH].
      cbn [fst snd] in *. subst k1. destruct G1 as (Ek & G3 & G4). split; [exact Ek|]. destruct P as (P1 & P2 & P3 & P4 & P5 & P6 & P7 & P8 & P9). destruct (Z.eq_dec k0 mt) as [->|Ne].
      * rewrite (G4 eq_refl). cbn [snd put_xs x_mt x_q x_cm x_redundant x_products x_derived x_xs]. do 6 (split; [assumption|]). split; [|split].
        -- intros k Hk. rewrite Sab_Proofs.look_set. apply String.eqb_neq in Hk. rewrite Hk. apply P7. now apply String.eqb_neq.
        -- intros s' Is. rewrite Sab_Proofs.look_set, String.eqb_refl. apply in_app_or in Is as [Is|[Is|[]]]; [exfalso; apply Nm; now apply (in_map fst) in Is|]. injection Is as <-. now symmetry.
        -- intros Hs. exfalso. apply (Hs s). apply in_or_app. right. now left.
      * rewrite (G3 Ne). cbn [snd]. do 7 (split; [assumption|]). split.
        -- intros s' Is. apply P8. apply in_app_or in Is as [Is|[Is|[]]]; [exact Is|]. injection Is as -> _. congruence.
        -- intros Hs. apply P9. intros s' Is. apply (Hs s'). apply in_or_app. now left.
    + exists rx. split; [reflexivity|]. apply reaction_none in R. rewrite K in R. clear - F R. induction F as [|[k0 r0] [k1 r1] rx0 rx [Ek P] F IH]; constructor; cbn [fst snd map] in *.
      * split; [exact Ek|]. destruct P as (P1 & P2 & P3 & P4 & P5 & P6 & P7 & P8 & P9). do 7 (split; [assumption|]). split.
        -- intros s' Is. apply P8. apply in_app_or in Is as [Is|[Is|[]]]; [exact Is|]. injection Is as -> _. exfalso. apply R. now left.
        -- intros Hs. apply P9. intros s' Is. apply (Hs s'). apply in_or_app. now left.
      * apply IH. intros I0. apply R. now right.
Qed.
Lemma added self data q : at_one q data -> ~ In (kelvin q) (temperatures self) -> d_name data = d_name self -> NoDup (map fst (d_rx self)) ->
  exists d, add_temperature self data = Some d /\ with_temperature (kelvin q) self data d.
Proof.
  intros (K & Es & N & H) Nt Nm Ns. unfold add_temperature. unfold temperatures at 1. rewrite K. cbn [map hd_error]. apply Sab_Proofs.mem_not in Nt. rewrite Nt, Nm, String.eqb_refl. cbn [negb].
  destruct (look (kelvin q) (d_energy data)) as [es|] eqn:E; [|congruence]. destruct (taken (kelvin q) data N H (d_rx self) Ns) as (rx & L & F). rewrite L. eexists. split; [reflexivity|].
  unfold with_temperature. cbn [d_endf d_name d_z d_a d_m d_awr d_kts d_energy d_rx d_urr]. do 6 (split; [reflexivity|]). split; [now rewrite K|]. split; [now rewrite Sab_Proofs.look_set, String.eqb_refl|].
  split; [intros k Hk; rewrite Sab_Proofs.look_set; apply String.eqb_neq in Hk; now rewrite Hk|]. split; [exact F|]. unfold Sab_Model.take_over. destruct (look (kelvin q) (d_urr data)) as [u|] eqn:U.
  - split; [intros _; now rewrite Sab_Proofs.look_set, String.eqb_refl|]. split; [discriminate|]. intros k Hk. rewrite Sab_Proofs.look_set. apply String.eqb_neq in Hk. now rewrite Hk.
  - split; [congruence|]. now split.
Qed.
Lemma again self data q : d_kts data = [q] -> In (kelvin q) (temperatures self) -> add_temperature self data = Some self.
Proof. intros K I0. unfold add_temperature. unfold temperatures at 1. rewrite K. cbn [map hd_error]. apply Sab_Proofs.mem_iff in I0. now rewrite I0. Qed.
Lemma other self data q : d_kts data = [q] -> ~ In (kelvin q) (temperatures self) -> d_name data <> d_name self -> add_temperature self data = None.
Proof. intros K I0 N. unfold add_temperature. unfold temperatures at 1. rewrite K. cbn [map hd_error]. apply Sab_Proofs.mem_not in I0. rewrite I0. apply String.eqb_neq in N. now rewrite N. Qed.
Lemma forall2_in {A B} (P : A -> B -> Prop) l l' b : Forall2 P l l' -> In b l' -> exists a, In a l /\ P a b.
Proof. induction 1 as [|x y l l' Pxy _ IH]; intros I0; [destruct I0|]. destruct I0 as [->|I0]; [exists x; split; [now left|exact Pxy]|]. destruct (IH I0) as (a & Ia & Pa). exists a. split; [now right|exact Pa]. Qed.
Lemma forall2_in_l {A B} (P : A -> B -> Prop) l l' a : Forall2 P l l' -> In a l -> exists b, In b l' /\ P a b.
Proof. induction 1 as [|x y l l' Pxy _ IH]; intros I0; [destruct I0|]. destruct I0 as [->|I0]; [exists y; split; [now left|exact Pxy]|]. destruct (IH I0) as (b & Ib & Pb). exists b. split; [now right|exact Pb]. Qed.
Lemma kept_keys t self data d : with_temperature t self data d -> map fst (d_rx d) = map fst (d_rx self).
Proof. intros (_ & _ & _ & _ & _ & _ & _ & _ & _ & F & _). exact (forall2_keys _ _ _ F (fun e e' P => proj1 P)). Qed.
Lemma temperatures_with q self data d : d_kts data = [q] -> with_temperature (kelvin q) self data d -> temperatures d = temperatures self ++ [kelvin q].
Proof. intros K (_ & _ & _ & _ & _ & _ & Kd & _). unfold temperatures. rewrite Kd, K. apply map_app. Qed.
Lemma set_at_keys {A} k (v : A) l x : In x (map fst (Sab_Model.set_at k v l)) <-> x = k \/ In x (map fst l).
Proof.
  induction l as [|[k' v'] l IH]; cbn [Sab_Model.set_at map fst In]; [intuition congruence|]. destruct (String.eqb_spec k k') as [->|N]; cbn [map fst In]; [intuition congruence|]. rewrite IH. tauto.
Qed.
Lemma set_at_nodup {A} k (v : A) l : NoDup (map fst l) -> NoDup (map fst (Sab_Model.set_at k v l)).
Proof.
  induction l as [|[k' v'] l IH]; intros N; cbn [Sab_Model.set_at map fst]; [constructor; [intros []|constructor]|]. cbn [map fst] in N. inversion N as [|? ? N1 N2]. subst. destruct (String.eqb_spec k k') as [->|Ne]; cbn [map fst]; constructor; auto.
  rewrite set_at_keys. intros [->|X]; [congruence|contradiction].
Qed.
Lemma set_at_in {A} k (v : A) l x : In x (Sab_Model.set_at k v l) -> x = (k, v) \/ In x l.
Proof.
  induction l as [|[k' v'] l IH]; cbn [Sab_Model.set_at]; [intros [<-|[]]; now left|]. destruct (String.eqb k k'); intros [<-|I0]; cbn [In]; auto. destruct (IH I0); auto.
Qed.
Definition keyed (d : nuclide) : Prop := forall mt r, In (mt, r) (d_rx d) -> written r -> NoDup (map fst (x_xs r)).
(** The loop keeps the keys of every reaction apart, and takes tables of the data only. *)
Lemma taken_xs t data l : forall rx0 rx, loop (take_xs t) l rx0 = Some rx -> (forall e, In e l -> In e (d_rx data)) -> forall mt r, In (mt, r) rx ->
  exists r0, In (mt, r0) rx0 /\ (NoDup (map fst (x_xs r0)) -> NoDup (map fst (x_xs r))) /\ forall k x, In (k, x) (x_xs r) -> In (k, x) (x_xs r0) \/ k = t /\ exists s, In (mt, s) (d_rx data) /\ look t (x_xs s) = Some x.
Proof.
  induction l as [|[m s] l IH]; intros rx0 rx E Hd mt r I0; cbn [loop] in E.
  - injection E as <-. exists r. split; [exact I0|]. split; auto.
  - destruct (take_xs t rx0 (m, s)) as [rx1|] eqn:T; [|discriminate]. destruct (IH rx1 rx E (fun e Ie => Hd e (or_intror Ie)) mt r I0) as (r1 & I1 & N1 & X1).
    unfold take_xs in T. cbn [fst snd] in T. destruct (reaction_at rx0 m) as [r0|] eqn:R.
    + destruct (look t (x_xs s)) as [x|] eqn:L; [|discriminate]. injection T as <-.
      assert (G : In (mt, r1) rx0 \/ mt = m /\ r1 = put_xs t x r0).
      { clear - I1. induction rx0 as [|[k v] rx0 IH]; cbn [assign] in I1; [destruct I1 as [I1|[]]; injection I1 as <- <-; now right|]. destruct (m =? k); destruct I1 as [I1|I1]; cbn [In].
        - injection I1 as <- <-. now right.
        - left. now right.
        - left. now left.
        - destruct (IH I1) as [X|X]; [left; now right|now right]. }
      destruct G as [G|[-> ->]]; [exists r1; auto|]. apply reaction_In in R. exists r0. split; [exact R|]. cbn [put_xs x_xs] in N1, X1. split.
      * intros N. apply N1. now apply set_at_nodup.
      * intros k y Iy. destruct (X1 k y Iy) as [Iz|Iz]; [|now right]. apply set_at_in in Iz as [Iz|Iz]; [|now left]. injection Iz as -> ->. right. split; [reflexivity|]. exists s. split; [apply Hd; now left|exact L].
    + injection T as <-. exists r1. auto.
Qed.
Lemma nodup_take {A} t (l m : list (string * A)) : NoDup (map fst m) -> NoDup (map fst (Sab_Model.take_over t l m)).
Proof. intros N. unfold Sab_Model.take_over. destruct (look t l); [now apply set_at_nodup|exact N]. Qed.
Lemma more_written t mt data r r' : more_rx t mt data r r' -> (written r' <-> written r).
Proof. intros (M & _ & _ & R & P & _). unfold written. now rewrite M, R, P. Qed.
Lemma fine_with self data d q : nuclide_fine self -> nuclide_fine data -> at_one q data -> ~ In (kelvin q) (temperatures self) -> covers self data -> add_temperature self data = Some d -> with_temperature (kelvin q) self data d -> nuclide_fine d.
Proof.
  intros Fs Fd A Nt C E W. pose proof A as (K & Es & N & H). pose proof (temperatures_with q self data d K W) as T. pose proof (kept_keys _ _ _ _ W) as Kk. pose proof W as (W1 & W2 & W3 & W4 & W5 & W6 & W7 & W8 & W9 & W10 & W11 & W12 & W13).
  destruct Fs as (S1 & S2 & S3 & S4 & S5 & S6 & S7 & S8 & S9 & S10 & S11). destruct Fd as (_ & _ & _ & _ & _ & _ & _ & D8 & D9 & D10 & D11).
  assert (Eadd : exists rx, loop (take_xs (kelvin q)) (d_rx data) (d_rx self) = Some rx /\ d_rx d = rx /\ d_urr d = Sab_Model.take_over (kelvin q) (d_urr data) (d_urr self)).
  { unfold add_temperature in E. unfold temperatures at 1 in E. rewrite K in E. cbn [map hd_error] in E. apply Sab_Proofs.mem_not in Nt. rewrite Nt in E. destruct (negb _); [discriminate|]. destruct (look _ (d_energy data)); [|discriminate]. destruct (loop _ _ _) as [rx|]; [|discriminate].
    exists rx. split; [reflexivity|]. injection E as <-. cbn [d_rx d_urr]. now split. }
  destruct Eadd as (rx & El & Er & Eu).
  assert (En : forall t, look t (d_energy self) <> None -> look t (d_energy d) <> None).
  { intros t Ht. destruct (string_dec t (kelvin q)) as [->|Ne]; [now rewrite W8|now rewrite W9]. }
  unfold nuclide_fine. rewrite W1, W3, W4, W5, W6, T, Kk. do 5 (split; [assumption|]). split.
  { apply (Permutation_NoDup (Permutation_app_comm [kelvin q] _)). constructor; assumption. }
  split. { intros t I0. apply in_app_or in I0 as [I0|[<-|[]]]; [apply En; now apply S7|now rewrite W8]. }
  split; [exact S8|]. split; [|split].
  - intros mt r' I0. destruct (forall2_in _ _ _ _ W10 I0) as ([mt0 r] & Ir & Ek & M). cbn [fst snd] in Ek, M. subst mt0. destruct (S9 mt r Ir) as (M1 & M2 & M3). pose proof M as (X1 & X2 & X3 & X4 & X5 & X6 & X7 & X8 & X9).
    split; [congruence|]. split; [exact M2|]. intros Wr'. assert (Wr : written r) by now apply (more_written _ _ _ _ _ M). destruct (M3 Wr) as (R1 & R2 & R3 & R4 & R5). destruct (C mt r Ir Wr) as (s & Is & Ws).
    destruct (D9 mt s Is) as (_ & _ & Fs). destruct (Fs Ws) as (_ & _ & Q3 & _).
    rewrite Er in I0. destruct (taken_xs _ data _ _ _ El (fun e Ie => Ie) mt r' I0) as (r0 & I00 & ND & Inx).
    assert (r0 = r) as ->. { pose proof (In_reaction _ _ _ S8 I00) as Y1. pose proof (In_reaction _ _ _ S8 Ir) as Y2. congruence. }
    unfold rx_fine. rewrite T, X5, X6. split; [now apply ND|]. split; [|split; [|now split]].
    + intros t I1. apply in_app_or in I1 as [I1|[<-|[]]]; [|rewrite (X8 s Is); now apply (H mt)]. rewrite X7; [now apply R2|]. intros ->. contradiction.
    + intros t x I1. destruct (Inx t x I1) as [I2|(-> & s' & Is' & L)].
      * destruct (R3 t x I2) as ([G|G] & L & Fx); (split; [unfold gridded; rewrite T|]; [|split; [now apply En|exact Fx]]); [left; apply in_or_app; now left|now right].
      * split; [unfold gridded; rewrite T; left; apply in_or_app; right; now left|]. split; [now rewrite W8|]. assert (s' = s) as -> by (pose proof (In_reaction _ _ _ D8 Is') as Y1; pose proof (In_reaction _ _ _ D8 Is) as Y2; congruence).
        apply look_In in L. exact (proj2 (proj2 (Q3 _ _ L))).
  - rewrite Eu. now apply nodup_take.
  - rewrite Eu. intros t u I0. unfold Sab_Model.take_over in I0. destruct (look (kelvin q) (d_urr data)) as [v|] eqn:U; [|now apply (S11 t)]. apply set_at_in in I0 as [I0|I0]; [|now apply (S11 t)]. injection I0 as -> ->. apply look_In in U. exact (D11 _ _ U).
Qed.
