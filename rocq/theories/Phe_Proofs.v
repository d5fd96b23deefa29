(** What files of photon data say, proofs. *)
From Coq Require Import ZArith QArith Qcanon List Bool Lia String.
From Verif Require Import Num Text Dec Endf_Model Endf_Spec Neut_Model Neut_Spec Neut_Proofs Hdf_Model Atom_Model Atom_Spec Atom_Proofs Phe_Model Phe_Spec.
From Verif Require Sab_Model Sab_Proofs Dcy_Spec Dcy_Proofs Endf2_Proofs Rcov3_Proofs.
Import ListNotations.
Local Open Scope list_scope.
Local Open Scope Z_scope.

(** ** Relaxation *)
Lemma rows_from_ok x : forall ts j, stands x (6 * (j + 1)) (flat_map six ts) ->
  (forall t, In t ts -> (exists n, part (x_second t) n) /\ exists n, part (x_third t) n) ->
  exists rows, rows_from x j (List.length ts) = Some rows /\ Forall2 as_is ts rows.
Proof.
  induction ts as [|t ts IH]; intros j St H; cbn [List.length rows_from]; [exists []; split; [reflexivity|constructor]|].
  destruct (H t (or_introl eq_refl)) as [(a & Pa) (b & Pb)]. cbn [flat_map] in St. unfold six at 1 in St. cbn [app] in St. set (p := 6 * (j + 1)) in *.
  rewrite (int_at_stands _ _ _ _ St), (part_subshell _ _ Pa). apply stands_cons in St as [_ St]. rewrite (int_at_stands _ _ _ _ St), (part_subshell _ _ Pb). apply stands_cons in St as [_ St]. replace (p + 1 + 1) with (p + 2) in St by lia.
  rewrite (at_stands _ _ _ _ St). apply stands_cons in St as [_ St]. replace (p + 2 + 1) with (p + 3) in St by lia. rewrite (at_stands _ _ _ _ St). apply stands_cons in St as [_ St]. apply stands_cons in St as [_ St]. apply stands_cons in St as [_ St].
  destruct (IH (j + 1)) as (rows & E & F); [replace (6 * (j + 1 + 1)) with (p + 3 + 1 + 1 + 1) by (unfold p; lia); exact St|intros u Iu; apply H; now right|].
  rewrite E. eexists. split; [reflexivity|]. constructor; [|exact F]. now exists a, b.
Qed.
Lemma enames_of us : (forall u, In u us -> exists n, named (u_number u) n) -> NoDup (map u_number us) -> exists ns, Forall2 (fun u n => named (u_number u) n) us ns /\ NoDup ns.
Proof.
  intros H ND. set (f := fun u => mkSub (u_number u) 0%Qc 0%Qc [] []). destruct (names_of (map f us)) as (ns & F & N).
  - intros s Is. apply in_map_iff in Is as (u & <- & Iu). now apply H.
  - now rewrite map_map.
  - exists ns. split; [|exact N]. clear - F. remember (map f us) as ss eqn:E. revert us E. induction F as [|s n ss ns Hn F IH]; intros [|u us] E; try discriminate; constructor.
    + cbn [map] in E. injection E as -> _. exact Hn.
    + apply IH. cbn [map] in E. now injection E as _ ->.
Qed.
Lemma items_head u : at_ (items u) 0 = Some (u_binding u) /\ at_ (items u) 1 = Some (u_electrons u) /\ stands (items u) 6 (flat_map six (u_transitions u)).
Proof.
  unfold items. destruct (u_pad u) as [[[a b] c] d]. repeat split. exists [u_binding u; u_electrons u; a; b; c; d], []. now rewrite app_nil_r.
Qed.
Lemma subs_from_ok : forall us ns parts rest r, Forall2 (fun u n => named (u_number u) n) us ns -> Forall2 sub_text us parts -> NoDup ns ->
  (forall n, In n ns -> ~ In n (map fst (r_binding r)) /\ ~ In n (map fst (r_electrons r)) /\ look n (r_transitions r) = None) ->
  (forall u t, In u us -> In t (u_transitions u) -> (exists n, part (x_second t) n) /\ exists n, part (x_third t) n) ->
  exists d, subs_from (List.length us) (concat parts ++ rest) r = Some (mkRelaxation (r_binding r ++ combine ns (map u_binding us)) (r_electrons r ++ combine ns (map u_electrons us)) d) /\
    Forall2 (transits d) us ns /\ forall n, ~ In n ns -> look n d = look n (r_transitions r).
Proof.
  intros us ns parts rest r F. revert parts r. induction F as [|u n us ns Hn F IH]; intros parts r P ND K H; cbn [List.length subs_from map combine].
  - exists (r_transitions r). rewrite !app_nil_r. destruct r. split; [reflexivity|]. split; [constructor|reflexivity].
  - inversion P as [|? p ? parts' (b & i & j & L) P']; subst. inversion ND as [|? ? Nn ND']; subst. cbn [concat]. rewrite <- app_assoc, (Dcy_Proofs.list_at_ok _ _ _ _ _ _ _ (concat parts' ++ rest) L). cbn [c1 n2].
    rewrite int_qz, (named_shell _ _ Hn). destruct (items_head u) as (I0 & I1 & St). rewrite I0, I1.
    destruct (K n (or_introl eq_refl)) as (K1 & K2 & K3). rewrite (set_new _ _ _ K1), (set_new _ _ _ K2).
    assert (H' : forall u0 t, In u0 us -> In t (u_transitions u0) -> (exists n, part (x_second t) n) /\ exists n, part (x_third t) n) by (intros u0 t Iu; apply H; now right).
    assert (exists d, (if 0 <? size (u_transitions u) then match rows_from (items u) 0 (Z.to_nat (size (u_transitions u))) with Some rows => Some (Sab_Model.set_at n rows (r_transitions r)) | None => None end else Some (r_transitions r)) = Some d /\
      (match u_transitions u with [] => look n d = None | _ => exists rows, look n d = Some rows /\ Forall2 as_is (u_transitions u) rows end) /\ forall m, m <> n -> look m d = look m (r_transitions r)) as (d & -> & Dn & Do).
    { destruct (rows_from_ok (items u) (u_transitions u) 0) as (rows & E & Fr); [exact St|intros t It; apply (H u t); [now left|exact It]|].
      destruct (u_transitions u) as [|t ts] eqn:Et; [exists (r_transitions r); repeat split; exact K3|].
      rewrite (proj2 (Z.ltb_lt 0 (size (t :: ts)))) by (unfold size; cbn [List.length]; lia). unfold size. rewrite Nat2Z.id, E. eexists. split; [reflexivity|]. split.
      - exists rows. split; [|exact Fr]. now rewrite Sab_Proofs.look_set, String.eqb_refl.
      - intros m Hm. rewrite Sab_Proofs.look_set. destruct (String.eqb_spec m n) as [->|_]; [contradiction|reflexivity]. }
    destruct (IH parts' (mkRelaxation (r_binding r ++ [(n, u_binding u)]) (r_electrons r ++ [(n, u_electrons u)]) d) P' ND') as (d' & E & Fd & Ko); cbn [r_binding r_electrons r_transitions].
    + intros m Im. assert (m <> n) as Ne by congruence. destruct (K m (or_intror Im)) as (M1 & M2 & M3). rewrite !map_app. cbn [map fst]. split; [|split].
      * intros I2. apply in_app_iff in I2 as [I2|[I2|[]]]; [contradiction|congruence].
      * intros I2. apply in_app_iff in I2 as [I2|[I2|[]]]; [contradiction|congruence].
      * now rewrite Do.
    + exact H'.
    + cbn [r_binding r_electrons r_transitions] in *. exists d'. split; [rewrite E; now rewrite <- !app_assoc|]. split.
      * constructor; [|exact Fd]. unfold transits. destruct (u_transitions u); rewrite (Ko n Nn); exact Dn.
      * intros m Hm. rewrite Ko by (intros Im; apply Hm; now right). apply Do. intros ->. apply Hm. now left.
Qed.
Lemma erelaxation_ok ev us ls : ev 28 533 = Some ls -> relax_text us ls -> esane us ->
  exists r ns, relaxation_from_endf ev = Some r /\ Forall2 (fun u n => named (u_number u) n) us ns /\ NoDup ns /\ r_binding r = combine ns (map u_binding us) /\ r_electrons r = combine ns (map u_electrons us) /\
    Forall2 (transits (r_transitions r)) us ns /\ forall n, ~ In n ns -> look n (r_transitions r) = None.
Proof.
  intros E (h & za & awr & i & j & n & parts & rest & -> & Hc & P) [ND H]. destruct (enames_of us) as (ns & F & Nn); [intros u Iu; apply (H u Iu)|exact ND|].
  unfold relaxation_from_endf. rewrite E, (Rcov3_Proofs.head_record_ok _ _ _ _ _ _ _ _ Hc). unfold size. rewrite Nat2Z.id.
  destruct (subs_from_ok us ns parts rest (mkRelaxation [] [] []) F P Nn) as (d & Es & Fd & K); [cbn; tauto|intros u t Iu It; now apply (H u Iu)|]. rewrite Es. cbn [r_binding r_electrons app]. rewrite !accepted_ok.
  - cbn [andb]. eexists. exists ns. split; [reflexivity|]. cbn [r_binding r_electrons r_transitions]. repeat (split; [first [exact F|exact Nn|reflexivity|exact Fd]|]). exact K.
  - intros v Iv. apply in_map_iff in Iv as (u & <- & Iu). apply (H u Iu).
  - intros v Iv. apply in_map_iff in Iv as (u & <- & Iu). apply (H u Iu).
Qed.
(** Both formats. *)
Lemma part_fun d s s' : part d s -> part d s' -> s = s'.
Proof. intros H K. apply part_subshell in H, K. congruence. Qed.
Lemma adds_rows : forall before xs ts, adds before xs ts -> forall rows rows', Forall2 as_is xs rows -> own before ts rows' -> rows = rows'.
Proof.
  intros before xs ts A. induction A as [before|before x xs t ts E2 E3 Ee Ec A IH]; intros rows rows' F O.
  - inversion F. inversion O. reflexivity.
  - inversion F as [|? y ? rs (j & k & -> & Pj & Pk) Fr]; subst. inversion O as [|? ? j' k' out Pj' Pk' O']; subst. rewrite E2 in Pj'. rewrite E3 in Pk'. rewrite (part_fun _ _ _ Pj Pj'), (part_fun _ _ _ Pk Pk'), Ee. f_equal; [|now apply IH].
    f_equal. rewrite Ec. qclra.
Qed.
Lemma adds_empty before xs ts : adds before xs ts -> xs = [] <-> ts = [].
Proof. intros A. inversion A; subst; split; try reflexivity; discriminate. Qed.
Lemma same_names us ss : Forall2 same us ss -> forall ns ns', Forall2 (fun u n => named (u_number u) n) us ns -> Forall2 (fun s n => named (s_number s) n) ss ns' -> ns = ns'.
Proof.
  intros F. induction F as [|u s us ss (E & _) F IH]; intros ns ns' N N'; inversion N as [|? n ? l Hn Nl]; inversion N' as [|? n' ? l' Hn' Nl']; subst; [reflexivity|]. rewrite E in Hn'. rewrite (named_fun _ _ _ Hn Hn'). f_equal. now apply IH.
Qed.

(** ** Tables *)
Lemma table_text_ok a b t ls : table_text a b t ls -> table_in (Some ls) = Some (Some (a, b, t)).
Proof.
  intros (h & za & awr & i & j & k & n & l & i' & j' & lr & lp & rest & -> & Hh & Hl & L1 & L2 & R1 & R2). unfold table_in. rewrite (Rcov3_Proofs.head_record_ok _ _ _ _ _ _ _ _ Hh).
  rewrite (Endf2_Proofs.get_tab1_ok l a b i' j' (combine (fbp t) (fint t)) (combine (fx t) (fy t)) lr lp rest); [|rewrite !combine_length, L1, L2, !Nat.min_id; exact Hl|exact R1|exact R2].
  assert (S : forall A B (p : list A) (q : list B), List.length q = List.length p -> map fst (combine p q) = p /\ map snd (combine p q) = q).
  { clear. induction p as [|x p IH]; intros [|y q] E; try discriminate; [split; reflexivity|]. cbn [combine map fst snd]. destruct (IH q) as [-> ->]; [now injection E|split; reflexivity]. }
  destruct (S _ _ _ _ L1) as [-> ->]. destruct (S _ _ _ _ L2) as [-> ->]. now destruct t.
Qed.
Lemma has_ok s o : has s o -> table_in s = Some o.
Proof. destruct o as [[[a b] t]|]; cbn [has]; [intros (ls & -> & T); now apply table_text_ok|now intros ->]. Qed.
