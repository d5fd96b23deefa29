(** Further proofs about the ACE editor model: order independence (C03),
    confinement (C04), atomicity (C05), exact reading at grid points. *)
From Verif Require Import Num Chi_Model AceEdit_Model AceEdit_Spec AceEdit_Proofs.
From Coq Require Import Permutation.
Local Open Scope Z_scope.

(** * C03: the final table is determined by the set of edits *)

(** What a list of edits with distinct MTs asks of reaction [m]. *)
Definition base (t : table) (E : list (Z * value)) (m : Z) : option tab :=
  match lookup m E, lookup m (reactions t) with
  | Some (VFlat ys), Some r0 =>
      if (length ys =? length (tx r0))%nat then Some (set_y r0 ys) else Some r0
  | _, r => r
  end.

Definition edited (t : table) (E : list (Z * value)) (m : Z) : Prop :=
  exists ys r0, lookup m E = Some (VFlat ys) /\ lookup m (reactions t) = Some r0 /\
                length ys = length (tx r0).

Definition nuE (t : table) (E : list (Z * value)) : option tab :=
  match lookup 452 E, nu t with
  | Some (VFlat ys), Some n => if (length ys =? length (tx n))%nat then Some (set_y n ys) else Some n
  | _, r => r
  end.

Definition chiE (t : table) (E : list (Z * value)) : option (list dist) :=
  match lookup 1018 E, chi t with
  | Some (VChi pdfs), Some ds =>
      if mem 18 (all_mts (open_editor t)) && (length pdfs =? length ds)%nat
      then Some (fst (set_chi ds pdfs)) else Some ds
  | _, r => r
  end.

Record HInv (t : table) (E : list (Z * value)) (s : editor) : Prop := {
  h_inv : Inv t s;
  h_base : forall m, In m (map fst (reactions t)) ->
     (forall p, part_of m p -> In p (map fst (reactions t)) -> ~ In p (adjusted s)) ->
     tabm s m = base t E m /\ (In m (adjusted s) <-> edited t E m);
  h_mono : forall m, edited t E m -> In m (adjusted s);
  h_nu : nu (cur s) = nuE t E;
  h_chi : chi (cur s) = chiE t E }.

Lemma base_edited t E m ys r0 : lookup m E = Some (VFlat ys) -> lookup m (reactions t) = Some r0 ->
  length ys = length (tx r0) -> base t E m = Some (set_y r0 ys).
Proof. intros E1 E2 L. unfold base. now rewrite E1, E2, L, Nat.eqb_refl. Qed.

Lemma HInv_open t : wf_table t -> HInv t [] (open_editor t).
Proof.
  intros Hwf. constructor.
  - now apply Inv_open.
  - intros m Hk _. split; [reflexivity|]. cbn. split; [tauto|]. intros (ys & r0 & H & _). discriminate.
  - intros m (ys & r0 & H & _). discriminate.
  - reflexivity.
  - reflexivity.
Qed.

Lemma lookup_snoc_ne m m' (v : value) E : m' <> m -> lookup m' (E ++ [(m, v)]) = lookup m' E.
Proof.
  intros H. rewrite lookup_app. cbn [lookup]. apply Z.eqb_neq in H. rewrite H.
  now destruct (lookup m' E).
Qed.
Lemma lookup_snoc_eq m (v : value) E : ~ In m (map fst E) -> lookup m (E ++ [(m, v)]) = Some v.
Proof.
  intros H. apply lookup_None in H. rewrite lookup_app, H. cbn. now rewrite Z.eqb_refl.
Qed.

Lemma HInv_ext t E E' s :
  HInv t E s -> (forall m, In m (map fst (reactions t)) -> base t E m = base t E' m) ->
  (forall m, edited t E m <-> edited t E' m) -> nuE t E = nuE t E' -> chiE t E = chiE t E' ->
  HInv t E' s.
Proof.
  intros [I B M N C] Hb He Hn Hc. constructor; auto; try congruence.
  - intros m Hk Hp. destruct (B m Hk Hp) as [H1 H2]. rewrite <- Hb by exact Hk. split; [exact H1|].
    now rewrite H2, He.
  - intros m H. apply M. now apply He.
Qed.

Lemma edited_ne t E m v m' : m' <> m -> (edited t (E ++ [(m, v)]) m' <-> edited t E m').
Proof. intros H. unfold edited. now rewrite lookup_snoc_ne. Qed.
Lemma base_ne t E m v m' : m' <> m -> base t (E ++ [(m, v)]) m' = base t E m'.
Proof. intros H. unfold base. now rewrite lookup_snoc_ne. Qed.
Lemma nuE_ne t E m v : m <> 452 -> nuE t (E ++ [(m, v)]) = nuE t E.
Proof. intros H. unfold nuE. now rewrite lookup_snoc_ne by auto. Qed.
Lemma chiE_ne t E m v : m <> 1018 -> chiE t (E ++ [(m, v)]) = chiE t E.
Proof. intros H. unfold chiE. now rewrite lookup_snoc_ne by auto. Qed.

(** An edit that has no effect on reactions, nu or chi. *)
Lemma HInv_noop t E s m v :
  ~ In m (map fst E) -> HInv t E s ->
  (forall ys r0, v = VFlat ys -> lookup m (reactions t) = Some r0 -> length ys <> length (tx r0)) ->
  (m = 452 -> nuE t (E ++ [(m, v)]) = nu t) ->
  (m = 1018 -> chiE t (E ++ [(m, v)]) = chi t) ->
  HInv t (E ++ [(m, v)]) s.
Proof.
  intros Hni H Hl Hn Hc. pose proof (proj2 (lookup_None m E) Hni) as Hnone.
  apply (HInv_ext t E); auto.
  - intros m' _. destruct (Z.eq_dec m' m) as [->|D]; [|now rewrite base_ne].
    unfold base. rewrite Hnone, lookup_snoc_eq by exact Hni.
    destruct v as [ys|pdfs]; [|now destruct (lookup m (reactions t))].
    destruct (lookup m (reactions t)) as [r0|] eqn:E0; [|reflexivity].
    specialize (Hl ys r0 eq_refl eq_refl). apply Nat.eqb_neq in Hl. now rewrite Hl.
  - intros m'. destruct (Z.eq_dec m' m) as [->|D]; [|now rewrite edited_ne].
    unfold edited. rewrite Hnone, lookup_snoc_eq by exact Hni. split.
    + intros (ys & r0 & K & _). discriminate.
    + intros (ys & r0 & K & K1 & K2). injection K as ->. exfalso. eapply Hl; eauto.
  - destruct (Z.eq_dec m 452) as [->|D]; [|now rewrite nuE_ne].
    rewrite Hn by reflexivity. unfold nuE. now rewrite Hnone.
  - destruct (Z.eq_dec m 1018) as [->|D]; [|now rewrite chiE_ne].
    rewrite Hc by reflexivity. unfold chiE. now rewrite Hnone.
Qed.

Lemma HInv_set t E s m v :
  wf_table t -> HInv t E s -> ~ In m (map fst E) ->
  HInv t (E ++ [(m, v)]) (fst (set_sigma s m v)).
Proof.
  intros Hwf H Hni. pose proof (h_inv _ _ _ H) as I.
  pose proof (proj2 (lookup_None m E) Hni) as Hnone.
  assert (Hk452 : lookup 452 (reactions t) = None).
  { destruct (lookup 452 (reactions t)) eqn:K; [|reflexivity]. destruct (wf_lookup _ _ _ Hwf K). congruence. }
  assert (Hk1018 : lookup 1018 (reactions t) = None).
  { destruct (lookup 1018 (reactions t)) eqn:K; [|reflexivity].
    destruct (wf_lookup _ _ _ Hwf K) as (_ & K2 & _). congruence. }
  pose proof (Inv_set_sigma t s m v I) as I'.
  destruct v as [ys|pdfs].
  - (* flat *)
    destruct (Z.eq_dec m 1018) as [->|Hc].
    { cbn [set_sigma Z.eqb Pos.eqb fst]. apply HInv_noop; auto; try discriminate.
      - intros ys' r0 _ K. congruence.
      - intros _. unfold chiE. rewrite lookup_snoc_eq by exact Hni. now destruct (chi t). }
    destruct (Z.eq_dec m 452) as [->|Hn].
    + pose proof (h_nu _ _ _ H) as Hnu. unfold nuE in Hnu. rewrite Hnone in Hnu.
      destruct (nu t) as [n|] eqn:En.
      * destruct (Nat.eq_dec (length ys) (length (tx n))) as [L|L].
        -- destruct (set_sigma_flat_cases s 452 ys) as [K|[(_ & n' & En' & L' & K)|(K & _)]]; [|clear I'|lia].
           { exfalso. unfold set_sigma, get_energy, get_sigma in K. cbn [Z.eqb Pos.eqb] in K.
             rewrite Hnu in K. cbn [option_map] in K. apply Nat.eqb_eq in L. rewrite L in K.
             cbn [negb] in K. discriminate. }
           pose proof (Inv_set_sigma t s 452 (VFlat ys) I) as I'. rewrite K in *. cbn [fst] in *.
           assert (n' = n) by congruence. subst n'.
           constructor; auto.
           ++ intros m' Hk' Hp. assert (D : m' <> 452).
              { intros ->. apply key_lookup in Hk' as [? ?]. congruence. }
              cbn [adjusted]. rewrite set_add_In, base_ne, edited_ne by auto.
              destruct (h_base _ _ _ H m' Hk') as [B1 B2].
              { intros p Hp1 Hp2 Hp3. apply (Hp p Hp1 Hp2). cbn. apply set_add_In. now right. }
              split; [exact B1|]. rewrite <- B2. tauto.
           ++ intros m' He. cbn [adjusted]. apply set_add_In.
              destruct (Z.eq_dec m' 452) as [->|D]; [now left|]. right.
              apply (h_mono _ _ _ H). now apply edited_ne in He.
           ++ cbn [nu cur]. unfold nuE. rewrite lookup_snoc_eq by exact Hni.
              rewrite En, L, Nat.eqb_refl. reflexivity.
           ++ cbn [chi cur]. rewrite chiE_ne by lia. apply (h_chi _ _ _ H).
        -- assert (K : set_sigma s 452 (VFlat ys) = (s, false)).
           { unfold set_sigma, get_energy. cbn [Z.eqb Pos.eqb]. rewrite Hnu. cbn [option_map].
             apply Nat.eqb_neq in L. now rewrite L. }
           rewrite K. cbn [fst]. apply HInv_noop; auto; try discriminate.
           ++ intros ys' r0 _ K'. congruence.
           ++ intros _. unfold nuE. rewrite lookup_snoc_eq by exact Hni. rewrite En.
              apply Nat.eqb_neq in L. now rewrite L.
      * assert (K : set_sigma s 452 (VFlat ys) = (s, false)).
        { unfold set_sigma, get_energy. cbn [Z.eqb Pos.eqb]. now rewrite Hnu. }
        rewrite K. cbn [fst]. apply HInv_noop; auto; try discriminate.
        -- intros ys' r0 _ K'. congruence.
        -- intros _. unfold nuE. rewrite lookup_snoc_eq by exact Hni. now rewrite En.
    + destruct (set_sigma_flat_cases s m ys) as [K|[(K & _)|(_ & _ & rx & Erx & L & K)]]; [|lia|].
      * rewrite K. cbn [fst]. apply HInv_noop; auto; try lia.
        intros ys' r0 [= <-] E0 L. 
        assert (Hk : In m (map fst (reactions t))) by now apply lookup_Some_key in E0.
        destruct (key_tabm _ _ _ I Hk) as [rx Erx].
        destruct (inv_shape _ _ I m rx Erx) as (r1 & E1 & S1 & _).
        rewrite E0 in E1. injection E1 as <-.
        rewrite (set_sigma_flat s m ys rx) in K by (auto; congruence). discriminate.
      * rewrite K in *. cbn [fst] in *.
        destruct (inv_shape _ _ I m rx Erx) as (r0 & E0 & S0 & _).
        assert (Hme : edited t (E ++ [(m, VFlat ys)]) m).
        { exists ys, r0. rewrite lookup_snoc_eq by exact Hni. repeat split; auto. congruence. }
        assert (Hset : set_y rx ys = set_y r0 ys) by (unfold set_y; now rewrite S0).
        constructor; auto.
        -- intros m' Hk' Hp. cbn [upd adjusted] in Hp |- *. rewrite set_add_In.
           destruct (Z.eq_dec m' m) as [->|D].
           ++ rewrite (tabm_upd_eq _ _ _ _ Erx), Hset. split; [|tauto].
              symmetry. apply base_edited; auto; [now apply lookup_snoc_eq|congruence].
           ++ rewrite tabm_upd_ne, base_ne, edited_ne by auto.
              destruct (h_base _ _ _ H m' Hk') as [B1 B2].
              { intros p Hp1 Hp2 Hp3. apply (Hp p Hp1 Hp2). apply set_add_In. now right. }
              split; [exact B1|]. rewrite <- B2. tauto.
        -- intros m' He. cbn [upd adjusted]. apply set_add_In.
           destruct (Z.eq_dec m' m) as [->|D]; [now left|]. right.
           apply (h_mono _ _ _ H). now apply edited_ne in He.
        -- cbn [upd nu cur]. rewrite nuE_ne by auto. apply (h_nu _ _ _ H).
        -- cbn [upd chi cur]. rewrite chiE_ne by auto. apply (h_chi _ _ _ H).
  - (* chi *)
    destruct (Z.eq_dec m 1018) as [->|Hc].
    2:{ assert (K : set_sigma s m (VChi pdfs) = (s, false)).
        { unfold set_sigma. apply Z.eqb_neq in Hc. now rewrite Hc. }
        rewrite K. cbn [fst]. apply HInv_noop; auto; try congruence.
        intros ->. unfold nuE. rewrite lookup_snoc_eq by exact Hni. now destruct (nu t). }
    pose proof (h_chi _ _ _ H) as Hchi. unfold chiE in Hchi. rewrite Hnone in Hchi.
    destruct (set_sigma_chi_cases s 1018 pdfs) as [K|(_ & H18 & ds & Eds & L & K)].
    + rewrite K. cbn [fst]. apply HInv_noop; auto; try congruence; try lia.
      intros _. unfold chiE. rewrite lookup_snoc_eq by exact Hni.
      destruct (chi t) as [ds|] eqn:Ec; [|reflexivity].
      destruct (mem 18 (all_mts (open_editor t))) eqn:E18; [|reflexivity].
      destruct (Nat.eqb_spec (length pdfs) (length ds)) as [L|L]; [|reflexivity]. cbn [andb].
      unfold set_sigma, chi_energies, get_sigma_chi in K. cbn [Z.eqb Pos.eqb negb] in K.
      rewrite (inv_all _ _ I), E18, Hchi in K. cbn [option_map] in K.
      rewrite map_length in K. apply Nat.eqb_eq in L. rewrite L in K. cbn [negb] in K.
      destruct (set_chi ds pdfs) as [ds' ok] eqn:Esc. injection K as K1 K2. subst ok.
      (* the call raised inside the loop but left no trace: still consistent *)
      rewrite <- K1 in Hchi. cbn [cur chi] in Hchi. exact Hchi.
    + rewrite K in *. cbn [fst] in *. constructor; auto.
      * intros m' Hk' Hp. assert (D : m' <> 1018).
        { intros ->. apply key_lookup in Hk' as [? ?]. congruence. }
        cbn [adjusted] in Hp |- *. rewrite base_ne, edited_ne by auto.
        destruct (h_base _ _ _ H m' Hk') as [B1 B2].
        { intros p Hp1 Hp2 Hp3. apply (Hp p Hp1 Hp2). destruct (snd _); [apply set_add_In; now right|auto]. }
        split; [exact B1|]. rewrite <- B2. destruct (snd _); [rewrite set_add_In|]; tauto.
      * intros m' He. cbn [adjusted].
        assert (D : m' <> 1018).
        { intros ->. destruct He as (? & ? & K1 & K2 & _). congruence. }
        apply edited_ne in He; auto. apply (h_mono _ _ _ H) in He.
        destruct (snd _); [apply set_add_In; now right|auto].
      * cbn [nu cur]. rewrite nuE_ne by lia. apply (h_nu _ _ _ H).
      * cbn [chi cur]. unfold chiE. rewrite lookup_snoc_eq by exact Hni.
        rewrite Hchi in Eds. rewrite Eds. rewrite (inv_all _ _ I) in H18.
        apply mem_In in H18. rewrite H18, L, Nat.eqb_refl. reflexivity.
Qed.

Lemma HInv_rule t E s sm parts :
  wf_table t -> HInv t E s -> In (sm, parts) sum_list -> HInv t E (fst (sum_rule s (sm, parts))).
Proof.
  intros Hwf H Hr. pose proof (h_inv _ _ _ H) as I.
  destruct (rule_ordinary _ _ Hr) as (Ho & N1 & N2).
  destruct (sum_rule_facts t s sm parts Hwf I Ho N1 N2) as (F1 & F2 & F3 & F4 & F5 & F6 & F7 & F8).
  pose proof (sum_rule_cases t s sm parts Hwf I Ho N1 N2) as Hc.
  constructor; auto.
  - intros m Hk Hp. destruct (Z.eq_dec m sm) as [->|D].
    + destruct Hc as [(E0 & _)|(rx & Erx & Hne & E')].
      * rewrite E0 in *. cbn [fst] in *. exact (h_base _ _ _ H sm Hk Hp).
      * exfalso. apply Hne. destruct (adj_of s parts) as [|p r] eqn:Ea; [reflexivity|].
        assert (Hin : In p (adj_of s parts)) by (rewrite Ea; now left).
        apply adj_of_In in Hin as (A & B & C). exfalso. apply (Hp p).
        -- now apply (rule_parts _ _ Hr).
        -- destruct Ho as [O1 O2]. eapply Inv_all_key; eauto; congruence.
        -- now apply F5.
    + rewrite F3, F4 by auto. apply (h_base _ _ _ H m Hk).
      intros p Hp1 Hp2 Hp3. apply (Hp p Hp1 Hp2). now apply F5.
  - intros m He. apply F5. now apply (h_mono _ _ _ H).
  - rewrite F7. apply (h_nu _ _ _ H).
  - rewrite F8. apply (h_chi _ _ _ H).
Qed.

Lemma HInv_rules t E rules : forall s,
  wf_table t -> HInv t E s -> incl rules sum_list -> HInv t E (fst (sum_rules rules s)).
Proof.
  induction rules as [|[sm parts] rest IH]; intros s Hwf H Hi; cbn [sum_rules]; [exact H|].
  assert (Hr : In (sm, parts) sum_list) by (apply Hi; now left).
  pose proof (HInv_rule t E s sm parts Hwf H Hr) as H'.
  destruct (rule_ordinary _ _ Hr) as (Ho & N1 & N2).
  destruct (sum_rule_facts t s sm parts Hwf (h_inv _ _ _ H) Ho N1 N2) as (F1 & _).
  destruct (sum_rule s (sm, parts)) as [s1 ok]. cbn [fst snd] in *. subst ok.
  apply IH; auto. intros r Hr'. apply Hi. now right.
Qed.

Lemma HInv_pass t E s : wf_table t -> HInv t E s -> HInv t E (fst (apply_sum_rules s)).
Proof. intros Hwf H. apply HInv_rules; auto. apply incl_refl. Qed.

Lemma HInv_run t h : forall E s,
  wf_table t -> HInv t E s -> NoDup (map fst (E ++ edits h)) -> HInv t (E ++ edits h) (run s h).
Proof.
  induction h as [|c h IH]; intros E s Hwf H Hnd; cbn [run fold_left edits] in *.
  - now rewrite app_nil_r.
  - destruct c as [m v|]; cbn [edits do_call] in *.
    + change ((m, v) :: edits h) with ([(m, v)] ++ edits h) in *. rewrite app_assoc in *.
      apply IH; auto. apply HInv_set; auto.
      rewrite <- app_assoc, map_app in Hnd. cbn [map app fst] in Hnd.
      apply NoDup_remove_2 in Hnd. intros Hin. apply Hnd. apply in_or_app. now left.
    + apply IH; auto. now apply HInv_pass.
Qed.

Lemma lookup_perm {A} (E E' : list (Z * A)) m :
  Permutation E E' -> NoDup (map fst E) -> lookup m E = lookup m E'.
Proof.
  induction 1 as [|[k v] l l' P IH|[k v] [k' v'] l|l l2 l3 P1 IH1 P2 IH2]; intros Hnd;
    cbn [lookup map fst] in *.
  - reflexivity.
  - inversion Hnd; subst. destruct (Z.eqb m k); auto.
  - inversion Hnd as [|? ? Hni _]; subst. cbn [In] in Hni.
    destruct (Z.eqb_spec m k), (Z.eqb_spec m k'); auto. subst. exfalso. apply Hni. now left.
  - rewrite IH1 by exact Hnd. apply IH2.
    eapply Permutation_NoDup; [apply Permutation_map; exact P1|exact Hnd].
Qed.

Lemma wellordered_app pre rest : wellordered (pre ++ rest) -> wellordered rest.
Proof. induction pre as [|[sm parts] pre IH]; cbn [app wellordered]; [auto|]. intros (_ & _ & _ & H). auto. Qed.

(** Agreement of two states on reaction [m]. *)
Definition agree (s1 s2 : editor) (m : Z) : Prop :=
  tabm s1 m = tabm s2 m /\ (In m (adjusted s1) <-> In m (adjusted s2)).

Definition rested (t : table) (s : editor) : Prop :=
  forall sm parts, In (sm, parts) sum_list ->
    (adj_of s parts = [] \/ ~ In sm (map fst (reactions t)) \/
     (In sm (adjusted s) /\ exists rx, tabm s sm = Some rx /\
        ty rx = map (newval t s sm (adj_of s parts)) (tx rx))).

(** The plain reactions, none of whose present constituents is adjusted, decide. *)
Definition plain (t : table) (s : editor) (m : Z) : Prop :=
  forall p, part_of m p -> In p (map fst (reactions t)) -> ~ In p (adjusted s).
Lemma final_unique_gen t E E' s1 s2 :
  wf_table t -> HInv t E s1 -> HInv t E' s2 -> rested t s1 -> rested t s2 ->
  (forall m, In m (map fst (reactions t)) -> plain t s1 m -> plain t s2 m -> lookup m E = lookup m E') ->
  forall m, In m (map fst (reactions t)) -> agree s1 s2 m.
Proof.
  intros Hwf H1 H2 R1 R2 HE.
  pose proof (h_inv _ _ _ H1) as I1. pose proof (h_inv _ _ _ H2) as I2.
  (* a reaction none of whose present constituents is adjusted in either state *)
  assert (Hplain : forall m, In m (map fst (reactions t)) ->
     (forall p, part_of m p -> In p (map fst (reactions t)) -> ~ In p (adjusted s1)) ->
     (forall p, part_of m p -> In p (map fst (reactions t)) -> ~ In p (adjusted s2)) ->
     agree s1 s2 m).
  { intros m Hk P1 P2. destruct (h_base _ _ _ H1 m Hk P1) as [B1 A1].
    destruct (h_base _ _ _ H2 m Hk P2) as [B2 A2].
    assert (Hbase : base t E m = base t E' m) by (unfold base; now rewrite HE).
    assert (Hed : edited t E m <-> edited t E' m) by (unfold edited; now rewrite HE).
    split; [now rewrite B1, B2, Hbase|]. now rewrite A1, A2, Hed. }
  assert (Hgen : forall pre rest, sum_list = pre ++ rest -> forall m,
     In m (map fst (reactions t)) -> ~ In m (map fst rest) -> agree s1 s2 m).
  { intros pre. induction pre as [|[sm parts] pre IH] using rev_ind; intros rest Hs m Hk Hm.
    - cbn [app] in Hs. subst rest.
      apply Hplain; auto; intros p Hp _ _; apply Hm; destruct (part_of_rule _ _ Hp) as [parts Hr];
        apply (in_map fst) in Hr; exact Hr.
    - rewrite <- app_assoc in Hs. cbn [app] in Hs.
      destruct (Z.eq_dec m sm) as [->|D].
      2:{ apply (IH ((sm, parts) :: rest) Hs m Hk). cbn. intros [->|?]; auto. }
      assert (Hw : wellordered ((sm, parts) :: rest)).
      { apply (wellordered_app pre). rewrite <- Hs. apply sum_list_wellordered. }
      cbn [wellordered] in Hw. destruct Hw as (W1 & _ & W3 & _).
      assert (Hr : In (sm, parts) sum_list) by (rewrite Hs; apply in_or_app; right; now left).
      destruct (rule_ordinary _ _ Hr) as ((O1 & O2) & N1 & N2).
      assert (Hparts : forall p, In p parts -> In p (map fst (reactions t)) -> agree s1 s2 p).
      { intros p Hp Hpk. apply (IH ((sm, parts) :: rest) Hs p Hpk). cbn.
        intros [->|K]; [exact (W1 Hp)|exact (W3 p K Hp)]. }
      assert (Hpk : forall p, In p parts -> In p (all_mts s1) -> In p (map fst (reactions t))).
      { intros p Hp Ha. apply (Inv_all_key t s1 p I1); congruence. }
      assert (Ha : adj_of s1 parts = adj_of s2 parts).
      { assert (Hall : all_mts s1 = all_mts s2) by (rewrite (inv_all _ _ I1), (inv_all _ _ I2); reflexivity).
        unfold adj_of. rewrite <- Hall. unfold present at 1 3. apply filter_ext_in.
        intros p Hp. apply nodup_In, present_In in Hp as [Hp1 Hp2].
        destruct (Hparts p Hp1 (Hpk p Hp1 Hp2)) as [_ A].
        destruct (mem p (adjusted s1)) eqn:X1, (mem p (adjusted s2)) eqn:X2; auto;
          rewrite ?mem_In, ?mem_nIn in *; tauto. }
      destruct (R1 sm parts Hr) as [K|[K|(A1 & rx1 & X1 & Y1)]]; [|contradiction|].
      + assert (Hno : forall s, Inv t s -> adj_of s parts = [] ->
           forall p, part_of sm p -> In p (map fst (reactions t)) -> ~ In p (adjusted s)).
        { intros s I Hnil p Hp Hpk' Hpa. assert (Hin : In p (adj_of s parts)).
          - apply adj_of_In. split; [exact Hpa|]. split; [now apply (rule_parts _ _ Hr)|].
            rewrite (inv_all _ _ I). now apply keys_in_all.
          - rewrite Hnil in Hin. destruct Hin. }
        apply Hplain; auto; apply Hno; auto; congruence.
      + destruct (R2 sm parts Hr) as [K|[K|(A2 & rx2 & X2 & Y2)]]; [|contradiction|].
        * (* constituents edited in one state only: impossible *)
          rewrite <- Ha in K.
          assert (Hno : forall s, Inv t s -> adj_of s parts = [] ->
             forall p, part_of sm p -> In p (map fst (reactions t)) -> ~ In p (adjusted s)).
          { intros s I Hnil p Hp Hpk' Hpa. assert (Hin : In p (adj_of s parts)).
            - apply adj_of_In. split; [exact Hpa|]. split; [now apply (rule_parts _ _ Hr)|].
              rewrite (inv_all _ _ I). now apply keys_in_all.
            - rewrite Hnil in Hin. destruct Hin. }
          apply Hplain; auto; apply Hno; auto; congruence.
        * split; [|tauto]. rewrite X1, X2. f_equal.
          destruct (inv_shape _ _ I1 _ _ X1) as (r1 & Q1 & S1 & _).
          destruct (inv_shape _ _ I2 _ _ X2) as (r2 & Q2 & S2 & _).
          assert (Hx : tx rx1 = tx rx2) by congruence.
          assert (Hy : ty rx1 = ty rx2).
          { rewrite Y1, Y2, Hx, Ha. apply map_ext. intros e. apply newval_ext. intros p Hp.
            apply adj_of_In in Hp as (_ & Hp1 & Hp2).
            assert (Hp2' : In p (all_mts s1)) by (rewrite (inv_all _ _ I1), <- (inv_all _ _ I2); exact Hp2).
            apply (Hparts p Hp1 (Hpk p Hp1 Hp2')). }
          destruct rx1, rx2; cbn in *; congruence. }
  intros m Hk. apply (Hgen sum_list []); auto.
Qed.

Lemma after_pass_final t h : wf_table t -> NoDup (map fst (edits h)) ->
  HInv t (edits h) (after_pass t h) /\ rested t (after_pass t h).
Proof.
  intros Hwf Hnd. split.
  - apply HInv_pass; auto. apply (HInv_run t h []); auto. now apply HInv_open.
  - intros sm parts Hr.
    exact (sum_rules_stable t sum_list _ Hwf (Inv_reach t h Hwf) sum_list_ordinary
             sum_list_wellordered sm parts Hr).
Qed.

Lemma edit_order_gen t h1 h2 :
  wf_table t -> NoDup (map fst (edits h1)) -> NoDup (map fst (edits h2)) ->
  (forall m, In m (map fst (reactions t)) -> plain t (after_pass t h1) m -> plain t (after_pass t h2) m ->
     lookup m (edits h1) = lookup m (edits h2)) ->
  lookup 452 (edits h1) = lookup 452 (edits h2) -> lookup 1018 (edits h1) = lookup 1018 (edits h2) ->
  cur (after_pass t h1) = cur (after_pass t h2) /\
  (forall m, In m (map fst (reactions t)) ->
     (In m (adjusted (after_pass t h1)) <-> In m (adjusted (after_pass t h2)))).
Proof.
  intros Hwf Hnd Hnd2 HE HEn HEc.
  destruct (after_pass_final t h1 Hwf Hnd) as [H1 R1].
  destruct (after_pass_final t h2 Hwf Hnd2) as [H2 R2].
  pose proof (h_inv _ _ _ H1) as I1. pose proof (h_inv _ _ _ H2) as I2.
  pose proof (final_unique_gen t _ _ _ _ Hwf H1 H2 R1 R2 HE) as U.
  split; [|intros m Hk; apply (U m Hk)].
  assert (Hre : reactions (cur (after_pass t h1)) = reactions (cur (after_pass t h2))).
  { apply dict_ext.
    - rewrite (inv_keys _ _ I1). apply Hwf.
    - now rewrite (inv_keys _ _ I1), (inv_keys _ _ I2).
    - intros m. destruct (in_dec Z.eq_dec m (map fst (reactions t))) as [Hk|Hk].
      + apply (U m Hk).
      + assert (X1 : lookup m (reactions (cur (after_pass t h1))) = None)
          by (apply lookup_None; now rewrite (inv_keys _ _ I1)).
        assert (X2 : lookup m (reactions (cur (after_pass t h2))) = None)
          by (apply lookup_None; now rewrite (inv_keys _ _ I2)).
        congruence. }
  pose proof (h_nu _ _ _ H1) as N1. pose proof (h_nu _ _ _ H2) as N2.
  pose proof (h_chi _ _ _ H1) as C1. pose proof (h_chi _ _ _ H2) as C2.
  unfold nuE in *. unfold chiE in *. rewrite HEn in N1. rewrite HEc in C1.
  destruct (cur (after_pass t h1)), (cur (after_pass t h2)). cbn in *. congruence.
Qed.
Lemma edit_order_irrelevant t h1 h2 :
  wf_table t -> NoDup (map fst (edits h1)) -> Permutation (edits h1) (edits h2) ->
  cur (after_pass t h1) = cur (after_pass t h2) /\
  (forall m, In m (map fst (reactions t)) ->
     (In m (adjusted (after_pass t h1)) <-> In m (adjusted (after_pass t h2)))).
Proof.
  intros Hwf Hnd Hp.
  assert (Hnd2 : NoDup (map fst (edits h2))).
  { eapply Permutation_NoDup; [apply Permutation_map; exact Hp|exact Hnd]. }
  apply edit_order_gen; auto; intros; now apply lookup_perm.
Qed.

(** * C04 *)
Lemma adjusted_touched t h : forall (P : Z -> Prop) s,
  wf_table t -> Inv t s ->
  (forall sm m, part_of sm m -> In m (map fst (reactions t)) -> P m -> P sm) ->
  (forall m v, In (SetSigma m v) h -> P m) ->
  (forall m, In m (adjusted s) -> P m) ->
  forall m, In m (adjusted (run s h)) -> P m.
Proof.
  intros P. induction h as [|c h IH]; intros s Hwf I Hcl Hset Hadj; cbn [run fold_left]; [exact Hadj|].
  apply IH; auto.
  - now apply Inv_call.
  - intros m v Hin. apply (Hset m v). now right.
  - destruct c as [m v|]; cbn [do_call].
    + assert (Pm : P m) by (apply (Hset m v); now left).
      intros m' Hm'. destruct v as [ys|pdfs].
      * destruct (set_sigma_flat_cases s m ys) as [K|[(-> & n & _ & _ & K)|(_ & _ & rx & _ & _ & K)]];
          rewrite K in Hm'; cbn in Hm'; auto; apply set_add_In in Hm' as [->|?]; auto.
      * destruct (set_sigma_chi_cases s m pdfs) as [K|(-> & _ & ds & _ & _ & K)];
          rewrite K in Hm'; cbn in Hm'; auto.
        destruct (snd _); auto. apply set_add_In in Hm' as [->|?]; auto.
    + unfold apply_sum_rules. assert (Hi : incl sum_list sum_list) by apply incl_refl. revert Hi.
      generalize sum_list at 1 3 as rules. intros rules. revert s I Hadj.
      induction rules as [|[sm parts] rest IHr]; intros s I Hadj Hi; cbn [sum_rules]; [exact Hadj|].
      assert (Hr : In (sm, parts) sum_list) by (apply Hi; now left).
      destruct (rule_ordinary _ _ Hr) as (Ho & N1 & N2).
      destruct (sum_rule_facts t s sm parts Hwf I Ho N1 N2) as (F1 & F2 & _).
      pose proof (sum_rule_cases t s sm parts Hwf I Ho N1 N2) as Hc.
      destruct (sum_rule s (sm, parts)) as [s1 ok]. cbn [fst snd] in *. subst ok.
      apply IHr; auto; [|intros r K; apply Hi; now right].
      destruct Hc as [(K & _)|(rx & _ & Hne & K)]; injection K as ->; [exact Hadj|].
      intros m Hm. cbn in Hm. apply set_add_In in Hm as [->|Hm]; [|auto].
      destruct (adj_of s parts) as [|p r] eqn:Ea; [congruence|].
      assert (Hin : In p (adj_of s parts)) by (rewrite Ea; now left).
      apply adj_of_In in Hin as (A & B & C).
      apply (Hcl sm p); auto; [now apply (rule_parts _ _ Hr)|].
      destruct Ho as [O1 O2]. eapply Inv_all_key; eauto; congruence.
Qed.

(** nu-bar and the spectrum change only through their own edits. *)
Lemma nu_untouched t h : forall s, wf_table t -> Inv t s ->
  (forall v, ~ In (SetSigma 452 v) h) -> nu (cur (run s h)) = nu (cur s).
Proof.
  induction h as [|c h IH]; intros s Hwf I Hno; cbn [run fold_left]; [reflexivity|].
  change (nu (cur (run (fst (do_call s c)) h)) = nu (cur s)).
  rewrite IH; auto using Inv_call.
  2:{ intros v Hin. apply (Hno v). now right. }
  destruct c as [m v|]; cbn [do_call].
  - destruct v as [ys|pdfs].
    + destruct (set_sigma_flat_cases s m ys) as [K|[(-> & n & _ & _ & K)|(_ & _ & rx & _ & _ & K)]];
        rewrite K; try reflexivity. exfalso. apply (Hno (VFlat ys)). now left.
    + destruct (set_sigma_chi_cases s m pdfs) as [K|(-> & _ & ds & _ & _ & K)]; rewrite K; reflexivity.
  - destruct (sum_rules_facts t sum_list s Hwf I sum_list_ordinary) as (_ & _ & _ & _ & _ & _ & F & _).
    exact F.
Qed.

Lemma chi_untouched t h : forall s, wf_table t -> Inv t s ->
  (forall v, ~ In (SetSigma 1018 v) h) -> chi (cur (run s h)) = chi (cur s).
Proof.
  induction h as [|c h IH]; intros s Hwf I Hno; cbn [run fold_left]; [reflexivity|].
  change (chi (cur (run (fst (do_call s c)) h)) = chi (cur s)).
  rewrite IH; auto using Inv_call.
  2:{ intros v Hin. apply (Hno v). now right. }
  destruct c as [m v|]; cbn [do_call].
  - destruct v as [ys|pdfs].
    + destruct (set_sigma_flat_cases s m ys) as [K|[(-> & n & _ & _ & K)|(_ & _ & rx & _ & _ & K)]];
        rewrite K; reflexivity.
    + destruct (set_sigma_chi_cases s m pdfs) as [K|(-> & _ & ds & _ & _ & K)]; rewrite K; [reflexivity|].
      exfalso. apply (Hno (VChi pdfs)). now left.
  - destruct (sum_rules_facts t sum_list s Hwf I sum_list_ordinary) as (_ & _ & _ & _ & _ & _ & _ & F).
    exact F.
Qed.

Lemma unadjusted_view t h m at_e : wf_table t ->
  get_sigma (run (open_editor t) h) m at_e true = get_sigma (open_editor t) m at_e true.
Proof.
  intros Hwf. pose proof (Inv_reach t h Hwf) as I. unfold get_sigma. rewrite (inv_orig _ _ I). reflexivity.
Qed.

Lemma unadjusted_view_chi t h : wf_table t ->
  get_sigma_chi (run (open_editor t) h) true = get_sigma_chi (open_editor t) true.
Proof.
  intros Hwf. pose proof (Inv_reach t h Hwf) as I. unfold get_sigma_chi.
  rewrite (inv_orig _ _ I), (inv_all _ _ I). reflexivity.
Qed.

Lemma grid_unchanged t h m : wf_table t -> m <> 452 ->
  get_energy (run (open_editor t) h) m = get_energy (open_editor t) m.
Proof.
  intros Hwf N. pose proof (Inv_reach t h Hwf) as I. unfold get_energy. apply Z.eqb_neq in N. rewrite N.
  cbn [open_editor cur]. destruct (lookup m (reactions t)) as [r0|] eqn:E0.
  - assert (Hk : In m (map fst (reactions t))) by now apply lookup_Some_key in E0.
    destruct (key_tabm _ _ _ I Hk) as [rx Erx].
    destruct (inv_shape _ _ I m rx Erx) as (r1 & E1 & S1 & _). unfold tabm in Erx. rewrite Erx. cbn. congruence.
  - assert (Hk : lookup m (reactions (cur (run (open_editor t) h))) = None).
    { apply lookup_None. rewrite (inv_keys _ _ I). now apply lookup_None. }
    now rewrite Hk.
Qed.

Lemma nu_grid_step t s c : wf_table t -> Inv t s ->
  get_energy (fst (do_call s c)) 452 = get_energy s 452.
Proof.
  intros Hwf I. unfold get_energy. cbn [Z.eqb Pos.eqb].
  destruct c as [m v|]; cbn [do_call].
  - destruct v as [ys|pdfs].
    + destruct (set_sigma_flat_cases s m ys) as [K|[(-> & n & En & _ & K)|(_ & _ & rx & _ & _ & K)]];
        rewrite K; try reflexivity. cbn. now rewrite En.
    + destruct (set_sigma_chi_cases s m pdfs) as [K|(-> & _ & ds & _ & _ & K)]; rewrite K; reflexivity.
  - destruct (sum_rules_facts t sum_list s Hwf I sum_list_ordinary) as (_ & _ & _ & _ & _ & _ & F & _).
    unfold apply_sum_rules. now rewrite F.
Qed.

Lemma nu_grid_unchanged t h : forall s, wf_table t -> Inv t s ->
  get_energy (run s h) 452 = get_energy s 452.
Proof.
  induction h as [|c h IH]; intros s Hwf I; cbn [run fold_left]; [reflexivity|].
  change (get_energy (run (fst (do_call s c)) h) 452 = get_energy s 452).
  rewrite IH; auto using Inv_call. now apply (nu_grid_step t).
Qed.

Lemma all_grids_unchanged t h m : wf_table t ->
  get_energy (run (open_editor t) h) m = get_energy (open_editor t) m.
Proof.
  intros Hwf. destruct (Z.eq_dec m 452) as [->|N]; [|now apply grid_unchanged].
  apply (nu_grid_unchanged t); auto. now apply Inv_open.
Qed.

Lemma untouched_keeps t h m : wf_table t -> ~ touched t h m ->
  (forall at_e, get_sigma (run (open_editor t) h) m at_e false = get_sigma (open_editor t) m at_e false) /\
  (m = 1018 -> get_sigma_chi (run (open_editor t) h) false = get_sigma_chi (open_editor t) false).
Proof.
  intros Hwf Hn. pose proof (Inv_reach t h Hwf) as I. split.
  - intros at_e. unfold get_sigma. cbn [open_editor cur].
    destruct (Z.eqb_spec m 452) as [->|N].
    + rewrite (nu_untouched t); auto using Inv_open. intros v Hin. apply Hn. now apply (touched_set t h 452 v).
    + assert (Ht : tabm (run (open_editor t) h) m = lookup m (reactions t)).
      { apply (inv_unadj _ _ I). intros Ha. apply Hn. revert Ha.
        apply (adjusted_touched t h (touched t h)); auto using Inv_open.
        - intros sm p Hp Hk HT. now apply (touched_sum t h sm p).
        - intros m0 v Hin. now apply (touched_set t h m0 v).
        - cbn. tauto. }
      unfold tabm in Ht. now rewrite Ht.
  - intros ->. unfold get_sigma_chi. rewrite (inv_all _ _ I).
    rewrite (chi_untouched t); auto using Inv_open.
    intros v Hin. apply Hn. now apply (touched_set t h 1018 v).
Qed.

(** * C05 *)
Lemma set_sigma_rejects s m ys :
  m <> 1018 ->
  (forall es, get_energy s m = Some es -> length ys <> length es) ->
  set_sigma s m (VFlat ys) = (s, false).
Proof.
  intros Hc H. unfold set_sigma. apply Z.eqb_neq in Hc. rewrite Hc.
  destruct (get_energy s m) as [es|]; [|reflexivity].
  specialize (H es eq_refl). apply Nat.eqb_neq in H. now rewrite H.
Qed.

Lemma set_sigma_accepts s m ys es :
  m <> 1018 -> get_energy s m = Some es -> length ys = length es ->
  let s' := fst (set_sigma s m (VFlat ys)) in
  snd (set_sigma s m (VFlat ys)) = true /\
  get_sigma s' m None false = Some ys /\ In m (adjusted s') /\
  (forall m', m' <> m -> (In m' (adjusted s') <-> In m' (adjusted s))) /\
  (forall m' at_e, m' <> m -> get_sigma s' m' at_e false = get_sigma s m' at_e false) /\
  (forall m' at_e, get_sigma s' m' at_e true = get_sigma s m' at_e true) /\
  (forall m', get_energy s' m' = get_energy s m') /\
  (forall u, get_sigma_chi s' u = get_sigma_chi s u) /\
  (forall m', m' <> m -> lookup m' (original_sigma s') = lookup m' (original_sigma s)) /\
  (lookup m (original_sigma s') =
     match lookup m (original_sigma s) with
     | Some v => Some v
     | None => option_map VFlat (get_sigma s m None false)
     end).
Proof.
  intros Hc He L. cbv zeta.
  assert (Horig : forall v, (forall m', m' <> m -> lookup m' (record_original s m v) = lookup m' (original_sigma s))
     /\ lookup m (record_original s m v) = match lookup m (original_sigma s) with Some w => Some w | None => Some v end).
  { intros v. unfold record_original. destruct (lookup m (original_sigma s)) as [w|] eqn:E; [auto|].
    split.
    - intros m' D. rewrite lookup_app. cbn. apply Z.eqb_neq in D. rewrite D. now destruct (lookup m' _).
    - rewrite lookup_app, E. cbn. now rewrite Z.eqb_refl. }
  destruct (set_sigma_flat_cases s m ys) as [K|[(-> & n & En & L' & K)|(N1 & N2 & rx & Erx & L' & K)]].
  - exfalso. unfold set_sigma in K. pose proof Hc as Hc'. apply Z.eqb_neq in Hc'. rewrite Hc', He in K.
    apply Nat.eqb_eq in L. rewrite L in K. cbn [negb] in K.
    destruct (get_sigma s m None false) eqn:Eg; [discriminate|].
    unfold get_sigma, get_energy in *. destruct (Z.eqb m 452); destruct (nu (cur s)), (lookup m _); discriminate.
  - rewrite K. cbn [fst snd]. destruct (Horig (VFlat (ty n))) as [O1 O2].
    unfold get_sigma, get_energy in *. cbn [cur nu reactions adjusted orig original_sigma Z.eqb Pos.eqb] in *.
    splits; auto.
    + apply set_add_In. now left.
    + intros m' D. rewrite set_add_In. tauto.
    + intros m' at_e D. apply Z.eqb_neq in D. now rewrite D.
    + intros m'. destruct (Z.eqb m' 452); [|reflexivity]. rewrite En. reflexivity.
    + intros []; reflexivity.
    + rewrite O2, En. reflexivity.
  - rewrite K. cbn [fst snd]. destruct (Horig (VFlat (ty rx))) as [O1 O2].
    pose proof N1 as N1'. apply Z.eqb_neq in N1'.
    unfold get_sigma, get_energy in *. rewrite ?N1' in *. unfold tabm in Erx.
    splits; auto.
    + cbn [upd cur reactions]. now rewrite lookup_replace_eq by now apply lookup_Some_key in Erx.
    + cbn. apply set_add_In. now left.
    + intros m' D. cbn. rewrite set_add_In. tauto.
    + intros m' at_e D. cbn [upd cur reactions nu]. now rewrite lookup_replace_ne.
    + intros m'. cbn [upd cur reactions nu]. destruct (Z.eqb m' 452); [reflexivity|].
      destruct (Z.eq_dec m' m) as [->|D]; [|now rewrite lookup_replace_ne].
      rewrite lookup_replace_eq by now apply lookup_Some_key in Erx. now rewrite Erx.
    + intros []; reflexivity.
    + cbn [upd original_sigma]. rewrite O2, Erx. reflexivity.
Qed.

(** What original_sigma records is the evaluated data, in every reachable state. *)
Definition evaluated (t : table) (m : Z) : option value :=
  if Z.eqb m 452 then option_map (fun n => VFlat (ty n)) (nu t)
  else if Z.eqb m 1018 then option_map (fun ds => VChi (map dp ds)) (chi t)
  else option_map (fun r => VFlat (ty r)) (lookup m (reactions t)).

Record OInv (t : table) (s : editor) : Prop := {
  o_rec : forall m v, lookup m (original_sigma s) = Some v -> evaluated t m = Some v;
  o_nu : lookup 452 (original_sigma s) = None -> nu (cur s) = nu t;
  o_chi : lookup 1018 (original_sigma s) = None -> chi (cur s) = chi t }.

Lemma record_cases s m v m' v' :
  lookup m' (record_original s m v) = Some v' ->
  lookup m' (original_sigma s) = Some v' \/ (m' = m /\ v' = v /\ lookup m (original_sigma s) = None).
Proof.
  unfold record_original. destruct (lookup m (original_sigma s)) as [w|] eqn:E; [auto|].
  rewrite lookup_app. destruct (lookup m' (original_sigma s)) as [w'|] eqn:E'; [auto|].
  cbn. destruct (Z.eqb_spec m' m); [|discriminate]. intros [= <-]. auto.
Qed.
Lemma record_None s m v m' : lookup m' (record_original s m v) = None ->
  m' <> m /\ lookup m' (original_sigma s) = None.
Proof.
  unfold record_original. destruct (lookup m (original_sigma s)) as [w|] eqn:E.
  - intros H. split; [congruence|exact H].
  - rewrite lookup_app. destruct (lookup m' (original_sigma s)); [discriminate|].
    cbn. destruct (Z.eqb_spec m' m); [discriminate|auto].
Qed.

Lemma OInv_set t s m v : Inv t s -> OInv t s -> OInv t (fst (set_sigma s m v)).
Proof.
  intros I [O1 O2 O3]. destruct v as [ys|pdfs].
  - destruct (set_sigma_flat_cases s m ys) as [K|[(-> & n & En & L' & K)|(N1 & N2 & rx & Erx & L' & K)]];
      rewrite K; cbn [fst]; [now constructor| |].
    + constructor; cbn [original_sigma cur nu chi].
      * intros m' v' H. apply record_cases in H as [H|(-> & -> & H)]; [auto|].
        unfold evaluated. cbn. rewrite <- O2 by exact H. now rewrite En.
      * intros H. apply record_None in H as [H _]. congruence.
      * intros H. apply record_None in H as [_ H]. auto.
    + constructor; cbn [upd original_sigma cur nu chi].
      * intros m' v' H. apply record_cases in H as [H|(-> & -> & H)]; [auto|].
        unfold evaluated. apply Z.eqb_neq in N1, N2. rewrite N1, N2.
        rewrite <- (inv_unadj _ _ I m); [now rewrite Erx|].
        intros Ha. destruct (inv_adj _ _ I m Ha). congruence.
      * intros H. apply record_None in H as [_ H]. auto.
      * intros H. apply record_None in H as [_ H]. auto.
  - destruct (set_sigma_chi_cases s m pdfs) as [K|(-> & _ & ds & Ed & _ & K)]; rewrite K; cbn [fst];
      [now constructor|].
    constructor; cbn [original_sigma cur nu chi].
    + intros m' v' H. apply record_cases in H as [H|(-> & -> & H)]; [auto|].
      unfold evaluated. cbn. rewrite <- O3 by exact H. now rewrite Ed.
    + intros H. apply record_None in H as [_ H]. auto.
    + intros H. apply record_None in H as [H _]. congruence.
Qed.

Lemma OInv_rules t rules : forall s, wf_table t -> Inv t s -> ordinary_rules rules -> OInv t s ->
  OInv t (fst (sum_rules rules s)).
Proof.
  induction rules as [|[sm parts] rest IH]; intros s Hwf I Ho O; cbn [sum_rules]; [exact O|].
  destruct (Ho sm parts) as (Ho1 & N1 & N2); [now left|].
  destruct (sum_rule_facts t s sm parts Hwf I Ho1 N1 N2) as (F1 & F2 & _).
  assert (O' : OInv t (fst (sum_rule s (sm, parts)))).
  { destruct (sum_rule_cases t s sm parts Hwf I Ho1 N1 N2) as [(-> & _)|(rx & E & _ & ->)]; [exact O|].
    cbn [fst]. pose proof (OInv_set t s sm (VFlat (map (newval t s sm (adj_of s parts)) (tx rx))) I O) as H.
    rewrite (set_sigma_flat s sm _ rx) in H by (auto; now rewrite map_length). exact H. }
  destruct (sum_rule s (sm, parts)) as [s1 ok]. cbn [fst snd] in *. subst ok.
  apply IH; auto. now apply ordinary_rules_tl in Ho.
Qed.

Lemma OInv_run t h : forall s, wf_table t -> Inv t s -> OInv t s -> OInv t (run s h).
Proof.
  induction h as [|c h IH]; intros s Hwf I O; cbn [run fold_left]; [exact O|].
  apply IH; auto using Inv_call. destruct c as [m v|]; cbn [do_call].
  - now apply OInv_set.
  - apply OInv_rules; auto. apply sum_list_ordinary.
Qed.

Lemma recorded_is_evaluated t h m v : wf_table t ->
  lookup m (original_sigma (run (open_editor t) h)) = Some v -> evaluated t m = Some v.
Proof.
  intros Hwf. apply o_rec. apply OInv_run; auto using Inv_open.
  constructor; cbn; congruence.
Qed.
