(** C82, C83, C84: energy released by fission. *)
From Coq Require Import ZArith NArith QArith Qcanon List Lia Bool String.
From Verif Require Import Num Text Dec Endf_Model Endf_Spec Endf_Props Neut_Model Hdf_Model Hdf_Spec Fer_Model Fer_Spec Fer_Proofs FerReal_Proofs FerSum_Proofs FerDer_Proofs.
From Verif Require Import Dcy_Spec Dcy_Props.
From Verif Require Endf2_Proofs Dcy_Proofs.
Import ListNotations.
Local Open Scope list_scope.
Local Open Scope nat_scope.

(** ** C82: reading *)
(** The seven quantities: by table, by polynomial, or by the formulas of Sher and Beck. *)
Theorem C82_read : forall D A target (rs : list (Z * reaction (D := D) (A := A))) lfc os ts ls nu, section_text lfc os ts ls ->
  (List.length os = 1 -> exists r, fission_in rs r /\ sole (r_products r) nu /\ fine_nu nu) ->
  (lfc = 1%Z -> Forall (fun p => 1 <= fst p <= 7)%Z ts) ->
  exists r, from_endf target true (Some ls) target rs = Some r /\
    forall i, i < 7 -> match tabulated_as i (if (lfc =? 1)%Z then ts else []) with
                       | Some t => nth i (parts r) (Poly []) = Tabd t
                       | None => given nu i os (nth i (parts r) (Poly []))
                       end.
Proof.
  intros D A target rs lfc os ts ls nu H Hnu Ht. apply (from_endf_ok target rs lfc os ts ls nu H); [|assumption].
  intros H1. destruct (Hnu H1) as (r & F & S & N). split; [apply F|eauto].
Qed.
Print Assumptions C82_read.
(** The energy of the prompt neutrons follows the number of neutrons also between the points. *)
Theorem C82_between : forall D A (R : readers D A) e0 t f e v, by_neutrons e0 (Tabd t) f -> linear_table t -> ~ close (nth 0 (fx t) 0%Qc) (last (fx t) 0%Qc) ->
  (nth 0 (fx t) 0 <= e <= last (fx t) 0)%Qc -> Fer_Spec.apart (nth 0 (fx t) 0%Qc) (last (fx t) 0%Qc) e -> value_at R (Tabd t) e = Some v ->
  value_at R f e = Some (e0 + qc 1307 1000 * e - qz 8070000 * (v - nth 0 (fy t) 0))%Qc.
Proof. exact @neutrons_between. Qed.
Print Assumptions C82_between.
(** Data of different nuclides, of one without fission, without the section. *)
Theorem C82_refused : forall D A target fissionable section nuc (rs : list (Z * reaction (D := D) (A := A))),
  target <> nuc \/ fissionable = false \/ section = None -> from_endf target fissionable section nuc rs = None.
Proof.
  intros D A [z a m] fi s [z' a' m'] rs H. unfold from_endf. cbn [z_of a_of m_of].
  destruct (Z.eqb_spec z z') as [->|]; [|reflexivity]. destruct (Z.eqb_spec a a') as [->|]; [|reflexivity]. destruct (Z.eqb_spec m m') as [->|]; [|reflexivity].
  cbn [negb]. destruct H as [H|[->| ->]]; [congruence|reflexivity|destruct fi; reflexivity].
Qed.
Print Assumptions C82_refused.
(** Single coefficients, and no number of neutrons, or more than one. *)
Theorem C82_neutrons : forall D A target (rs : list (Z * reaction (D := D) (A := A))) lfc o ts ls, section_text lfc [o] ts ls -> NoDup (map fst rs) ->
  ~ (exists r nu, fission_in rs r /\ sole (r_products r) nu) -> from_endf target true (Some ls) target rs = None.
Proof.
  intros D A target rs lfc o ts ls (h & za & awr & i & n & a & b & i' & n' & k1 & k2 & -> & Hc & No & F & Hl & Ht) N H.
  unfold from_endf. rewrite !Z.eqb_refl. cbn [negb]. rewrite (Endf2_Proofs.get_cont_ok _ _ _ _ _ _ _ _ Hc).
  rewrite (Dcy_Proofs.list_at_ok _ _ _ _ _ _ _ k2 Hl). cbn [l2 n2].
  assert (E : nu_data rs = None).
  { destruct (nu_data rs) as [nu|] eqn:E; [|reflexivity]. apply (nu_data_iff _ _ N) in E as (r & E1 & E2). exfalso. apply H. eauto. }
  assert (C : components rs (Z.of_nat (List.length [o]) - 1) (flat_map entries [o]) 0 names = None); [|now rewrite C].
  change (Z.of_nat (List.length [o]) - 1)%Z with 0%Z. unfold names. cbn [components String.eqb Ascii.eqb Bool.eqb orb].
  assert (C : component rs 0 (flat_map entries [o]) 1 "prompt_neutrons" = None).
  { unfold component. rewrite (column_ok 1 [o]) by (assumption || lia). cbn [coefficients map Z.eqb Z.ltb Z.compare nth_error String.eqb Ascii.eqb Bool.eqb orb]. now rewrite E. }
  destruct (component rs 0 (flat_map entries [o]) 0 "fragments"); [|reflexivity]. now rewrite C.
Qed.
Print Assumptions C82_neutrons.
(** Any table of the section can be read: false; tables of the two sums (8, 9), which
    ENDF-6 allows, are handed to a constructor without such parameters. *)
Lemma assign_keys k f l x : In x (map fst l) -> In x (map fst (assign k f l)).
Proof.
  induction l as [|[k' f'] l IH]; [intros []|]. cbn [assign map fst]. destruct (String.eqb_spec k k') as [->|N]; [auto|]. intros [->|I]; [now left|right; now apply IH].
Qed.
Lemma assign_key k f l : In k (map fst (assign k f l)).
Proof. induction l as [|[k' f'] l IH]; [now left|]. cbn [assign]. destruct (String.eqb k k'); [now left|right; exact IH]. Qed.
Lemma tables_keys n : forall f l l' x, tables n f l = Some l' -> In x (map fst l) -> In x (map fst l').
Proof.
  induction n as [|n IH]; intros f l l' x; cbn [tables]; [intros [= <-]; auto|].
  destruct (get_tab1_record f) as [[[[[[[? ?] ?] ifc] rg] ps] f']|]; [|discriminate]. destruct (Neut_Model.at_ names (ifc - 1)) as [name|]; [|discriminate].
  intros E I. apply (IH _ _ _ _ E). now apply assign_keys.
Qed.
Lemma tables_sums ts ls : tables_text ts ls -> forall k t l l', In (k, t) ts -> (8 <= k <= 9)%Z -> tables (List.length ts) ls l = Some l' ->
  In "recoverable"%string (map fst l') \/ In "total"%string (map fst l').
Proof.
  induction 1 as [ls|k t ts h c d i lr lp ls Hc L1 L2 R1 R2 Ht IH]; intros k' t' l l' I K; [destruct I|]. cbn [List.length tables].
  assert (C1 : List.length (fbp t) = List.length (combine (fbp t) (fint t))) by (rewrite combine_length; lia).
  assert (C2 : List.length (fx t) = List.length (combine (fx t) (fy t))) by (rewrite combine_length; lia).
  rewrite C1, C2 in Hc. rewrite (Endf2_Proofs.get_tab1_ok _ _ _ _ _ _ _ _ _ ls Hc R1 R2).
  destruct (Neut_Model.at_ names (k - 1)) as [name|] eqn:En; [|discriminate]. intros E. destruct I as [[= -> ->]|I]; [|exact (IH _ _ _ _ I K E)].
  assert (k' = 8 \/ k' = 9)%Z as [->| ->] by lia; vm_compute in En; injection En as <-; [left|right]; apply (tables_keys _ _ _ _ _ E), assign_key.
Qed.
Lemma look_keys {B} k (l : list (string * B)) v : look k l = Some v -> In k (map fst l).
Proof. induction l as [|[k' b] l IH]; [discriminate|]. cbn [look map fst]. destruct (String.eqb_spec k k') as [->|N]; [now left|right; now apply IH]. Qed.
Lemma build_seven l r : build l = Some r -> ~ In "recoverable"%string (map fst l) /\ ~ In "total"%string (map fst l).
Proof.
  unfold build. destruct (look "fragments" l) eqn:E0; [|discriminate]. destruct (look "prompt_neutrons" l) eqn:E1; [|discriminate]. destruct (look "delayed_neutrons" l) eqn:E2; [|discriminate].
  destruct (look "prompt_photons" l) eqn:E3; [|discriminate]. destruct (look "delayed_photons" l) eqn:E4; [|discriminate]. destruct (look "betas" l) eqn:E5; [|discriminate]. destruct (look "neutrinos" l) eqn:E6; [|discriminate].
  destruct (Nat.eqb_spec (List.length l) 7) as [L|]; [|discriminate]. intros _.
  assert (X : forall k, ~ In k (firstn 7 names) -> ~ In k (map fst l)).
  { intros k Nk Ik. assert (Inc : incl (k :: firstn 7 names) (map fst l)).
    { intros x [<-|Hx]; [assumption|]. cbn [firstn names In] in Hx. repeat (destruct Hx as [<-|Hx]; [eapply look_keys; eassumption|]). destruct Hx. }
    assert (Nd : NoDup (k :: firstn 7 names)).
    { constructor; [assumption|]. cbn [firstn names]. repeat (constructor; [cbn [In]; intuition discriminate|]). constructor. }
    pose proof (NoDup_incl_length Nd Inc) as Q. rewrite map_length, L in Q. cbn in Q. lia. }
  split; apply X; cbn [firstn names In]; intuition discriminate.
Qed.
Theorem C82_sums_refuted : forall D A target (rs : list (Z * reaction (D := D) (A := A))) os ts ls k t, section_text 1 os ts ls ->
  In (k, t) ts -> (8 <= k <= 9)%Z -> from_endf target true (Some ls) target rs = None.
Proof.
  intros D A target rs os ts ls k t (h & za & awr & i & n & a & b & i' & n' & k1 & k2 & -> & Hc & No & F & Hl & Ht) I K.
  unfold from_endf. rewrite !Z.eqb_refl. cbn [negb]. rewrite (Endf2_Proofs.get_cont_ok _ _ _ _ _ _ _ _ Hc).
  rewrite (Dcy_Proofs.list_at_ok _ _ _ _ _ _ _ k2 Hl). cbn [l2 n2]. destruct (components _ _ _ _ _) as [l|]; [|reflexivity]. rewrite Z.eqb_refl, Nat2Z.id.
  destruct (tables (List.length ts) k2 l) as [l'|] eqn:E; [|reflexivity]. destruct (tables_sums ts k2 Ht k t l l' I K E) as [X|X];
    (destruct (build l') as [r|] eqn:B; [apply build_seven in B as [B1 B2]; contradiction|reflexivity]).
Qed.
Print Assumptions C82_sums_refuted.

(** *** Examples *)
Definition pay (z : Z) : reaction (D := unit) (A := unit) := mkRx z 0%Qc true false [] (Own []) None [mkProduct true Prompt 0%Qc (Poly [qc 24 10; qc 1 10000000]) [] []; mkProduct true Delayed 1%Qc (Poly [qc 1 100]) [] []] [].
Definition ex_order : order := [(qz 169130000, qz 490000); (qz 4838000, qz 70000); (qz 7400, qz 1110); (qz 6600000, qz 500000); (qz 6330000, qz 50000); (qz 6500000, qz 50000); (qz 8750000, qz 70000); (qz 193405400, qz 130000); (qz 202155400, qz 130000)].
Definition ex_texts : list deci := map d0 [169130000; 490000; 4838000; 70000; 7400; 1110; 6600000; 500000; 6330000; 50000; 6500000; 50000; 8750000; 70000; 193405400; 130000; 202155400; 130000]%N.
Definition ex_spectrum : fn := mkFn [qz 1; qz 20000000] [qz 170000000; qz 160000000] [2%Z] [2%Z].
Definition ex_lines (lfc : Z) (tables : list text) (n : Z) : list text := dctl (d0 92235) (dd 2330248 4) 0 lfc 0 n :: dlist (d0 0) (d0 0) 0 0 9 ex_texts ++ tables.
Definition ex_table (k : Z) : list text :=
  dctl (d0 0) (d0 0) 0 k 1 2 :: [Endf_Props.int 2 ++ Endf_Props.int 2] ++ [dfield (d0 1) ++ dfield (d0 170000000) ++ dfield (d0 20000000) ++ dfield (d0 160000000)] ++ [].
Lemma ex_table_ok k : (1 <= k <= 9)%Z -> tables_text [(k, ex_spectrum)] (ex_table k).
Proof.
  intros K. apply tt_cons with (c := dv (d0 0)) (d := dv (d0 0)) (i := 0%Z); try reflexivity; [| | |constructor].
  - assert (k = 1 \/ k = 2 \/ k = 3 \/ k = 4 \/ k = 5 \/ k = 6 \/ k = 7 \/ k = 8 \/ k = 9)%Z as Q by lia.
    assert (Lk : List.length (decZ k) <= 11) by (repeat (destruct Q as [->|Q]; [lens|]); subst; lens). apply dctl_ok; [fit_tac|fit_tac|lens|exact Lk|lens|lens].
  - replace (Endf_Props.int 2 ++ Endf_Props.int 2) with (concat [Endf_Props.int 2 ++ Endf_Props.int 2] ++ []) by reflexivity. apply rows_last; [discriminate|cbn; lia|]. constructor; [|constructor].
    exists (Endf_Props.int 2), (Endf_Props.int 2). repeat split; (apply Endf_Props.int_ok; lens).
  - replace (dfield (d0 1) ++ dfield (d0 170000000) ++ dfield (d0 20000000) ++ dfield (d0 160000000)) with (concat [dfield (d0 1) ++ dfield (d0 170000000); dfield (d0 20000000) ++ dfield (d0 160000000)] ++ []) by reflexivity.
    apply rows_last; [discriminate|cbn; lia|]. constructor; [|constructor; [|constructor]]; eexists _, _; (split; [reflexivity|]); split.
    1, 2, 3, 4: match goal with |- number_field (dfield ?x) ?q => replace q with (dv x) by (apply Qc_is_canon; reflexivity) end; apply dfield_ok; fit_tac.
Qed.
Lemma ex_section lfc ts ls : (lfc = 0 \/ lfc = 1)%Z -> (List.length ts <= 1) -> tables_text ts ls -> section_text lfc [ex_order] ts (ex_lines lfc ls (Z.of_nat (List.length ts))).
Proof.
  intros L Lt T. unfold section_text, ex_lines. do 5 eexists. exists 0%Qc, 0%Qc, 0%Z, 9%Z, (dlist (d0 0) (d0 0) 0 0 9 ex_texts), ls. split; [reflexivity|]. split.
  - apply dctl_ok; [fit_tac|fit_tac|lens|destruct L as [->| ->]; lens|lens|]. destruct ts as [|? [|]]; cbn [List.length] in *; [lens|lens|lia].
  - split; [discriminate|]. split; [constructor; [reflexivity|constructor]|]. split; [|exact T]. cbn [List.length]. change (Z.of_nat 1 - 1)%Z with 0%Z. unfold ex_order, ex_texts. cbn [flat_map entries map fst snd app]. dlist_tac.
Qed.
Lemma ex_neutrons : fission_in [(18%Z, pay 18)] (pay 18) /\ sole (r_products (pay 18)) (Poly [qc 24 10; qc 1 10000000]) /\ fine_nu (Poly [qc 24 10; qc 1 10000000]).
Proof.
  split; [|split; [|discriminate]].
  - split; [constructor; [intros []|constructor]|]. left. split; [now left|reflexivity].
  - exists [], (mkProduct true Prompt 0%Qc (Poly [qc 24 10; qc 1 10000000]) [] []), [mkProduct true Delayed 1%Qc (Poly [qc 1 100]) [] []]. split; [reflexivity|]. split; [split; [reflexivity|now left]|]. split; [reflexivity|].
    intros q [<-|[]] [_ [H|H]]; discriminate.
Qed.
(** Single coefficients with a table of the energy of fragments. *)
Example C82_read_hypotheses_met : section_text 1 [ex_order] [(1%Z, ex_spectrum)] (ex_lines 1 (ex_table 1) 1) /\
  (fission_in [(18%Z, pay 18)] (pay 18) /\ sole (r_products (pay 18)) (Poly [qc 24 10; qc 1 10000000]) /\ fine_nu (Poly [qc 24 10; qc 1 10000000])) /\
  tabulated_as 0 [(1%Z, ex_spectrum)] = Some ex_spectrum /\
  (forall f, given (Poly [qc 24 10; qc 1 10000000]) 1 [ex_order] f -> exists p, f = Poly p /\ horner p (qz 1000000) = (qz 4838000 + qz 1307000 - qz 807000)%Qc) /\
  (forall f, given (Poly [qc 24 10; qc 1 10000000]) 5 [ex_order] f -> f = Poly [qz 6500000; qc (-75) 1000]).
Proof.
  split; [apply (ex_section 1 [(1%Z, ex_spectrum)]); [now right|cbn; lia|apply ex_table_ok; lia]|]. split; [exact ex_neutrons|]. split; [reflexivity|]. split.
  - intros f (p & -> & H). exists p. split; [reflexivity|]. rewrite H. apply Qc_is_canon. reflexivity.
  - intros f H. exact H.
Qed.
(** Three orders, one second coefficient still in MeV. *)
Example C82_given_hypotheses_met : in_mev (qc (-3) 1000) /\ ~ in_mev (qc (-3) 1000000000) /\
  let o c := map (fun _ => (c, 0%Qc)) (repeat tt 9) in
  (forall nu f, given nu 3 [o (qz 6000000); o (qc 1 10); o (qc (-3) 1000)] f -> f = Poly [qz 6000000; qc 1 10; (qc (-3) 1000 / qz 1000000)%Qc]) /\
  (forall nu f, given nu 3 [o (qz 6000000); o (qc 1 10); o (qc (-3) 1000000000)] f -> f = Poly [qz 6000000; qc 1 10; qc (-3) 1000000000]).
Proof.
  split; [reflexivity|]. split; [discriminate|]. split; intros nu f [H1 H2]; [apply H1; reflexivity|apply H2; discriminate].
Qed.
Example C82_neutrons_hypotheses_met : section_text 0 [ex_order] [] (ex_lines 0 [] 0) /\
  ~ (exists r nu, fission_in [(18%Z, mkRx (D := unit) (A := unit) 18 0%Qc true false [] (Own []) None (r_products (pay 18) ++ r_products (pay 18)) [])] r /\ sole (r_products r) nu).
Proof.
  split; [apply (ex_section 0 [] []); [now left|cbn; lia|constructor]|]. intros (r & nu & (_ & [[[[= <-]|[]] _]|[_ [H|[]]]]) & S); [|discriminate].
  apply sole_yields in S. discriminate.
Qed.
Example C82_sums_refuted_hypotheses_met : section_text 1 [ex_order] [(8%Z, ex_spectrum)] (ex_lines 1 (ex_table 8) 1).
Proof. apply (ex_section 1 [(8%Z, ex_spectrum)]); [now right|cbn; lia|apply ex_table_ok; lia]. Qed.

(** ** C83: sums *)
(** Polynomials of any degree: all five functions are polynomials with the right value at
    every energy. *)
Theorem C83_polynomials : forall D A (R : readers D A) r, (forall f, In f (parts r) -> exists c, f = Poly c /\ c <> []) ->
  derived R r (fun fs off g => (exists c, g = Poly c) /\ forall e, adds R fs (off e) g e).
Proof. intros D A R r H. apply derived_polys, Forall_forall. intros f If. destruct (H f If) as (c & -> & N). exact N. Qed.
Print Assumptions C83_polynomials.
(** Linear tables over one range and straight lines: the right value in that range, not too
    close to its ends; 0 outside it. *)
Theorem C83_tables : forall D A (R : readers D A) a b r, (forall f, In f (parts r) -> spans a b f) -> ~ close a b ->
  derived R r (fun fs off g => (forall e, (a <= e <= b)%Qc -> Fer_Spec.apart a b e -> adds R fs (off e) g e) /\
    ((exists t, In (Tabd t) fs) -> forall e, (e < a \/ b < e)%Qc -> ~ close e a -> ~ close e b -> value_at R g e = Some 0%Qc)).
Proof. exact @derived_spans. Qed.
Print Assumptions C83_tables.
(** A table with another interpolation. *)
Theorem C83_interpolation : forall D A (R : readers D A) r t s, In s (fint t) -> s <> 2%Z ->
  (In (Tabd t) (firstn 6 (parts r)) -> recoverable R r = None /\ q_recoverable R r = None /\ to_hdf5 R r group = None) /\
  (In (Tabd t) (parts r) -> total R r = None /\ q_total R r = None) /\
  (In (Tabd t) [e_fragments r; e_prompt_neutrons r; e_prompt_photons r] -> q_prompt R r = None).
Proof.
  intros D A R r t s Is N. split; [|split]; intros I.
  - assert (E : recoverable R r = None) by (apply (sum_curved R _ t s); assumption). assert (E2 : q_recoverable R r = None) by (unfold q_recoverable; now rewrite E).
    split; [exact E|]. split; [exact E2|]. destruct (to_hdf5 R r group) as [n|] eqn:E3; [|reflexivity].
    apply to_hdf5_inv in E3 as (p & q & ? & ? & ? & ? & ? & ? & ? & ? & ? & _ & Eq & _). congruence.
  - assert (E : total R r = None) by (apply (sum_curved R _ t s); assumption). split; [exact E|]. unfold q_total. now rewrite E.
  - apply (sum_curved R _ t s); [|assumption|assumption]. cbn [In] in *. tauto.
Qed.
Print Assumptions C83_interpolation.
(** The total is the sum of its parts wherever these have a value: false outside the table. *)
Definition ex_release : release := mkRelease (Poly [qz 5]) (Tabd (mkFn [qz 1; qz 2] [qz 7; qz 8] [2%Z] [2%Z])) (Poly [qz 1]) (Poly [qz 1; qz 1]) (Poly [qz 1]) (Poly [qz 1]) (Poly [qz 1]).
Lemma ex_spans : forall f, In f (parts ex_release) -> spans (qz 1) (qz 2) f.
Proof.
  intros f H. cbn [parts ex_release e_fragments e_prompt_neutrons e_delayed_neutrons e_prompt_photons e_delayed_photons e_betas e_neutrinos In] in H.
  repeat (destruct H as [<-|H]; [try (split; [discriminate|cbn; lia])|]); [|destruct H].
  split; [|split; [reflexivity|split; [reflexivity|intros u [<-|[<-|[]]]; [now left|right; now left]]]].
  split; [cbn; lia|]. split; [reflexivity|]. split; [intros [|i] Hi; [reflexivity|cbn in Hi; lia]|]. split; [reflexivity|]. cbn [fbp fint fx List.length].
  split; [intros [|k] Hk; [reflexivity|lia]|]. split; [intros k Hk; lia|]. split; [reflexivity|]. intros s [<-|[]]. reflexivity.
Qed.
Lemma not_close_example : ~ close (qz 1) (qz 2) /\ ~ close (qz 3) (qz 1) /\ ~ close (qz 3) (qz 2) /\ ~ close (qc 3 2) (qz 1) /\ ~ close (qc 3 2) (qz 2).
Proof. repeat split; intros H; vm_compute in H; apply H; reflexivity. Qed.
Theorem C83_outside_refuted : forall D A (R : readers D A), exists r tot, total R r = Some tot /\ value_at R tot (qz 3) = Some 0%Qc /\
  exists vs, Forall2 (fun f v => value_at R f (qz 3) = Some v) (parts r) vs /\ qsum vs = qz 13.
Proof.
  intros D A R. destruct not_close_example as (N0 & N1 & N2 & _). destruct (derived_spans R _ _ _ ex_spans N0) as (_ & tot & _ & _ & _ & _ & _ & E & (_ & Z) & _).
  exists ex_release, tot. split; [exact E|]. split.
  - apply Z; try assumption; [|right; reflexivity]. eexists. right. left. reflexivity.
  - exists [qz 5; 0%Qc; qz 1; qz 4; qz 1; qz 1; qz 1]. split; [|apply Qc_is_canon; reflexivity]. repeat constructor; cbn [value_at horner]; try (f_equal; apply Qc_is_canon; reflexivity).
Qed.
Print Assumptions C83_outside_refuted.
(** ... and between two points, if one of the parts is curved. *)
Definition ex_curved : release := mkRelease (Poly [qz 5]) (Tabd (mkFn [qz 1; qz 3] [qz 7; qz 9] [2%Z] [2%Z])) (Poly [qz 1]) (Poly [qz 1; qz 0; qz 1]) (Poly [qz 1]) (Poly [qz 1]) (Poly [qz 1]).
Theorem C83_curved_refuted : forall D A (R : readers D A), exists tot, total R ex_curved = Some tot /\ value_at R tot (qz 2) = Some (qz 23) /\
  exists vs, Forall2 (fun f v => value_at R f (qz 2) = Some v) (parts ex_curved) vs /\ qsum vs = qz 22.
Proof.
  intros D A R. eexists. split; [vm_compute; reflexivity|]. split; [vm_compute; f_equal; apply Qc_is_canon; reflexivity|].
  exists [qz 5; qz 8; qz 1; qz 5; qz 1; qz 1; qz 1]. split; [|apply Qc_is_canon; reflexivity]. repeat constructor; vm_compute; f_equal; apply Qc_is_canon; reflexivity.
Qed.
Print Assumptions C83_curved_refuted.
Example C83_polynomials_hypotheses_met : forall f, In f (parts (mkRelease (Poly [qz 5]) (Poly [qz 1; qz 2; qz 3]) (Poly [qz 1]) (Poly [qz 1; qz 1]) (Poly [qz 1]) (Poly [qz 1; qz (-1)]) (Poly [qz 1]))) -> exists c, f = Poly c /\ c <> [].
Proof. intros f H. repeat (destruct H as [<-|H]; [eexists; split; [reflexivity|discriminate]|]). destruct H. Qed.
Example C83_tables_hypotheses_met : (forall f, In f (parts ex_release) -> spans (qz 1) (qz 2) f) /\ ~ close (qz 1) (qz 2) /\ (qz 1 <= qc 3 2 <= qz 2)%Qc /\ Fer_Spec.apart (qz 1) (qz 2) (qc 3 2) /\
  (qz 2 < qz 3)%Qc /\ ~ close (qz 3) (qz 1) /\ ~ close (qz 3) (qz 2) /\ exists t, In (Tabd t) (parts ex_release).
Proof.
  destruct not_close_example as (N0 & N1 & N2 & N3 & N4). split; [exact ex_spans|]. split; [exact N0|]. split; [split; discriminate|]. split; [right; right; now split|]. split; [reflexivity|]. split; [exact N1|]. split; [exact N2|].
  eexists. right. left. reflexivity.
Qed.
Example C82_between_hypotheses_met : let t := mkFn [qz 1; qz 2] [qz 7; qz 8] [2%Z] [2%Z] in
  linear_table t /\ ~ close (nth 0 (fx t) 0%Qc) (last (fx t) 0%Qc) /\ Fer_Spec.apart (nth 0 (fx t) 0%Qc) (last (fx t) 0%Qc) (qc 3 2) /\
  exists f, sher_beck (qz 100) (Tabd t) = Some f /\ by_neutrons (qz 100) (Tabd t) f.
Proof.
  cbv zeta. destruct not_close_example as (N0 & _ & _ & N3 & N4). split; [apply (ex_spans _ (or_intror (or_introl eq_refl)))|]. split; [exact N0|]. split; [right; right; now split|].
  apply sher_beck_ok. split; [discriminate|reflexivity].
Qed.
Example C83_interpolation_hypotheses_met : exists t s, In s (fint t) /\ s <> 2%Z /\ In (Tabd t) (firstn 6 (parts (mkRelease (Tabd t) (Poly [qz 1]) (Poly [qz 1]) (Poly [qz 1]) (Poly [qz 1]) (Poly [qz 1]) (Poly [qz 1])))).
Proof. exists (mkFn [qz 1; qz 2] [qz 7; qz 8] [2%Z] [5%Z]), 5%Z. split; [now left|]. split; [discriminate|now left]. Qed.

(** ** C84: HDF5 *)
(** What was written comes back, with the two functions derived, and nothing else is touched. *)
Theorem C84_back : forall D A (R : readers D A) r at_ d ks n, to_hdf5 R r (Node at_ d ks) = Some n ->
  from_hdf5 n = Some r /\ q_prompt R r = get "q_prompt" n /\ q_prompt R r <> None /\ q_recoverable R r = get "q_recoverable" n /\ q_recoverable R r <> None /\
  forall k, ~ In k stored_names -> kid n k = look k ks.
Proof. exact @stored_back. Qed.
Print Assumptions C84_back.
(** Everything that can be summed can be written, where the names are free. *)
Theorem C84_written : forall D A (R : readers D A) r at_ d ks p q, Forall yield_fine (parts r) -> (forall k, In k stored_names -> look k ks = None) ->
  q_prompt R r = Some p -> q_recoverable R r = Some q -> exists n, to_hdf5 R r (Node at_ d ks) = Some n.
Proof. exact @to_hdf5_ok. Qed.
Print Assumptions C84_written.
(** A second time, or where a name is taken, it is not. *)
Theorem C84_taken : forall D A (R : readers D A) r at_ d ks k c, In k stored_names -> look k ks = Some c -> to_hdf5 R r (Node at_ d ks) = None.
Proof.
  intros D A R r at_ d ks k c Ik E. destruct (to_hdf5 R r (Node at_ d ks)) as [n|] eqn:H; [|reflexivity].
  apply to_hdf5_inv in H as (p & q & ? & ? & ? & ? & ? & ? & ? & ? & ? & _ & _ & L & _). rewrite (L k Ik) in E. discriminate.
Qed.
Print Assumptions C84_taken.
Example C84_written_hypotheses_met : forall D A (R : readers D A), Forall yield_fine (parts ex_release) /\ (forall k, In k stored_names -> look (A := node) k [] = None) /\
  (exists p, q_prompt R ex_release = Some p) /\ (exists q, q_recoverable R ex_release = Some q) /\ exists n, to_hdf5 R ex_release group = Some n.
Proof.
  intros D A R. assert (F : Forall yield_fine (parts ex_release)) by (repeat constructor). destruct not_close_example as (N0 & _).
  destruct (derived_spans R _ _ _ ex_spans N0) as (rec & tot & qp & qr & qt & _ & _ & _ & _ & E3 & _ & E4 & _).
  split; [exact F|]. split; [reflexivity|]. split; [eauto|]. split; [eauto|]. exact (to_hdf5_ok R ex_release [] None [] qp qr F (fun _ _ => eq_refl) E3 E4).
Qed.
Example C84_taken_hypotheses_met : In "betas"%string stored_names /\ look "betas" [("betas"%string, group)] = Some group.
Proof. split; [cbn; tauto|reflexivity]. Qed.
