(** C77, C78: decay data and fission product yields. *)
From Verif Require Import Num Text Dec PyNum Endf_Model Endf_Spec Endf_Props Name_Model Name_Proofs Dcy_Model Dcy_Spec Dcy_Proofs.
From Coq Require Import ZArith NArith Lia.
Local Open Scope list_scope.
Local Open Scope nat_scope.

(** ** C77: modes, daughters, yields *)
(** A chain of decays is read in its order. *)
Theorem C77_modes : forall ds, chain ds -> get_decay_modes (rtyp ds) = Some (map mode_name ds).
Proof. exact get_modes_ok. Qed.
Print Assumptions C77_modes.
Example C77_modes_hypotheses_met : chain [1; 5; 5] /\ rtyp [1; 5; 5] = qc 155 100 /\ map mode_name [1; 5; 5] = map str ["beta-"; "n"; "n"]%string.
Proof.
  split; [|split; [apply Qc_is_canon; reflexivity|reflexivity]]. unfold chain. cbn [hd last length].
  split; [discriminate|]. split; [repeat constructor|]. lia.
Qed.
(** RTYP = 0 is gamma decay: false, nothing is returned. *)
Theorem C77_gamma_refuted : get_decay_modes 0%Qc = Some [].
Proof. reflexivity. Qed.
Print Assumptions C77_gamma_refuted.
(** RTYP = 10 is an unknown decay: false, no number has that name, and 10 is taken for two decays. *)
Theorem C77_unknown_refuted : get_decay_modes (qz 10) = Some [str "beta-"; str "gamma"] /\
  forall q ms, get_decay_modes q = Some ms -> ~ In (str "unknown") ms.
Proof.
  split; [reflexivity|]. intros q ms. unfold get_decay_modes. destruct (py_str q) as [t|]; [|discriminate].
  generalize (filter (fun c => negb (eqc c ".")) (strip0 t)). clear t. intros l H.
  destruct (each_some mode_of l) as [es|] eqn:E; [|discriminate]. injection H as <-. revert es E. induction l as [|c l IH]; intros es E.
  - injection E as <-. intros [].
  - cbn [each_some] in E. destruct (mode_of c) as [m|] eqn:M; [|discriminate]. destruct (each_some mode_of l) as [es'|]; [|discriminate].
    injection E as <-. intros [I|I]; [|exact (IH es' eq_refl I)]. unfold mode_of in M. destruct (is_digit c) eqn:D; [|discriminate].
    assert (B : N.to_nat (digit c) <= 9).
    { unfold is_digit in D. cbn zeta in D. apply andb_true_iff in D as [A B]. apply Nat.leb_le in A, B. unfold digit. lia. }
    pose proof (nth_error_In _ _ M) as K. revert M I. generalize B. generalize (N.to_nat (digit c)). clear.
    apply (small_cases (fun n => nth_error decay_modes n = Some m -> fst m = str "unknown" -> False)); intros M; injection M as <-; discriminate.
Qed.
Print Assumptions C77_unknown_refuted.
(** A daughter: charge and mass number as the decays say, whatever their order. *)
Theorem C77_daughter : forall z a m p ms state e b, (0 <= a)%Z -> (0 <= m)%Z -> gnd_name z a m = Some p ->
  daughter (mkMode p ms state e b) = gnd_name (z_after z ms) (a_after a ms) state.
Proof. exact daughter_ok. Qed.
Print Assumptions C77_daughter.
Example C77_daughter_hypotheses_met : gnd_name 92 239 0 = Some (str "U239") /\
  daughter (mkMode (str "U239") (map str ["beta-"; "alpha"]%string) 1 (0%Qc, 0%Qc) (1%Qc, 0%Qc)) = Some (str "Pa235_m1").
Proof. split; reflexivity. Qed.
(** No nuclide is its own daughter: false, after spontaneous fission it is. *)
Theorem C77_fission_refuted : forall z a m p e b, (0 <= a)%Z -> (0 <= m)%Z -> gnd_name z a m = Some p ->
  daughter (mkMode p [str "sf"] m e b) = Some p.
Proof.
  intros z a m p e b Ha Hm H. rewrite (daughter_ok z a m p) by assumption. rewrite <- H. unfold z_after, a_after, times.
  f_equal; cbn [filter]; decide_names; cbn [length Z.of_nat]; lia.
Qed.
Print Assumptions C77_fission_refuted.
Example C77_fission_refuted_hypotheses_met : gnd_name 98 252 0 = Some (str "Cf252").
Proof. reflexivity. Qed.

(** Yields: energies and a dictionary for each, the last entry for a nuclide counts. *)
Theorem C77_yields : forall bi bc li lc, yields_text bi li -> yields_text bc lc -> map fst bc = map fst bi ->
  exists di dc, fission_yields (Some li) (Some lc) = Some (mkYields (Some (map fst bi)) (Some di) (Some dc)) /\ yields_meant bi di /\ yields_meant bc dc.
Proof.
  intros bi bc li lc Hi Hc E. destruct (get_yields_ok bi li Hi) as (di & Ei & Mi). destruct (get_yields_ok bc lc Hc) as (dc & Ec & Mc).
  exists di, dc. unfold fission_yields. rewrite Ei, Ec. cbn [y_energies y_independent]. rewrite E, same_energy_refl. repeat split; assumption.
Qed.
Print Assumptions C77_yields.
Theorem C77_independent : forall bi li, yields_text bi li ->
  exists di, fission_yields (Some li) None = Some (mkYields (Some (map fst bi)) (Some di) None) /\ yields_meant bi di.
Proof. intros bi li H. destruct (get_yields_ok bi li H) as (di & Ei & Mi). exists di. unfold fission_yields. rewrite Ei. now split. Qed.
Print Assumptions C77_independent.
(** Cumulative yields alone cannot be read. *)
Theorem C77_cumulative_refuted : forall s, fission_yields None (Some s) = None.
Proof. intros s. unfold fission_yields. cbn [y_energies]. now destruct (get_yields s) as [[es d]|]. Qed.
Print Assumptions C77_cumulative_refuted.
(** Other energies: as many, or more than one in both, are refused. *)
Theorem C77_energies : forall bi bc li lc, yields_text bi li -> yields_text bc lc -> map fst bc <> map fst bi ->
  length bc = length bi \/ (1 < length bc /\ 1 < length bi) -> fission_yields (Some li) (Some lc) = None.
Proof.
  intros bi bc li lc Hi Hc E L. destruct (get_yields_ok bi li Hi) as (di & Ei & Mi). destruct (get_yields_ok bc lc Hc) as (dc & Ec & Mc).
  unfold fission_yields. rewrite Ei, Ec. cbn [y_energies]. assert (S : same_energy (map fst bc) (map fst bi) = false); [|now rewrite S].
  unfold same_energy. rewrite !map_length. destruct (Nat.eqb_spec (length bc) (length bi)) as [Q|Q].
  - destruct (all_equal _ _) eqn:A; [|reflexivity]. now apply all_equal_iff in A.
  - destruct L as [L|[L1 L2]]; [easy|]. destruct bc as [|x [|y bc]]; cbn [length] in L1; try lia. destruct bi as [|x' [|y' bi]]; cbn [length] in L2; try lia. reflexivity.
Qed.
Print Assumptions C77_energies.
(** Each nuclide, if given once, has its own yield. *)
Theorem C77_each : forall (b : Qc * list fragment) d es, Forall2 named (snd b) es -> holds es d -> Forall (fun p => 0 <= f_a p /\ 0 <= f_m p)%Z (snd b) ->
  NoDup (map (fun p => (f_z p, f_a p, f_m p)) (snd b)) ->
  forall p, In p (snd b) -> exists t, gnd_name (f_z p) (f_a p) (f_m p) = Some t /\ lookup t d = Some (f_yield p).
Proof.
  intros [e ps] d es. cbn [snd]. intros F H P N p I.
  assert (K : NoDup (map fst es)).
  { clear H I. induction F as [|q [k y] ps es [F1 F2] F3 IH]; [constructor|]. cbn [map fst snd] in *. inversion N as [|x l N1 N2]; subst. inversion P as [|x l P1 P2]; subst.
    constructor; [|now apply IH]. intros I. apply N1. clear IH N N1 N2 P. induction F3 as [|q' [k' y'] ps es [G1 G2] G3 IH']; [destruct I|].
    cbn [map fst snd] in *. inversion P2 as [|x l P3 P4]; subst. destruct I as [->|I]; [left|right; now apply IH'].
    now apply (names_inj _ _ _ _ _ _ k); try tauto. }
  clear N P. revert I. assert (G : forall es0, incl es es0 -> NoDup (map fst es0) -> holds es0 d -> In p ps -> exists t, gnd_name (f_z p) (f_a p) (f_m p) = Some t /\ lookup t d = Some (f_yield p)).
  { intros es0 In0 N0 H0. clear K H. revert In0. induction F as [|q [k y] ps es [F1 F2] F3 IH]; intros In0; [intros []|]. cbn [fst snd] in *. intros [->|I].
    - exists k. split; [exact F1|]. subst y. apply (holds_distinct es0); [exact H0|exact N0|apply In0; now left].
    - apply IH; [|exact I]. intros x Hx. apply In0. now right. }
  intros I. apply (G es); [apply incl_refl|exact K|exact H|exact I].
Qed.
Print Assumptions C77_each.

(** *** Example texts *)
(** Decimals: sign, digits, how many of them behind the point. *)
Definition deci := (bool * N * nat)%type.
Definition dv (x : deci) : Qc := value (fst (fst x)) (snd (fst x)) (snd x) false 0.
Definition core (x : deci) : text :=
  let t := zeros_to (snd x) (decN (snd (fst x))) in let k := length t - snd x in
  sign_text (if fst (fst x) then Some true else None) ++ firstn k t ++ "."%char :: skipn k t.
Definition dfield (x : deci) : text := pad 11 (core x).
Definition fits (x : deci) : Prop := length (core x) <= 11.
Lemma dfield_ok x : fits x -> number_field (dfield x) (dv x).
Proof.
  destruct x as [[s m] f]. intros H1. unfold dfield, pad, fits in *. cbn [fst snd] in *. split; [rewrite app_length, repeat_length; lia|].
  rewrite <- (app_nil_r (core _)) at 2. unfold dv, core. cbn [fst snd]. set (t := zeros_to f (decN m)). set (k := length t - f).
  assert (E : length (skipn k t) = f) by (rewrite skipn_length; unfold k, t, zeros_to; rewrite app_length, repeat_length; lia).
  replace (value s m f false 0) with (value (minus (if s then Some true else None)) m (length (skipn k t)) false 0) by (rewrite E; now destruct s).
  apply (den_plain _ 0). exists (f - length (decN m)). apply firstn_skipn.
Qed.
Definition dctl (a b : deci) (i j k n : Z) : text := dfield a ++ dfield b ++ int i ++ int j ++ int k ++ int n ++ [].
Lemma dctl_ok a b i j k n : fits a -> fits b -> length (decZ i) <= 11 -> length (decZ j) <= 11 -> length (decZ k) <= 11 -> length (decZ n) <= 11 ->
  control_line (dctl a b i j k n) (dv a) (dv b) i j k n.
Proof. intros Ha Hb Hi Hj Hk Hn. do 7 eexists. split; [reflexivity|]. repeat split; (now apply dfield_ok) || (now apply int_ok). Qed.
Fixpoint dlay (fuel : nat) (vs : list deci) : list text :=
  match fuel, vs with
  | S f, _ :: _ => (concat (map dfield (firstn 6 vs)) ++ []) :: dlay f (skipn 6 vs)
  | _, _ => []
  end.
Lemma dfields_ok vs : Forall fits vs -> Forall2 number_field (map dfield vs) (map dv vs).
Proof. induction 1 as [|v vs Hv Hvs IH]; [constructor|]. cbn [map]. constructor; [now apply dfield_ok|exact IH]. Qed.
Lemma dlay_ok : forall fuel vs, length vs <= fuel -> Forall fits vs -> rows number_field 6 (map dv vs) (dlay fuel vs).
Proof.
  induction fuel as [|f IH]; intros vs L B; [destruct vs; [constructor|cbn in L; lia]|].
  destruct vs as [|v0 vs0]; [constructor|]. cbn [dlay]. set (vs := v0 :: vs0) in *.
  rewrite <- (firstn_skipn 6 vs) in B. apply Forall_app in B as [B1 B2].
  destruct (Nat.le_gt_cases (length vs) 6) as [S6|S6].
  - rewrite (skipn_all2 vs) by exact S6. rewrite (firstn_all2 vs) in * by exact S6. destruct f; apply rows_last; try discriminate; try (rewrite map_length; exact S6); now apply dfields_ok.
  - rewrite <- (firstn_skipn 6 vs) at 1. rewrite map_app. apply rows_more.
    + rewrite map_length, firstn_length. lia.
    + intros E. apply (f_equal (@length Qc)) in E. rewrite map_length, skipn_length in E. cbn [length] in E. lia.
    + now apply dfields_ok.
    + apply IH; [rewrite skipn_length; lia|exact B2].
Qed.
Definition dlist (a b : deci) (i j n : Z) (vs : list deci) : list text := dctl a b i j (Z.of_nat (length vs)) n :: dlay (length vs) vs.
Lemma dlist_ok a b i j n vs qs qa qb : fits a -> fits b -> length (decZ i) <= 11 -> length (decZ j) <= 11 -> length (decZ n) <= 11 ->
  length (decZ (Z.of_nat (length vs))) <= 11 -> Forall fits vs -> map dv vs = qs -> dv a = qa -> dv b = qb -> list_at qa qb i j n qs (dlist a b i j n vs).
Proof.
  intros Ha Hb Hi Hj Hn Hk B <- <- <-. do 2 eexists. split; [reflexivity|]. rewrite map_length. split; [now apply dctl_ok|]. now apply dlay_ok.
Qed.
Ltac fit_tac := vm_compute; repeat constructor.
Lemma cons_eq (a b : Qc) r s : a = b -> r = s -> a :: r = b :: s.
Proof. now intros -> ->. Qed.
Ltac list_tac := repeat (apply cons_eq; [apply Qc_is_canon; reflexivity|]); reflexivity.
Ltac dlist_tac := apply dlist_ok; [fit_tac|fit_tac|lens|lens|lens|lens|repeat (constructor; [fit_tac|]); constructor|list_tac|apply Qc_is_canon; reflexivity|apply Qc_is_canon; reflexivity].
Definition d0 (n : N) : deci := (false, n, 0).
Definition dd (n : N) (f : nat) : deci := (false, n, f).

(** Yields of two fragments at one energy, of two at another. *)
Definition ex_xe : fragment := {| f_z := 54; f_a := 135; f_m := 0; f_yield := (qc 65 1000, qc 1 1000) |}.
Definition ex_xem : fragment := {| f_z := 54; f_a := 135; f_m := 1; f_yield := (qc 11 1000, qc 2 1000) |}.
Definition ex_yields : list (Qc * list fragment) := [(qc 253 10000, [ex_xe; ex_xem]); (qz 500000, [ex_xem; ex_xe])].
Definition ex_yields_lines : list text :=
  dctl (d0 92235) (dd 2330248 4) 2 0 0 0 ::
  (dlist (dd 253 4) (d0 0) 0 0 2 [d0 54135; d0 0; dd 65 3; dd 1 3; d0 54135; d0 1; dd 11 3; dd 2 3] ++
   dlist (d0 500000) (d0 0) 0 0 2 [d0 54135; d0 1; dd 11 3; dd 2 3; d0 54135; d0 0; dd 65 3; dd 1 3] ++ []).
Lemma ex_yields_ok : yields_text ex_yields ex_yields_lines.
Proof.
  unfold yields_text, ex_yields_lines. do 7 eexists. split; [reflexivity|]. split; [apply dctl_ok; (fit_tac || lens)|].
  assert (F : fragment_ok ex_xe /\ fragment_ok ex_xem) by (repeat split; (cbn; lia) || discriminate). destruct F as [F1 F2].
  unfold ex_yields. apply yl_cons with (b := 0%Qc) (i := 0%Z) (j := 0%Z); [| |apply yl_cons with (b := 0%Qc) (i := 0%Z) (j := 0%Z)].
  - dlist_tac.
  - repeat (apply Forall_cons; [split; [assumption|eexists; reflexivity]|]); apply Forall_nil.
  - dlist_tac.
  - repeat (apply Forall_cons; [split; [assumption|eexists; reflexivity]|]); apply Forall_nil.
  - constructor.
Qed.
Example C77_yields_hypotheses_met : yields_text ex_yields ex_yields_lines /\ map fst ex_yields = [qc 253 10000; qz 500000] /\
  Forall (fun b => NoDup (map (fun p => (f_z p, f_a p, f_m p)) (snd b)) /\ Forall (fun p => 0 <= f_a p /\ 0 <= f_m p)%Z (snd b)) ex_yields.
Proof.
  split; [exact ex_yields_ok|]. split; [reflexivity|]. repeat constructor; cbn; try lia; intuition discriminate.
Qed.
Example C77_energies_hypotheses_met : exists li lc bi bc, yields_text bi li /\ yields_text bc lc /\ map fst bc <> map fst bi /\ length bc = length bi.
Proof.
  exists (dctl (d0 92235) (d0 233) 1 0 0 0 :: dlist (dd 253 4) (d0 0) 0 0 0 [] ++ []), (dctl (d0 92235) (d0 233) 1 0 0 0 :: dlist (d0 14) (d0 0) 0 0 0 [] ++ []),
    [(qc 253 10000, [])], [(qz 14, [])].
  split; [|split; [|split; [discriminate|reflexivity]]]; unfold yields_text; do 7 eexists; (split; [reflexivity|]); (split; [apply dctl_ok; (fit_tac || lens)|]);
    (apply yl_cons with (b := 0%Qc) (i := 0%Z) (j := 0%Z); [dlist_tac|constructor|constructor]).
Qed.

(** ** C78: decay *)
(** A radioactive nuclide is read as it stands. *)
Theorem C78_decay : forall u ls rest, unstable_text u ls -> exists v, read_decay (ls ++ rest) = Some v /\ unstable_decay u v.
Proof. exact read_decay_ok. Qed.
Print Assumptions C78_decay.
(** Its daughters, by charge and mass. *)
Theorem C78_daughters : forall u ls rest, unstable_text u ls -> (0 <= u_m u)%Z ->
  exists v, read_decay (ls ++ rest) = Some v /\
    Forall2 (fun b m => m_ratio m = b_ratio b /\ m_energy m = b_energy b /\
      daughter m = gnd_name (z_after (u_z u) (map mode_name (b_chain b))) (a_after (u_a u) (map mode_name (b_chain b))) (b_state b)) (u_branches u) (v_modes v).
Proof.
  intros u ls rest H Hm. destruct (read_decay_ok u ls rest H) as (v & E & (_ & _ & _ & _ & _ & _ & _ & _ & _ & _ & _ & _ & M & _)). exists v. split; [exact E|].
  destruct H as (h & za & nst & i1 & j1 & m1 & k1 & i2 & j2 & more & k2 & k3 & _ & _ & _ & _ & Ha & _ & G & _).
  induction M as [|b m bs ms B M IH]; [constructor|]. constructor; [|exact IH]. rewrite B. cbn [m_ratio m_energy]. repeat split.
  apply (daughter_ok _ _ (u_m u)); [lia|exact Hm|exact G].
Qed.
Print Assumptions C78_daughters.
(** Of spectra of one type, only the last is kept. *)
Theorem C78_spectra_refuted : forall u ls rest s s' before between after, unstable_text u ls ->
  u_spectra u = before ++ s :: between ++ s' :: after -> s_type s = s_type s' -> Forall (fun r => r <> s) (between ++ s' :: after) ->
  exists v, read_decay (ls ++ rest) = Some v /\ lookup (s_type s) (v_spectra v) <> Some s.
Proof.
  intros u ls rest s s' before between after H E T D. destruct (read_decay_ok u ls rest H) as (v & R & K). exists v. split; [exact R|].
  destruct K as (_ & _ & _ & _ & _ & _ & _ & _ & _ & _ & _ & _ & _ & [_ K]). rewrite K, E. clear - T D.
  replace (before ++ s :: between ++ s' :: after) with ((before ++ [s]) ++ (between ++ s' :: after)) by (rewrite <- app_assoc; reflexivity).
  rewrite map_app, rev_app_distr. assert (I : In s' (between ++ s' :: after)) by (apply in_or_app; right; now left).
  revert D I. generalize (between ++ s' :: after). intros l. generalize (rev (map (fun s0 => (s_type s0, s0)) (before ++ [s]))). intros tl.
  induction l as [|r l IH] using rev_ind; intros D I; [destruct I|]. rewrite map_app, rev_app_distr. cbn [map rev app]. unfold at_key in *. cbn [find fst].
  apply Forall_app in D as [D1 D2]. apply Forall_inv in D2. destruct (eqt (s_type s) (s_type r)) eqn:Q; [cbn [option_map snd]; congruence|].
  apply IH; [exact D1|]. apply in_app_or in I as [I|[I|[]]]; [exact I|]. subst r. rewrite T, eqt_refl in Q. discriminate.
Qed.
Print Assumptions C78_spectra_refuted.

(** A stable nuclide: its spin and parity, nothing else. *)
Theorem C78_stable : forall h z a m t awr lis nsp l1 l2 c1 c2 i1 j1 n1 vs1 spin parity i2 j2 n2 vs2 rest,
  control_line h (qz (1000 * z + a)) awr lis m 1 nsp -> (0 <= a < 1000)%Z -> gnd_name z a m = Some t ->
  list_at c1 c2 i1 j1 n1 vs1 l1 -> list_at spin parity i2 j2 n2 vs2 l2 ->
  read_decay (h :: l1 ++ l2 ++ rest) = Some (mkDecay z a m t awr lis true None (Some spin) (Some parity) [] [] []).
Proof.
  intros h z a m t awr lis nsp k1 k2 x y i1 j1 n1 vs1 spin parity i2 j2 n2 vs2 rest Hc Ha G L1 L2. unfold read_decay.
  rewrite (Rcov3_Proofs.head_record_ok h _ _ _ _ _ _ (k1 ++ k2 ++ rest) Hc). cbn zeta. rewrite trunc_qz. destruct (div_za z a Ha) as [-> ->].
  rewrite nuclide_gnd, G. change (1 =? 1)%Z with true. cbn iota. rewrite (list_at_ok _ _ _ _ _ _ _ (k2 ++ rest) L1), (list_at_ok _ _ _ _ _ _ _ rest L2). reflexivity.
Qed.
Print Assumptions C78_stable.
Definition ex_stable : list text := dctl (d0 26056) (dd 55454 3) 0 0 1 0 :: dlist (d0 0) (d0 0) 0 0 3 [d0 0; d0 0; d0 0; d0 0; d0 0; d0 0] ++ dlist (true, 77777%N, 3) (d0 1) 0 0 0 [d0 0; d0 0; d0 0; d0 0; d0 0; d0 0] ++ [].
Example C78_stable_hypotheses_met : control_line (hd [] ex_stable) (qz (1000 * 26 + 56)) (qc 55454 1000) 0 0 1 0 /\ gnd_name 26 56 0 = Some (str "Fe56") /\
  list_at unknown_spin 1%Qc 0 0 0 (repeat 0%Qc 6) (dlist (true, 77777%N, 3) (d0 1) 0 0 0 (repeat (d0 0) 6)).
Proof.
  split; [|split; [reflexivity|dlist_tac]].
  replace (qz (1000 * 26 + 56)) with (dv (d0 26056)) by (apply Qc_is_canon; reflexivity). replace (qc 55454 1000) with (dv (dd 55454 3)) by (apply Qc_is_canon; reflexivity).
  apply dctl_ok; (fit_tac || lens).
Qed.
(** An unknown spin is given as such: false for a stable nuclide. *)
Theorem C78_stable_spin_refuted : option_map v_spin (read_decay ex_stable) = Some (Some unknown_spin).
Proof. vm_compute. do 2 f_equal. Qed.
Print Assumptions C78_stable_spin_refuted.

(** The decay constant, with the same relative uncertainty; a half-life of 0 has none. *)
Theorem C78_constant : forall ln2 h, fst h <> 0%Qc ->
  exists l, decay_constant ln2 h = Some l /\ (fst l * fst h = ln2)%Qc /\ (snd l * fst h = fst l * snd h)%Qc.
Proof.
  intros ln2 [t dt] H. cbn [fst snd] in *. unfold decay_constant. cbn [fst snd]. apply qeqb_neq in H as H'. rewrite H'. eexists. split; [reflexivity|].
  cbn [fst snd]. split; field; exact H.
Qed.
Print Assumptions C78_constant.
Theorem C78_constant_zero : forall ln2 dt, decay_constant ln2 (0%Qc, dt) = None.
Proof. reflexivity. Qed.
Print Assumptions C78_constant_zero.

(** *** Example: two branches, a discrete spectrum of photons and one of electrons with both parts *)
Definition ex_gamma : spectrum :=
  mkSpec (str "gamma") 0 (qc 85 100, qc 2 1000) (qz 562, qz 10) (0%Qc, 0%Qc)
    (Some [mkLine (qz 661657, qz 3) [str "beta-"] None (1%Qc, 0%Qc) None (Some (0%Qc, 0%Qc)) (Some (qc 11 100, qc 1 1000)) None None;
           mkLine (qz 283, qz 1) [str "beta-"; str "n"] None (qc 5 10, 0%Qc) None (Some (0%Qc, 0%Qc)) None None None]) None.
Definition ex_beta : spectrum :=
  mkSpec (str "beta-") 2 (qz 1, 0%Qc) (qz 187, qz 2) (qc 5 10, qc 1 10)
    (Some [mkLine (qz 513, qz 2) [str "beta-"] (Some (str "first-forbidden")) (qc 944 1000, qc 2 1000) None None None None None])
    (Some (mkCPart [str "beta-"] [(2, 2)%Z] [(0%Qc, 1%Qc); (qz 513, 0%Qc)] (Some (2%Z, [(0%Qc, qc 1 10)])))).
Definition ex_u : unstable := {| u_z := 55; u_a := 137; u_m := 0; u_name := str "Cs137"; u_awr := qc 135732 1000; u_lis := 0; u_half := (qz 949000000, qz 1000000);
  u_avg := [(qz 187, qz 2); (qz 562, qz 10); (0%Qc, 0%Qc)]; u_spin := qc 35 10; u_parity := 1%Qc;
  u_branches := [{| b_chain := [1]; b_state := 1; b_energy := (qz 513970, qz 200); b_ratio := (qc 944 1000, qc 2 1000) |};
                 {| b_chain := [1; 5]; b_state := 0; b_energy := (qz 1, 0%Qc); b_ratio := (qc 56 1000, qc 2 1000) |}];
  u_spectra := [ex_gamma; ex_beta] |}.
Definition ex_u_lines : list text :=
  dctl (d0 55137) (dd 135732 3) 0 0 0 2 ::
  dlist (d0 949000000) (d0 1000000) 0 0 3 [d0 187; d0 2; d0 562; d0 10; d0 0; d0 0] ++
  dlist (dd 35 1) (d0 1) 0 0 2 [d0 1; d0 1; d0 513970; d0 200; dd 944 3; dd 2 3; dd 15 1; d0 0; d0 1; d0 0; dd 56 3; dd 2 3] ++
  (dlist (d0 0) (d0 0) 0 0 2 [dd 85 2; dd 2 3; d0 562; d0 10; d0 0; d0 0] ++
   (dlist (d0 661657) (d0 3) 0 0 0 [d0 1; d0 0; d0 1; d0 0; d0 0; d0 0; dd 11 2; dd 1 3] ++
    dlist (d0 283) (d0 1) 0 0 0 [dd 15 1; d0 0; dd 5 1; d0 0; d0 0; d0 0] ++ []) ++ []) ++
  (dlist (d0 0) (d0 1) 2 0 1 [d0 1; d0 0; d0 187; d0 2; dd 5 1; dd 1 1] ++
   (dlist (d0 513) (d0 2) 0 0 0 [d0 1; d0 2; dd 944 3; dd 2 3] ++ []) ++
   (dctl (d0 1) (d0 0) 0 1 1 2 :: [concat [int 2 ++ int 2] ++ []] ++ [concat [dfield (d0 0) ++ dfield (d0 1); dfield (d0 513) ++ dfield (d0 0)] ++ []] ++
    dlist (d0 0) (d0 0) 0 2 0 [d0 0; dd 1 1])) ++ [].
Lemma chain1 : chain [1]. Proof. unfold chain. cbn. repeat split; try discriminate; try lia. repeat constructor. Qed.
Lemma chain15 : chain [1; 5]. Proof. unfold chain. cbn. repeat split; try discriminate; try lia. repeat constructor. Qed.
Ltac sure_tac := unfold usure; discriminate.
Lemma ex_gamma_ok : spectrum_text ex_gamma (dlist (d0 0) (d0 0) 0 0 2 [dd 85 2; dd 2 3; d0 562; d0 10; d0 0; d0 0] ++
   (dlist (d0 661657) (d0 3) 0 0 0 [d0 1; d0 0; d0 1; d0 0; d0 0; d0 0; dd 11 2; dd 1 3] ++
    dlist (d0 283) (d0 1) 0 0 0 [dd 15 1; d0 0; dd 5 1; d0 0; d0 0; d0 0] ++ []) ++ []).
Proof.
  unfold spectrum_text. exists 0%Qc, 0%Z, 0%Z, [], 2%Z. do 3 eexists. split; [reflexivity|]. split; [left; reflexivity|].
  split; [sure_tac|]. split; [sure_tac|]. split; [sure_tac|]. split; [dlist_tac|]. split; [now left|]. split; [|split; reflexivity].
  split; [discriminate|]. split; [reflexivity|]. unfold ex_gamma. cbn [s_type].
  apply lt_cons with (i := 0%Z) (j := 0%Z) (n := 0%Z) (vs := map dv [d0 1; d0 0; d0 1; d0 0; d0 0; d0 0; dd 11 2; dd 1 3]);
    [dlist_tac|sure_tac| |apply lt_cons with (i := 0%Z) (j := 0%Z) (n := 0%Z) (vs := map dv [dd 15 1; d0 0; dd 5 1; d0 0; d0 0; d0 0]); [dlist_tac|sure_tac| |constructor]].
  - exists [1], 0%Z. eexists. split; [exact chain1|]. split; [shelve|]. split; [sure_tac|]. split; [reflexivity|]. split; [left; reflexivity|]. cbn [d_pair d_positron d_total d_k d_l].
    change (eqt (str "gamma") (str "gamma")) with true. cbn iota. exists (0%Qc, 0%Qc). split; [reflexivity|]. split; [sure_tac|]. split; [reflexivity|]. right. left.
    exists (qc 11 100, qc 1 1000). split; [reflexivity|]. split; [sure_tac|]. repeat split. Unshelve. list_tac.
  - exists [1; 5], 0%Z. eexists. split; [exact chain15|]. split; [shelve|]. split; [sure_tac|]. split; [reflexivity|]. split; [left; reflexivity|]. cbn [d_pair d_positron d_total d_k d_l].
    change (eqt (str "gamma") (str "gamma")) with true. cbn iota. exists (0%Qc, 0%Qc). split; [reflexivity|]. split; [sure_tac|]. split; [reflexivity|]. left. repeat split. Unshelve. list_tac.
Qed.
Lemma ex_beta_ok : spectrum_text ex_beta (dlist (d0 0) (d0 1) 2 0 1 [d0 1; d0 0; d0 187; d0 2; dd 5 1; dd 1 1] ++
   (dlist (d0 513) (d0 2) 0 0 0 [d0 1; d0 2; dd 944 3; dd 2 3] ++ []) ++
   (dctl (d0 1) (d0 0) 0 1 1 2 :: [concat [int 2 ++ int 2] ++ []] ++ [concat [dfield (d0 0) ++ dfield (d0 1); dfield (d0 513) ++ dfield (d0 0)] ++ []] ++
    dlist (d0 0) (d0 0) 0 2 0 [d0 0; dd 1 1])).
Proof.
  unfold spectrum_text. exists 0%Qc, 1%Z, 0%Z, [], 1%Z. do 3 eexists. split; [reflexivity|]. split; [right; left; reflexivity|].
  split; [sure_tac|]. split; [sure_tac|]. split; [sure_tac|]. split; [dlist_tac|]. split; [now right; right|]. split; (split; [discriminate|]).
  - split; [reflexivity|]. unfold ex_beta. cbn [s_type].
    apply lt_cons with (i := 0%Z) (j := 0%Z) (n := 0%Z) (vs := map dv [d0 1; d0 2; dd 944 3; dd 2 3]); [dlist_tac|sure_tac| |constructor].
    exists [1], 2%Z, []. split; [exact chain1|]. split; [list_tac|]. split; [sure_tac|]. split; [reflexivity|]. split; [right; right; left; reflexivity|].
    change (eqt (str "beta-") (str "gamma")) with false. change (eqt (str "beta-") (str "ec/beta+")) with false. repeat split.
  - unfold cont_text. exists (dctl (d0 1) (d0 0) 0 1 1 2), [1], (dv (d0 0)), 0%Z, 1%Z. do 3 eexists. split; [reflexivity|].
    split; [replace (rtyp [1]) with (dv (d0 1)) by (apply Qc_is_canon; reflexivity); apply dctl_ok; (fit_tac || lens)|].
    split; [exact chain1|]. split; [reflexivity|]. cbn [ex_beta c_regions c_points c_cov].
    split; [apply rows_last; [discriminate|cbn; lia|]; constructor; [|constructor]; exists (int 2), (int 2); repeat split; apply int_ok; lens|].
    split; [apply rows_last; [discriminate|cbn; lia|]; constructor; [|constructor; [|constructor]]|split; [discriminate|]].
    + exists (dfield (d0 0)), (dfield (d0 1)). cbn [fst snd]. split; [reflexivity|].
      replace 0%Qc with (dv (d0 0)) at 1 by (apply Qc_is_canon; reflexivity). replace 1%Qc with (dv (d0 1)) by (apply Qc_is_canon; reflexivity).
      split; apply dfield_ok; fit_tac.
    + exists (dfield (d0 513)), (dfield (d0 0)). cbn [fst snd]. split; [reflexivity|].
      replace 0%Qc with (dv (d0 0)) by (apply Qc_is_canon; reflexivity). replace (qz 513) with (dv (d0 513)) by (apply Qc_is_canon; reflexivity).
      split; apply dfield_ok; fit_tac.
    + exists 0%Qc, 0%Qc, 0%Z, 0%Z. dlist_tac.
Qed.
Example C78_decay_hypotheses_met : unstable_text ex_u ex_u_lines /\ u_spin ex_u <> unknown_spin.
Proof.
  split; [|discriminate]. unfold unstable_text, ex_u_lines. exists (dctl (d0 55137) (dd 135732 3) 0 0 0 2), (qz 55137), 0%Z, 0%Z, 0%Z, 3%Z.
  eexists. exists 0%Z, 0%Z, []. do 2 eexists. split; [reflexivity|].
  split; [replace (qz 55137) with (dv (d0 55137)) by (apply Qc_is_canon; reflexivity); change (u_awr ex_u) with (qc 135732 1000);
          replace (qc 135732 1000) with (dv (dd 135732 3)) by (apply Qc_is_canon; reflexivity); apply dctl_ok; (fit_tac || lens)|].
  split; [discriminate|]. split; [reflexivity|]. split; [cbn; lia|]. split; [cbn; lia|]. split; [reflexivity|]. split; [dlist_tac|]. split; [sure_tac|].
  split; [now left|]. split; [repeat (apply Forall_cons; [sure_tac|]); apply Forall_nil|]. split; [dlist_tac|].
  split; [repeat (apply Forall_cons; [split; [exact chain1 || exact chain15|repeat split; discriminate]|]); apply Forall_nil|].
  apply ss_cons; [exact ex_gamma_ok|]. apply ss_cons; [exact ex_beta_ok|constructor].
Qed.
(** Two spectra of photons. *)
Definition ex_gamma2 : spectrum := mkSpec (str "gamma") 0 (qc 15 100, qc 2 1000) (qz 562, qz 10) (0%Qc, 0%Qc) (Some []) None.
Definition ex_u2 : unstable := {| u_z := 55; u_a := 137; u_m := 0; u_name := str "Cs137"; u_awr := qz 135; u_lis := 0; u_half := (qz 949, qz 1);
  u_avg := [(qz 187, qz 2); (qz 562, qz 10); (0%Qc, 0%Qc)]; u_spin := unknown_spin; u_parity := 1%Qc; u_branches := []; u_spectra := [ex_gamma; ex_gamma2] |}.
Example C78_spectra_refuted_hypotheses_met : (exists ls, unstable_text ex_u2 ls) /\ u_spectra ex_u2 = [] ++ ex_gamma :: [] ++ ex_gamma2 :: [] /\
  s_type ex_gamma = s_type ex_gamma2 /\ ex_gamma2 <> ex_gamma.
Proof.
  split; [|split; [reflexivity|split; [reflexivity|discriminate]]]. eexists. unfold unstable_text. exists (dctl (d0 55137) (d0 135) 0 0 0 2), (qz 55137), 0%Z, 0%Z, 0%Z, 3%Z.
  exists (dlist (d0 949) (d0 1) 0 0 3 [d0 187; d0 2; d0 562; d0 10; d0 0; d0 0]), 0%Z, 0%Z, [], (dlist (true, 77777%N, 3) (d0 1) 0 0 0 []). eexists. split; [reflexivity|].
  split; [replace (qz 55137) with (dv (d0 55137)) by (apply Qc_is_canon; reflexivity); change (u_awr ex_u2) with (qz 135);
          replace (qz 135) with (dv (d0 135)) by (apply Qc_is_canon; reflexivity); apply dctl_ok; (fit_tac || lens)|].
  split; [discriminate|]. split; [reflexivity|]. split; [cbn; lia|]. split; [cbn; lia|]. split; [reflexivity|]. split; [dlist_tac|]. split; [sure_tac|].
  split; [now left|]. split; [repeat (apply Forall_cons; [sure_tac|]); apply Forall_nil|]. split; [dlist_tac|]. split; [apply Forall_nil|].
  apply ss_cons; [exact ex_gamma_ok|]. apply ss_cons; [|constructor].
  unfold spectrum_text. exists 0%Qc, 0%Z, 0%Z, [], 0%Z. exists (dlist (d0 0) (d0 0) 0 0 0 [dd 15 2; dd 2 3; d0 562; d0 10; d0 0; d0 0]), [], []. split; [reflexivity|]. split; [left; reflexivity|].
  split; [sure_tac|]. split; [sure_tac|]. split; [sure_tac|]. split; [dlist_tac|]. split; [now left|]. split; [|split; reflexivity].
  split; [discriminate|]. split; [reflexivity|constructor].
Qed.
