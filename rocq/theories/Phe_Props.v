(** C94: photon data from ENDF files. *)
From Coq Require Import ZArith NArith QArith Qcanon List Bool Lia String.
From Verif Require Import Num Text Dec Endf_Model Endf_Spec Neut_Model Neut_Spec Neut_Proofs Hdf_Model Atom_Model Atom_Spec Atom_Proofs Phe_Model Phe_Spec Phe_Proofs.
From Verif Require Endf_Props Dcy_Spec Dcy_Props Atom_Props.
Import ListNotations.
Local Open Scope list_scope.
Local Open Scope Z_scope.

(** Binding energies, electrons and transitions of each subshell, under its name; nothing else. *)
Theorem C94_relaxation : forall ev us ls, ev 28 533 = Some ls -> relax_text us ls -> esane us ->
  exists r ns, relaxation_from_endf ev = Some r /\ Forall2 (fun u n => named (u_number u) n) us ns /\
    r_binding r = combine ns (map u_binding us) /\ r_electrons r = combine ns (map u_electrons us) /\
    Forall2 (transits (r_transitions r)) us ns /\ forall n, ~ In n ns -> look n (r_transitions r) = None.
Proof. intros ev us ls E T S. destruct (erelaxation_ok ev us ls E T S) as (r & ns & Er & F & _ & B & K & Ft & N). exists r, ns. tauto. Qed.
Print Assumptions C94_relaxation.
(** An ACE table and a file that describe the same atom give the same data. *)
Theorem C94_agree : forall exp a c ev us ls, says a c -> sane c -> c_subs c <> [] -> ev 28 533 = Some ls -> relax_text us ls -> esane us -> Forall2 same us (c_subs c) ->
  exists p r r', from_ace exp a = Some p /\ ph_relaxation p = Some r /\ relaxation_from_endf ev = Some r' /\
    r_binding r = r_binding r' /\ r_electrons r = r_electrons r' /\ forall n, look n (r_transitions r) = look n (r_transitions r').
Proof.
  intros exp a c ev us ls Sa Sc Ne E T Se F. destruct (Atom_Props.C93_relaxation exp a c Sa Sc Ne) as (p & r & ns & Ep & Er & N & (B & K & Ft) & O). destruct (erelaxation_ok ev us ls E T Se) as (r' & ns' & Er' & N' & ND & B' & K' & Ft' & O').
  exists p, r, r'. split; [exact Ep|]. split; [exact Er|]. split; [exact Er'|]. pose proof (same_names _ _ F _ _ N' N) as <-. rewrite B, B', K, K'.
  split; [f_equal; clear - F; induction F as [|u s us ss (_ & Eb & _) F IH]; cbn [map]; [reflexivity|now rewrite IH, Eb]|].
  split; [f_equal; clear - F; induction F as [|u s us ss (_ & _ & Ek & _) F IH]; cbn [map]; [reflexivity|now rewrite IH, Ek]|].
  intros n. destruct (in_dec String.string_dec n ns') as [I0|I0]; [|now rewrite O, O']. clear - F Ft Ft' I0. revert F Ft Ft' I0. generalize (r_transitions r) (r_transitions r') (c_subs c). intros d d' ss F Ft Ft' I0.
  revert us ss F Ft Ft'. induction ns' as [|m ns' IH]; intros us ss F Ft Ft'; [destruct I0|]. inversion Ft as [|s ? ss' ? Hs Fs]; subst. inversion Ft' as [|u ? us' ? Hu Fu]; subst. inversion F as [|? ? ? ? Hsame F']; subst.
  destruct I0 as [->|I0]; [|now apply (IH I0 us' ss')]. destruct Hsame as (_ & _ & _ & A). pose proof (adds_empty _ _ _ A) as [A1 A2]. unfold transits in Hu. unfold transited in Hs.
  destruct (u_transitions u) as [|x xs] eqn:Ex.
  - rewrite (A1 eq_refl) in Hs. congruence.
  - destruct (s_transitions s) as [|t ts] eqn:Et; [specialize (A2 eq_refl); discriminate|]. destruct Hu as (rows' & E1 & Fr). destruct Hs as (rows & E2 & Ow). rewrite E1, E2. f_equal. symmetry. exact (adds_rows _ _ _ A _ _ Fr Ow).
Qed.
Print Assumptions C94_agree.
(** Without the section there is no relaxation. *)
Theorem C94_none : forall ev dir e, e 28 533 = None -> relaxation_from_endf e = None /\ from_endf ev dir (Some e) = None.
Proof. intros ev dir e E. assert (R : relaxation_from_endf e = None) by (unfold relaxation_from_endf; now rewrite E). split; [exact R|]. unfold from_endf. destruct (reactions_from ev dir []); [now rewrite R|reflexivity]. Qed.
Print Assumptions C94_none.
(** A reaction: cross section, scattering factor, for coherent scattering the anomalous
    factors, for subshells binding energy and fluorescence yield. *)
Theorem C94_reaction : forall ev mt xs ff re im, has (ev 23 mt) xs -> has (ev 27 mt) ff -> (mt = 502 -> has (ev 27 506) re /\ has (ev 27 505) im) ->
  exists r, reaction_from_endf ev mt = Some r /\ e_mt r = mt /\ e_xs r = option_map snd xs /\ e_factor r = option_map snd ff /\
    (mt = 502 -> e_real r = option_map snd re /\ e_imag r = option_map snd im) /\ (mt <> 502 -> e_real r = None /\ e_imag r = None) /\
    (534 <= mt <= 599 -> e_binding r = option_map (fun t => fst (fst t)) xs) /\ (~ 534 <= mt <= 599 -> e_binding r = None) /\
    (534 <= mt <= 572 -> e_yield r = option_map (fun t => snd (fst t)) xs) /\ (~ 534 <= mt <= 572 -> e_yield r = None).
Proof.
  intros ev mt xs ff re im Hx Hf Ha. unfold reaction_from_endf. rewrite (has_ok _ _ Hx), (has_ok _ _ Hf).
  destruct (Z.eqb_spec mt 502) as [E|E].
  - destruct (Ha E) as [Hr Hi]. rewrite (has_ok _ _ Hr), (has_ok _ _ Hi). eexists. split; [reflexivity|]. cbn [e_mt e_xs e_factor e_real e_imag e_binding e_yield]. subst mt. repeat split; intros; try lia; try reflexivity; contradiction.
  - eexists. split; [reflexivity|]. cbn [e_mt e_xs e_factor e_real e_imag e_binding e_yield option_map]. repeat split; intros; try contradiction;
      repeat match goal with |- context[?a <=? ?b] => destruct (Z.leb_spec a b) end; cbn [andb]; try reflexivity; lia.
Qed.
Print Assumptions C94_reaction.
Lemma assign_in {V} k (v : V) l k' v' : NoDup (map fst l) -> (In (k', v') (assign k v l) <-> (k' = k /\ v' = v) \/ (k' <> k /\ In (k', v') l)) /\ NoDup (map fst (assign k v l)) /\ forall m, In m (map fst (assign k v l)) <-> m = k \/ In m (map fst l).
Proof.
  induction l as [|[a b] l IH]; intros ND; cbn [assign].
  - cbn [map fst In]. split; [|split; [constructor; [intros []|constructor]|intros m; split; intros [H|[]]; left; now symmetry]]. split; [intros [E|[]]; left; split; congruence|intros [[-> ->]|[_ []]]; now left].
  - cbn [map fst] in ND. inversion ND as [|? ? Na ND']; subst. destruct (Z.eqb_spec k a) as [->|Ne]; cbn [map fst In].
    + split; [|split; [now constructor|intros m; split; [intros [H|H]; [left; now symmetry|right; now right]|intros [->|[H|H]]; [now left|now left|now right]]]]. split.
      * intros [E|I0]; [left; split; congruence|]. right. split; [|now right]. intros ->. apply Na. now apply (in_map fst) in I0.
      * intros [[-> ->]|[N [E|I0]]]; [now left|congruence|now right].
    + destruct (IH ND') as (I1 & N1 & M1). split; [|split].
      * split; [intros [E|I0]; [right; split; [congruence|now left]|apply I1 in I0 as [I0|[N I0]]; [now left|right; split; [exact N|now right]]]|]. intros [I0|[N [E|I0]]]; [right; apply I1; now left|now left|right; apply I1; right; now split].
      * constructor; [|exact N1]. intros I0. apply M1 in I0 as [->|I0]; [congruence|contradiction].
      * intros m. split; [intros [H|H]; [right; now left|apply M1 in H as [H|H]; [now left|right; now right]]|intros [H|[H|H]]; [right; apply M1; now left|now left|right; apply M1; now right]].
Qed.
(** The reactions of an evaluation are those its directory lists in file 23, each once and each
    as it is read by itself. *)
Theorem C94_listed : forall ev dir rel rs r, from_endf ev dir rel = Some (rs, r) ->
  NoDup (map fst rs) /\ (forall mt x, In (mt, x) rs <-> In (23, mt) dir /\ reaction_from_endf ev mt = Some x) /\
  r = match rel with None => None | Some e => relaxation_from_endf e end.
Proof.
  intros ev dir rel rs r H. unfold from_endf in H. destruct (reactions_from ev dir []) as [rs'|] eqn:E; [|discriminate].
  assert (r = match rel with None => None | Some e => relaxation_from_endf e end /\ rs' = rs) as [Er ->].
  { destruct rel as [e|]; [destruct (relaxation_from_endf e); [|discriminate]|]; injection H as <- <-; split; reflexivity. }
  assert (G : forall dir d rs, reactions_from ev dir d = Some rs -> NoDup (map fst d) -> (forall mt x, In (mt, x) d -> reaction_from_endf ev mt = Some x) ->
    NoDup (map fst rs) /\ forall mt x, In (mt, x) rs <-> In (mt, x) d \/ (In (23, mt) dir /\ reaction_from_endf ev mt = Some x)).
  { clear. induction dir as [|[mf m] dir IH]; intros d rs E ND R; cbn [reactions_from] in E.
    - injection E as <-. split; [exact ND|]. intros mt x. split; [now left|intros [H|[[] _]]; exact H].
    - destruct (Z.eqb_spec mf 23) as [->|Ne].
      + destruct (reaction_from_endf ev m) as [y|] eqn:Ey; [|discriminate].
        destruct (IH _ _ E) as [N1 I1]; [apply (assign_in m y d m y ND)|intros mt x I0; apply (assign_in m y d mt x ND) in I0 as [[-> ->]|[_ I0]]; [exact Ey|now apply R]|]. split; [exact N1|].
        intros mt x. rewrite I1. destruct (assign_in m y d mt x ND) as (A & _). rewrite A. cbn [In]. split.
        * intros [[[-> ->]|[_ I0]]|[I0 Ex]]; [right; split; [now left|exact Ey]|now left|right; split; [now right|exact Ex]].
        * intros [I0|[[E0|I0] Ex]].
          -- destruct (Z.eq_dec mt m) as [->|Nm]; [left; left; split; [reflexivity|specialize (R m x I0); congruence]|left; right; now split].
          -- injection E0 as <-. left. left. split; [reflexivity|congruence].
          -- right. now split.
      + destruct (IH _ _ E ND R) as [N1 I1]. split; [exact N1|]. intros mt x. rewrite I1. cbn [In]. split; [intros [I0|[I0 Ex]]; [now left|right; split; [now right|exact Ex]]|intros [I0|[[E0|I0] Ex]]; [now left|congruence|right; now split]]. }
  destruct (G dir [] rs E) as [N I0]; [constructor|intros ? ? []|]. split; [exact N|]. split; [|exact Er]. intros mt x. rewrite I0. split; [intros [[]|K]; exact K|now right].
Qed.
Print Assumptions C94_listed.
(** Not so: that a reaction read has a cross section.  One that is listed and is not there is
    made without, and without an error. *)
Theorem C94_missing_refuted : forall ev mt ff re im, ev 23 mt = None -> has (ev 27 mt) ff -> (mt = 502 -> has (ev 27 506) re /\ has (ev 27 505) im) ->
  exists x, from_endf ev [(23, mt)] None = Some ([(mt, x)], None) /\ e_xs x = None.
Proof.
  intros ev mt ff re im E Hf Ha. destruct (C94_reaction ev mt None ff re im E Hf Ha) as (x & Ex & _ & X & _). exists x. split; [|exact X]. unfold from_endf. cbn [reactions_from Z.eqb Pos.eqb assign]. now rewrite Ex.
Qed.
Print Assumptions C94_missing_refuted.

(** *** Examples *)
Import Endf_Props Dcy_Props.
(** The atom of the ACE table [at_a], as a file. *)
Definition zero4 : Qc * Qc * Qc * Qc := (0%Qc, 0%Qc, 0%Qc, 0%Qc).
Definition pe_us : list esub :=
  [mkEsub 1 (qz 50000000) (qz 2) zero4 [mkEtrans 4 0 (qz 70000000) (qz 3) (0%Qc, 0%Qc); mkEtrans 2 4 (qz 71000000) (qz 4) (0%Qc, 0%Qc)];
   mkEsub 2 (qz 51000000) (qz 2) zero4 []; mkEsub 4 (qz 52000000) (qz 3) zero4 [mkEtrans 4 4 (qz 72000000) (qz 9) (0%Qc, 0%Qc)]].
Definition pe_parts : list (list text) :=
  [dlist (d0 1) (d0 0) 0 0 2 (map d0 [50000000; 2; 0; 0; 0; 0; 4; 0; 70000000; 3; 0; 0; 2; 4; 71000000; 4; 0; 0]%N);
   dlist (d0 2) (d0 0) 0 0 0 (map d0 [51000000; 2; 0; 0; 0; 0]%N);
   dlist (d0 4) (d0 0) 0 0 1 (map d0 [52000000; 3; 0; 0; 0; 0; 4; 4; 72000000; 9; 0; 0]%N)].
Definition pe_ls : list text := dctl (d0 92000) (d0 236) 0 0 3 0 :: concat pe_parts ++ [].
Lemma pe_text : relax_text pe_us pe_ls.
Proof.
  do 6 eexists. exists pe_parts, []. split; [reflexivity|]. split; [apply dctl_ok; [fit_tac|fit_tac|lens|lens|lens|lens]|].
  repeat (constructor; [exists (dv (d0 0)), 0, 0; cbn [u_number u_binding u_electrons u_pad u_transitions items flat_map six app x_second x_third x_energy x_probability x_pad fst snd zero4 map size List.length]; dlist_tac|]). constructor.
Qed.
Lemma pe_sane : esane pe_us.
Proof.
  assert (N1 : named 1 "K") by (split; [lia|reflexivity]). assert (N2 : named 2 "L1") by (split; [lia|reflexivity]). assert (N4 : named 4 "L3") by (split; [lia|reflexivity]).
  split; [repeat (constructor; [cbn; lia|]); constructor|]. intros u [<-|[<-|[<-|[]]]]; (split; [eexists; eassumption|]); (split; [discriminate|]); (split; [discriminate|]); intros t It; cbn [u_transitions In] in It; repeat (destruct It as [<-|It]); try (destruct It);
    split; first [eexists; right; eexists; split; [eassumption|reflexivity]|eexists; left; split; reflexivity].
Qed.
Lemma pe_same : Forall2 same pe_us (c_subs Atom_Props.at_c).
Proof.
  repeat (constructor; [split; [reflexivity|]; split; [apply Qc_is_canon; reflexivity|]; split; [reflexivity|];
    repeat (constructor; [reflexivity|reflexivity|apply Qc_is_canon; reflexivity|apply Qc_is_canon; reflexivity|]); constructor|]). constructor.
Qed.
(** An evaluation: coherent scattering with all factors and the K shell. *)
Definition pe_fn (a : Z) : fn := mkFn [qz 1; qz 20] [qz a; qz 30] [2] [2].
Definition pe_tab (b y : N) (a : N) : list text :=
  dctl (d0 92000) (d0 236) 0 0 0 0 :: dctl (d0 b) (d0 y) 0 0 1 2 :: [Endf_Props.int 2 ++ Endf_Props.int 2] ++ [dfield (d0 1) ++ dfield (d0 a) ++ dfield (d0 20) ++ dfield (d0 30)] ++ [].
Lemma pe_tab_ok b y a z : fits (d0 b) -> fits (d0 y) -> fits (d0 a) -> dv (d0 a) = qz z -> table_text (dv (d0 b)) (dv (d0 y)) (pe_fn z) (pe_tab b y a).
Proof.
  intros Fb Fy Fa E. do 8 eexists. exists 0, 0. do 3 eexists. split; [reflexivity|]. split; [apply dctl_ok; [fit_tac|fit_tac|lens|lens|lens|lens]|]. split; [apply dctl_ok; [exact Fb|exact Fy|lens|lens|lens|lens]|].
  split; [reflexivity|]. split; [reflexivity|]. split.
  - replace (Endf_Props.int 2 ++ Endf_Props.int 2) with (concat [Endf_Props.int 2 ++ Endf_Props.int 2] ++ []) by reflexivity. apply rows_last; [discriminate|cbn; lia|]. constructor; [|constructor].
    exists (Endf_Props.int 2), (Endf_Props.int 2). repeat split; (apply Endf_Props.int_ok; lens).
  - replace (dfield (d0 1) ++ dfield (d0 a) ++ dfield (d0 20) ++ dfield (d0 30)) with (concat [dfield (d0 1) ++ dfield (d0 a); dfield (d0 20) ++ dfield (d0 30)] ++ []) by (cbn [concat]; now rewrite !app_nil_r, <- !app_assoc).
    apply rows_last; [discriminate|cbn; lia|]. constructor; [|constructor; [|constructor]]; eexists _, _; (split; [reflexivity|]); cbn [fst snd]; split.
    2: rewrite <- E; apply dfield_ok; exact Fa.
    1, 2, 3: match goal with |- number_field (dfield ?x) ?q => replace q with (dv x) by (apply Qc_is_canon; reflexivity) end; apply dfield_ok; fit_tac.
Qed.
Definition pe_ev : sections := fun mf mt =>
  if (mf =? 23) && (mt =? 502) then Some (pe_tab 0 0 5) else if (mf =? 27) && (mt =? 502) then Some (pe_tab 0 0 6)
  else if (mf =? 27) && (mt =? 506) then Some (pe_tab 0 0 7) else if (mf =? 27) && (mt =? 505) then Some (pe_tab 0 0 8)
  else if (mf =? 23) && (mt =? 534) then Some (pe_tab 115606 1 9) else if (mf =? 28) && (mt =? 533) then Some pe_ls else None.
Example C94_relaxation_hypotheses_met : pe_ev 28 533 = Some pe_ls /\ relax_text pe_us pe_ls /\ esane pe_us /\
  option_map (fun r => map (fun e => (fst e, map (fun t => let '(j, k, en, q) := t in (j, k, this en, this q)) (snd e))) (r_transitions r)) (relaxation_from_endf pe_ev) =
  Some [("K", [(Some "L3", None, 70000000#1, 3#1)%Q; (Some "L1", Some "L3", 71000000#1, 4#1)%Q]); ("L3", [(Some "L3", Some "L3", 72000000#1, 9#1)%Q])]%string.
Proof. split; [reflexivity|]. split; [exact pe_text|]. split; [exact pe_sane|]. vm_compute. reflexivity. Qed.
Example C94_agree_hypotheses_met : says Atom_Props.at_a Atom_Props.at_c /\ sane Atom_Props.at_c /\ c_subs Atom_Props.at_c <> [] /\ pe_ev 28 533 = Some pe_ls /\ relax_text pe_us pe_ls /\ esane pe_us /\ Forall2 same pe_us (c_subs Atom_Props.at_c).
Proof. split; [exact Atom_Props.at_says|]. split; [exact Atom_Props.at_sane|]. split; [discriminate|]. split; [reflexivity|]. split; [exact pe_text|]. split; [exact pe_sane|exact pe_same]. Qed.
Example C94_reaction_hypotheses_met : (has (pe_ev 23 502) (Some (dv (d0 0), dv (d0 0), pe_fn 5)) /\ has (pe_ev 27 502) (Some (dv (d0 0), dv (d0 0), pe_fn 6)) /\
    has (pe_ev 27 506) (Some (dv (d0 0), dv (d0 0), pe_fn 7)) /\ has (pe_ev 27 505) (Some (dv (d0 0), dv (d0 0), pe_fn 8))) /\
  has (pe_ev 23 534) (Some (dv (d0 115606), dv (d0 1), pe_fn 9)) /\ has (pe_ev 27 534) None.
Proof.
  repeat split; eexists; (split; [reflexivity|]); apply pe_tab_ok; try fit_tac; apply Qc_is_canon; reflexivity.
Qed.
Example C94_listed_hypotheses_met : exists rs r, from_endf pe_ev [(1, 451); (23, 502); (23, 534); (27, 502)] (Some pe_ev) = Some (rs, Some r) /\
  map fst rs = [502; 534] /\ map (fun e => option_map this (e_binding (snd e))) rs = [None; Some (115606 # 1)%Q] /\ map fst (r_binding r) = ["K"; "L1"; "L3"]%string.
Proof. do 2 eexists. split; [vm_compute; reflexivity|]. repeat split. Qed.
Example C94_none_hypotheses_met : (fun mf mt : Z => if mf =? 23 then pe_ev mf mt else None) 28 533 = None.
Proof. reflexivity. Qed.
Example C94_missing_refuted_hypotheses_met : pe_ev 23 504 = None /\ has (pe_ev 27 504) None /\ 504 <> 502.
Proof. repeat split. discriminate. Qed.
