(** Atomic masses and weights, theorems. *)
From Coq Require Import ZArith NArith QArith Qcanon List Bool Lia String Ascii.
From Verif Require Import Num Text Dec PyNum Mass_Model Mass_Spec Mass_Proofs.
From Verif Require Sampler_Model Sab_Model.
Import ListNotations.
Local Open Scope list_scope.
Local Open Scope nat_scope.

(** The states of the cache a program comes to by any calls, the file staying the same. *)
Inductive reached (ls : list text) : masses -> Prop :=
| re_start : reached ls []
| re_mass d s : reached ls d -> reached ls (snd (atomic_mass ls d s))
| re_weight d el : reached ls d -> reached ls (snd (atomic_weight ls d el)).
(** A file that is complete: a line for every nuclide, no nuclide twice, all natural isotopes
    of the five elements with data of the mixture. *)
Definition complete (ls : list text) (ns : list nucl) (cs : list (string * list (Qc * Qc))) : Prop :=
  file_text ls ns /\ distinct ns /\ map fst cs = mixtures /\ forall p, In p cs -> composition ns (fst p) (snd p).

Lemma weigh_ready ls el t : forall L, load ls = (L, true) -> L <> [] -> forall w d, ready ls d -> ready ls (snd (weigh ls el t w d)).
Proof.
  intros L E N. induction t as [|[iso ab] t IH]; intros w d R; [exact R|]. cbn [weigh]. destruct (Sab_Model.is_isotope el iso); [|now apply IH].
  rewrite (atomic_mass_ready ls d (str iso) L E N R). assert (RL : ready ls L) by (right; now rewrite E). destruct (mass_at _ L); [now apply IH|exact RL].
Qed.
Lemma reached_ready ls L d : load ls = (L, true) -> L <> [] -> reached ls d -> ready ls d.
Proof.
  intros E N. induction 1 as [|d s R IH|d el R IH]; [now left| |].
  - rewrite (atomic_mass_ready ls d s L E N IH). right. now rewrite E.
  - unfold atomic_weight. pose proof (weigh_ready ls el Sab_Model.natural_abundance L E N 0%Qc d IH) as W. destruct (weigh ls el Sab_Model.natural_abundance 0%Qc d) as [[w|] d']; [|exact W]. destruct (qltb 0%Qc w); exact W.
Qed.

(** ** Masses *)
(** The mass of a nuclide is that of its line in the file, in whatever case it is spelled,
    in whatever isomeric state it is, whatever was asked before. *)
Theorem C85_mass : forall ls ns cs d n s, complete ls ns cs -> reached ls d -> In n ns -> names s n -> fst (atomic_mass ls d s) = Some (n_mass n).
Proof.
  intros ls ns cs d n s (F & D & Ec & Hc) R I Nm. destruct (load_ok ls ns cs F D Ec Hc) as (L & E & NL & V & _ & _).
  rewrite (atomic_mass_ready ls d s L E NL (reached_ready ls L d E NL R)). cbn [fst]. rewrite (names_key s n Nm). now apply V.
Qed.
Print Assumptions C85_mass.
(** That of a natural mixture is the mean of those of the isotopes. *)
Theorem C85_mixture : forall ls ns cs d el l s, complete ls ns cs -> reached ls d -> In (el, l) cs -> same_name s (str el ++ ["0"%char]) -> ~ In "_"%char s -> fst (atomic_mass ls d s) = Some (mean l).
Proof.
  intros ls ns cs d el l s (F & D & Ec & Hc) R I Nm U. destruct (load_ok ls ns cs F D Ec Hc) as (L & E & NL & _ & V & _).
  rewrite (atomic_mass_ready ls d s L E NL (reached_ready ls L d E NL R)). cbn [fst]. rewrite ground_plain by assumption. rewrite Nm.
  replace (Sampler_Model.lower (str el ++ ["0"%char])) with (mixture el) by (unfold mixture, Sampler_Model.lower; now rewrite map_app). exact (V (el, l) I).
Qed.
Print Assumptions C85_mixture.
(** There is an answer for no other name. *)
Theorem C85_unknown : forall ls ns cs d t m, complete ls ns cs -> reached ls d -> ~ In "_"%char t -> (forall n, In n ns -> ~ same_name t (name_of n)) -> (forall el, In el mixtures -> ~ same_name t (str el ++ ["0"%char])) ->
  fst (atomic_mass ls d t) = None /\ fst (atomic_mass ls d (t ++ "_"%char :: m)) = None.
Proof.
  intros ls ns cs d t m (F & D & Ec & Hc) R U H1 H2. destruct (load_ok ls ns cs F D Ec Hc) as (L & E & NL & _ & _ & O).
  assert (X : mass_at (Sampler_Model.lower t) L = None).
  { apply O. intros I. apply in_app_or in I as [I|I]; apply in_map_iff in I as (y & Ey & Iy); [apply (H1 y Iy)|apply (H2 y Iy)]; unfold same_name; rewrite <- Ey; [reflexivity|].
    unfold mixture, Sampler_Model.lower. now rewrite map_app. }
  pose proof (reached_ready ls L d E NL R) as Rd. rewrite !(atomic_mass_ready ls d _ L E NL Rd). cbn [fst]. rewrite ground_plain, ground_state by assumption. now split.
Qed.
Print Assumptions C85_unknown.
(** The file is read once: with anything in the cache, it does not matter. *)
Theorem C85_cached : forall ls ls' d s, d <> [] -> atomic_mass ls d s = atomic_mass ls' d s /\ snd (atomic_mass ls d s) = d.
Proof. intros ls ls' [|p d] s N; [congruence|]. now split. Qed.
Print Assumptions C85_cached.
(** Not true: asking again after a failure fails again.  If a line cannot be read, the first
    call raises, and the next ones answer out of the lines before it. *)
Theorem C85_failure_refuted : forall h t bad r ns n s s', List.length h = 39 -> Forall2 mass_text t ns -> NoDup (map (fun n => Sampler_Model.lower (name_of n)) ns) -> mass_line bad = None -> In n ns -> names s n ->
  let ls := h ++ t ++ bad :: r in fst (atomic_mass ls [] s') = None /\ fst (atomic_mass ls (snd (atomic_mass ls [] s')) s) = Some (n_mass n).
Proof.
  intros h t bad r ns n s s' Lh F N B I Nm ls. destruct (load_lines_ok t ns F N []) as (d & E & V & _).
  assert (X : forall d0 d1, load_lines t d0 = (d1, true) -> load_lines (t ++ bad :: r) d0 = (d1, false)).
  { clear - B. induction t as [|l t IH]; intros d0 d1 H; cbn [app load_lines] in *; [injection H as <-; now rewrite B|]. destruct (mass_line l) as [[k v]|]; [now apply IH|discriminate]. }
  assert (El : load ls = (d, false)).
  { unfold load, ls. rewrite skipn_app, skipn_all2, Lh, Nat.sub_diag by lia. cbn [app skipn]. now rewrite (X [] d E). }
  assert (Nd : d <> []) by (intros ->; specialize (V n I); discriminate).
  unfold atomic_mass at 1 3. rewrite El. cbn [fst snd]. split; [reflexivity|]. unfold atomic_mass. destruct d as [|p d]; [congruence|]. cbn [fst]. rewrite (names_key s n Nm). now apply V.
Qed.
Print Assumptions C85_failure_refuted.
(** Nor that what is answered is a mass: with a natural isotope of carbon missing, the first
    call raises, and the next one for the mixture answers 0. *)
Theorem C85_zero_refuted : forall h t ns s, List.length h = 39 -> Forall2 mass_text t ns -> NoDup (map (fun n => Sampler_Model.lower (name_of n)) ns) ->
  ~ In (str "c12") (map (fun n => Sampler_Model.lower (name_of n)) ns) ->
  let ls := h ++ t in fst (atomic_mass ls [] s) = None /\ fst (atomic_mass ls (snd (atomic_mass ls [] s)) (str "C0")) = Some 0%Qc.
Proof.
  intros h t ns s Lh F N H ls. destruct (load_lines_ok t ns F N []) as (d & E & V & O).
  assert (El : load ls = (set_mass (str "c0") 0%Qc d, false)).
  { unfold load, ls. rewrite skipn_app, skipn_all2, Lh, Nat.sub_diag by lia. cbn [app skipn]. rewrite E. unfold natural. cbn [add_elements].
    change (Sampler_Model.lower (str "C") ++ ["0"%char]) with (str "c0").
    assert (Sp : exists ab r t0, Sab_Model.natural_abundance = t0 ++ ("C12"%string, ab) :: r /\ forallb (fun p => negb (Sab_Model.is_isotope "C" (fst p))) t0 = true).
    { do 2 eexists. exists (firstn 9 Sab_Model.natural_abundance). split; [|vm_compute; reflexivity]. rewrite <- (firstn_skipn 9 Sab_Model.natural_abundance) at 1. f_equal. cbv [Sab_Model.natural_abundance skipn]. reflexivity. }
    destruct Sp as (ab & r & t0 & Et & St). rewrite Et. clear Et. 
    assert (X : add_isotopes "C" (t0 ++ ("C12"%string, ab) :: r) (set_mass (str "c0") 0%Qc d) = (set_mass (str "c0") 0%Qc d, false)).
    { induction t0 as [|[i b] t0 IH]; cbn [app add_isotopes].
      - change (Sab_Model.is_isotope "C" "C12") with true. cbn iota zeta. change (Sampler_Model.lower (str "C") ++ ["0"%char]) with (str "c0"). rewrite mass_set_same.
        change (Sampler_Model.lower (str "C12")) with (str "c12"). rewrite mass_set_other by discriminate. rewrite O by exact H. reflexivity.
      - cbn [forallb fst] in St. apply andb_true_iff in St as [S1 S2]. destruct (Sab_Model.is_isotope "C" i); [discriminate|]. now apply IH. }
    rewrite X. reflexivity. }
  unfold atomic_mass at 1 3. rewrite El. cbn [fst snd]. split; [reflexivity|]. unfold atomic_mass. destruct (set_mass (str "c0") 0%Qc d) as [|p d'] eqn:Es; [apply (f_equal (mass_at (str "c0"))) in Es; rewrite mass_set_same in Es; discriminate|].
  cbn [fst]. rewrite <- Es. change (Sampler_Model.lower (ground (str "C0"))) with (str "c0"). apply mass_set_same.
Qed.
Print Assumptions C85_zero_refuted.

(** ** Weights *)
(** The abundances of the isotopes of every element are positive and add up to exactly 1. *)
Theorem C86_abundances : forall ns el l, symbol el -> composition ns el l -> l <> [] -> qsum (map fst l) = 1%Qc /\ forall p, In p l -> (0 < fst p)%Qc.
Proof.
  intros ns el l S C N. destruct (composed_share ns el _ l S (fun p Hp => Hp) C) as (Q1 & Q2 & Q3). split; [|exact Q2]. rewrite Q1. destruct (Q3 N) as (iso & ab & I & J). exact (share_one el iso ab S I J).
Qed.
Print Assumptions C86_abundances.
(** The weight of an element is the mean over its isotopes, and so between the smallest
    mass and the largest. *)
Theorem C86_weight : forall ls ns cs d el l lo hi, complete ls ns cs -> reached ls d -> symbol el -> composition ns el l -> l <> [] -> (0 < lo)%Qc -> (forall p, In p l -> lo <= snd p <= hi)%Qc ->
  fst (atomic_weight ls d el) = Some (mean l) /\ (lo <= mean l <= hi)%Qc.
Proof.
  intros ls ns cs d el l lo hi (F & D & Ec & Hc) R S C N P B. destruct (load_ok ls ns cs F D Ec Hc) as (L & E & NL & V & _ & _).
  destruct (C86_abundances ns el l S C N) as [Q1 Q2].
  destruct (mean_bounds l lo hi) as [M1 M2]; [intros p Hp; split; [now apply Q2|now apply B]|]. rewrite Q1, Qcmult_1_r in M1, M2.
  destruct (weigh_ok ls ns el _ l S (fun p Hp => Hp) C L E NL V 0%Qc d (reached_ready ls L d E NL R)) as (d' & W & _). unfold atomic_weight. rewrite W, Qcplus_0_l.
  assert (0 < mean l)%Qc by (eapply Qclt_le_trans; eassumption). destruct (qltb_spec 0%Qc (mean l)); [|contradiction]. now repeat split.
Qed.
Print Assumptions C86_weight.
(** An element without natural isotopes has none; the file is not even read. *)
Theorem C86_none : forall ls d el, symbol el -> (forall iso ab, In (iso, ab) Sab_Model.natural_abundance -> ~ isotope_of el iso) -> atomic_weight ls d el = (None, d).
Proof. intros ls d el S H. unfold atomic_weight. rewrite (weigh_none ls el _ S (fun p Hp => Hp) H). reflexivity. Qed.
Print Assumptions C86_none.
(** Not true: what is not an element is refused.  Of [Os19] the weight is the contribution
    of osmium 190 and 192 to that of osmium. *)
Theorem C86_element_refuted : forall ls ns cs d a b, complete ls ns cs -> reached ls d -> In a ns -> In b ns -> name_of a = str "Os190" -> name_of b = str "Os192" -> (0 < n_mass a)%Qc -> (0 < n_mass b)%Qc ->
  fst (atomic_weight ls d "Os19") = Some (qc 2626 10000 * n_mass a + qc 4078 10000 * n_mass b)%Qc.
Proof.
  intros ls ns cs d a b (F & D & Ec & Hc) R Ia Ib Ea Eb Pa Pb. destruct (load_ok ls ns cs F D Ec Hc) as (L & E & NL & V & _ & _). pose proof (reached_ready ls L d E NL R) as Rd.
  unfold atomic_weight. rewrite weigh_filter. match goal with |- context[filter ?f ?t] => let x := eval vm_compute in (filter f t) in replace (filter f t) with x by (vm_compute; reflexivity) end. cbn [weigh].
  change (Sab_Model.is_isotope "Os19" "Os190") with true. change (Sab_Model.is_isotope "Os19" "Os192") with true. cbn iota.
  rewrite (atomic_mass_ready ls d _ L E NL Rd). change (ground (str "Os190")) with (str "Os190"). rewrite <- Ea. fold (key a). rewrite (V a Ia).
  rewrite (atomic_mass_ready ls L _ L E NL) by (right; now rewrite E). change (ground (str "Os192")) with (str "Os192"). rewrite <- Eb. fold (key b). rewrite (V b Ib).
  match goal with |- context[qltb 0%Qc ?x] => replace x with (qc 2626 10000 * n_mass a + qc 4078 10000 * n_mass b)%Qc end.
  - assert (0 < qc 2626 10000 * n_mass a + qc 4078 10000 * n_mass b)%Qc.
    { assert (X : (0 < qc 2626 10000)%Qc) by reflexivity. assert (Y : (0 < qc 4078 10000)%Qc) by reflexivity. clear - X Y Pa Pb. generalize dependent (qc 2626 10000). generalize dependent (qc 4078 10000). intros. qcnra. }
    match goal with |- context[qltb 0%Qc ?x] => destruct (qltb_spec 0%Qc x) end; [reflexivity|contradiction].
  - match goal with |- _ = (_ + n_mass a * ?x + n_mass b * ?y)%Qc => change x with (qc 2626 10000); change y with (qc 4078 10000) end. ring.
Qed.
Print Assumptions C86_element_refuted.

(** ** Examples *)
(** Lines of the file as they are. *)
Record parts := mkParts { p_pre : string; p_x : nat; p_a : N; p_c : string; p_y0 : nat; p_sym : string; p_y1 : nat; p_mid : string; p_w : nat; p_u : N; p_c1 : string; p_six : string; p_c2 : string; p_more : string; p_z : nat; p_rest : string }.
Definition line (p : parts) : text :=
  str (p_pre p) ++ (repeat sp (p_x p) ++ decN (p_a p)) ++ str (p_c p) ++ (repeat sp (p_y0 p) ++ str (p_sym p) ++ repeat sp (p_y1 p)) ++ str (p_mid p) ++ (repeat sp (p_w p) ++ decN (p_u p)) ++ str (p_c1 p) ++ str (p_six p) ++ str (p_c2 p) ++ (str (p_more p) ++ repeat sp (p_z p)) ++ str (p_rest p).
Definition nuclide (p : parts) : nucl := mkNucl (str (p_sym p)) (p_a p) (qz (Z.of_N (p_u p)) + qz (Z.of_N (dval (str (p_six p) ++ str (p_more p)))) / qz (10 ^ Z.of_nat (6 + List.length (str (p_more p)))))%Qc.
Definition fits (p : parts) : bool :=
  Nat.eqb (List.length (str (p_pre p))) 16 && Nat.eqb (p_x p + List.length (decN (p_a p))) 3 && Nat.eqb (List.length (str (p_c p))) 1 && Nat.eqb (p_y0 p + List.length (str (p_sym p)) + p_y1 p) 2 && Nat.eqb (List.length (str (p_mid p))) 74 &&
  Nat.eqb (p_w p + List.length (decN (p_u p))) 3 && Nat.eqb (List.length (str (p_c1 p))) 1 && Nat.eqb (List.length (str (p_six p))) 6 && Nat.eqb (List.length (str (p_c2 p))) 1 && Nat.eqb (List.length (str (p_more p)) + p_z p) 5 &&
  negb (eqt (str (p_sym p)) []) && forallb (fun c => negb (is_space c)) (str (p_sym p)) && forallb is_digit (str (p_six p)) && forallb is_digit (str (p_more p)).
Lemma one (t : text) : List.length t = 1 -> exists c, t = [c].
Proof. destruct t as [|c [|]]; try discriminate. eauto. Qed.
Lemma fits_text p : fits p = true -> mass_text (line p) (nuclide p).
Proof.
  unfold fits. rewrite !andb_true_iff, !Nat.eqb_eq, negb_true_iff. intros (((((((((((((H1 & H2) & H3) & H4) & H5) & H6) & H7) & H8) & H9) & H10) & H11) & H12) & H13) & H14).
  apply one in H3 as (c & E3), H7 as (c1 & E7), H9 as (c2 & E9). exists (str (p_pre p)), (p_x p), c, (p_y0 p), (p_y1 p), (str (p_mid p)), (p_w p), (p_u p), c1, (str (p_six p)), c2, (str (p_more p)), (p_z p), (str (p_rest p)).
  split; [unfold line; rewrite E3, E7, E9; cbn [app]; reflexivity|]. unfold nuclide. cbn [n_symbol n_mass_number n_mass]. repeat (split; [assumption|]). split; [|repeat (split; [assumption|]); reflexivity].
  intros X. rewrite X in H11. discriminate.
Qed.
Definition some_parts : list parts := [
  mkParts "  -1    0    1  " 2 1 " " 0 "H" 1 "         7288.97059    0.00009      0.0      0.0   B-      *              " 2 1 " " "007825" "." "03223" 0 "    0.00009";
  mkParts "   0    6    6  " 1 12 " " 0 "C" 1 "            0.0        0.0       7680.144    0.000 B- -17338.072    1.000 " 1 12 " " "000000" "." "0" 4 "    0.0";
  mkParts "   1    7    6  " 1 13 " " 0 "C" 1 "         3125.00875    0.00021   7469.849    0.000 B-  -2220.472    0.270 " 1 13 " " "003354" "." "83507" 0 "    0.00023";
  mkParts "   4   34   30  " 1 64 " " 0 "Zn" 0 "       -66003.789      0.661     8735.901    0.010 B-  -7171.039    1.486 " 1 63 " " "929142" "." "013" 2 "    0.709";
  mkParts "   6   36   30  " 1 66 " " 0 "Zn" 0 "       -68899.062      0.876     8759.630    0.013 B-  -5175.000    3.000 " 1 65 " " "926033" "." "809" 2 "    0.939";
  mkParts "   7   37   30  " 1 67 " " 0 "Zn" 0 "       -67880.067      0.893     8734.148    0.013 B-  -1001.171    1.136 " 1 66 " " "927127" "." "746" 2 "    0.958";
  mkParts "   8   38   30  " 1 68 " " 0 "Zn" 0 "       -70006.846      0.913     8755.677    0.013 B-  -2921.100    1.200 " 1 67 " " "924844" "." "554" 2 "    0.980";
  mkParts "  10   40   30  " 1 70 " " 0 "Zn" 0 "       -69564.709      1.918     8729.807    0.027 B-   -654.578    1.574 " 1 69 " " "925319" "." "208" 2 "    2.059";
  mkParts "  32  108   76  " 0 184 " " 0 "Os" 0 "       -44256.643      1.343     7988.699    0.007 B-  -4645.792   27.977 " 0 183 " " "952488" "." "536" 2 "    1.441";
  mkParts "  34  110   76  " 0 186 " " 0 "Os" 0 "       -43002.379      1.487     7982.844    0.008 B-  -3827.610   16.592 " 0 185 " " "953835" "." "044" 2 "    1.596";
  mkParts "  35  111   76  " 0 187 " " 0 "Os" 0 "       -41221.010      1.500     7973.791    0.008 B-  -1671.638   27.985 " 0 186 " " "955747" "." "422" 2 "    1.609";
  mkParts "  36  112   76  " 0 188 " " 0 "Os" 0 "       -41139.270      1.506     7973.875    0.008 B-  -2787.888    9.496 " 0 187 " " "955835" "." "174" 2 "    1.616";
  mkParts "  37  113   76  " 0 189 " " 0 "Os" 0 "       -38988.462      1.578     7963.011    0.008 B-   -531.759   12.693 " 0 188 " " "958144" "." "162" 2 "    1.694";
  mkParts "  38  114   76  " 0 190 " " 0 "Os" 0 "       -38709.442      1.588     7962.112    0.008 B-  -1953.820    1.223 " 0 189 " " "958443" "." "702" 2 "    1.705";
  mkParts "  40  116   76  " 0 192 " " 0 "Os" 0 "       -35883.945      2.726     7948.534    0.014 B-  -1046.300    2.400 " 0 191 " " "961476" "." "998" 2 "    2.926";
  mkParts "  34  112   78  " 0 190 " " 0 "Pt" 0 "       -37325.237      5.834     7946.592    0.031 B-  -4442.000   15.000 " 0 189 " " "959929" "." "707" 2 "    6.263";
  mkParts "  36  114   78  " 0 192 " " 0 "Pt" 0 "       -36292.174      3.004     7942.511    0.016 B-  -3516.341   15.617 " 0 191 " " "961038" "." "746" 2 "    3.225";
  mkParts "  38  116   78  " 0 194 " " 0 "Pt" 0 "       -34762.564      0.935     7935.954    0.005 B-  -2549.409    2.156 " 0 193 " " "962680" "." "850" 2 "    1.003";
  mkParts "  39  117   78  " 0 195 " " 0 "Pt" 0 "       -32796.302      0.927     7926.565    0.005 B-   -226.824    1.000 " 0 194 " " "964791" "." "719" 2 "    0.995";
  mkParts "  40  118   78  " 0 196 " " 0 "Pt" 0 "       -32646.917      0.918     7926.541    0.005 B-  -1506.987    2.985 " 0 195 " " "964952" "." "091" 2 "    0.985";
  mkParts "  42  120   78  " 0 198 " " 0 "Pt" 0 "       -29905.689      2.165     7914.159    0.011 B-   -323.694    2.065 " 0 197 " " "967894" "." "920" 2 "    2.324";
  mkParts "  41  122   81  " 0 203 " " 0 "Tl" 0 "       -25760.846      1.271     7886.050    0.006 B-   -974.840    6.461 " 0 202 " " "972344" "." "593" 2 "    1.363";
  mkParts "  43  124   81  " 0 205 " " 0 "Tl" 0 "       -23820.349      1.329     7878.392    0.006 B-    -50.632    0.503 " 0 204 " " "974427" "." "801" 2 "    1.426";
  mkParts "  51  143   92  " 0 235 " " 0 "U" 1 "        40920.654      1.789     7590.906    0.008 B-   -124.220    0.854 " 0 235 " " "043930" "." "131" 2 "    1.920";
  mkParts "  54  146   92  " 0 238 " " 0 "U" 1 "        47309.112      1.881     7570.120    0.008 B-   -147.351    1.203 " 0 238 " " "050788" "." "423" 2 "    2.019";
  mkParts "  52  147   95  " 0 242 " " 0 "Am" 0 "   -n   55469.876      1.797     7534.983    0.007 B-    664.458    0.402 " 0 242 " " "059549" "." "364" 2 "    1.929"
]%string.
Definition some_lines : list text := repeat [] 39 ++ map line some_parts.
Definition some_nuclides : list nucl := map nuclide some_parts.
(** The lines are those of the file. *)
Example C85_lines_are : nth_error (map line some_parts) 1 = Some (str "   0    6    6   12 C             0.0        0.0       7680.144    0.000 B- -17338.072    1.000  12 000000.0        0.0") /\ nth_error (map line some_parts) 23 = Some (str "  51  143   92  235 U         40920.654      1.789     7590.906    0.008 B-   -124.220    0.854 235 043930.131      1.920").
Proof. split; vm_compute; reflexivity. Qed.
Lemma some_fit : Forall2 mass_text (map line some_parts) some_nuclides.
Proof.
  assert (T : forallb fits some_parts = true) by (vm_compute; reflexivity).
  unfold some_nuclides. induction some_parts as [|p l IH]; [constructor|]. cbn [forallb map] in *. apply andb_true_iff in T as [T1 T2]. constructor; [now apply fits_text|now apply IH].
Qed.
Lemma some_text : file_text some_lines some_nuclides.
Proof. exists (repeat [] 39), (map line some_parts). split; [reflexivity|]. split; [reflexivity|exact some_fit]. Qed.
Fixpoint nodupb (l : list text) : bool := match l with [] => true | x :: r => negb (existsb (eqt x) r) && nodupb r end.
Lemma nodupb_ok l : nodupb l = true -> NoDup l.
Proof.
  induction l as [|x l IH]; intros H; [constructor|]. cbn [nodupb] in H. apply andb_true_iff in H as [H1 H2]. constructor; [|now apply IH]. intros I. apply negb_true_iff in H1.
  assert (existsb (eqt x) l = true) by (apply existsb_exists; exists x; split; [assumption|apply eqt_refl]). congruence.
Qed.
Definition isotopes_in (ns : list nucl) (t : list (string * Q)) (el : string) : list (Qc * Qc) := match found ns (filter (fun p => Sab_Model.is_isotope el (fst p)) t) with Some l => l | None => [] end.
Definition have (ns : list nucl) (t : list (string * Q)) (el : string) : bool := match found ns (filter (fun p => Sab_Model.is_isotope el (fst p)) t) with Some _ => true | None => false end.
Lemma have_composed ns t el : symbol el -> (forall p, In p t -> In p Sab_Model.natural_abundance) -> have ns t el = true -> composed ns el t (isotopes_in ns t el).
Proof.
  intros S Hi H. apply composed_found; [exact S|exact Hi|]. unfold have in H. unfold isotopes_in. destruct (found ns _) as [l|]; [reflexivity|discriminate].
Qed.
Notation isotopes := (isotopes_in some_nuclides Sab_Model.natural_abundance).
Lemma some_isotopes el : symbol el -> have some_nuclides Sab_Model.natural_abundance el = true -> composition some_nuclides el (isotopes el).
Proof. intros S H. exact (have_composed some_nuclides Sab_Model.natural_abundance el S (fun p Hp => Hp) H). Qed.
Lemma some_complete : complete some_lines some_nuclides (map (fun el => (el, isotopes el)) mixtures).
Proof.
  split; [exact some_text|]. split; [apply nodupb_ok; vm_compute; reflexivity|]. split; [reflexivity|]. intros p I. apply in_map_iff in I as (el & <- & I). cbn [fst snd]. cbn [mixtures In] in I.
  repeat (destruct I as [<-|I]; [apply some_isotopes; [split; [discriminate|reflexivity]|vm_compute; reflexivity]|]). destruct I.
Qed.
(** Real lines: uranium 235 after osmium was weighed, and metastable americium. *)
Example C85_mass_hypotheses_met : exists n m d, In n some_nuclides /\ In m some_nuclides /\ reached some_lines d /\ d <> [] /\ names (str "u235") n /\ names (str "Am242_m1") m /\
  fst (atomic_mass some_lines d (str "u235")) = Some (qc 235043930131 1000000000) /\ fst (atomic_mass some_lines d (str "Am242_m1")) = Some (n_mass m).
Proof.
  set (d := snd (atomic_weight some_lines [] "Os")). assert (R : reached some_lines d) by (apply re_weight, re_start).
  destruct (nth_error some_nuclides 23) as [n|] eqn:En; [|vm_compute in En; discriminate]. destruct (nth_error some_nuclides 25) as [m|] eqn:Em; [|vm_compute in Em; discriminate].
  assert (N1 : names (str "u235") n) by (exists (str "u235"); assert (Some n = Some n) by reflexivity; split; [unfold same_name; unfold some_nuclides in En; cbn [some_parts map nth_error] in En; injection En as <-; reflexivity|split; [intros I; cbn in I; repeat (destruct I as [I|I]; [discriminate|]); exact I|now left]]).
  assert (N2 : names (str "Am242_m1") m) by (exists (str "Am242"); split; [unfold same_name; unfold some_nuclides in Em; cbn [some_parts map nth_error] in Em; injection Em as <-; reflexivity|split; [intros I; cbn in I; repeat (destruct I as [I|I]; [discriminate|]); exact I|right; exists (str "m1"); reflexivity]]).
  assert (I1 := nth_error_In _ _ En). assert (I2 := nth_error_In _ _ Em). exists n, m, d. split; [exact I1|]. split; [exact I2|]. split; [exact R|]. split; [|split; [exact N1|split; [exact N2|split]]].
  - intros X. apply (f_equal (fun l => Nat.eqb (List.length l) 0)) in X. vm_compute in X. discriminate.
  - rewrite (C85_mass _ _ _ d n _ some_complete R I1 N1). f_equal. unfold some_nuclides in En. cbn [some_parts map nth_error] in En. injection En as <-. apply Qc_is_canon. reflexivity.
  - exact (C85_mass _ _ _ d m _ some_complete R I2 N2).
Qed.
(** The mixture of zinc, in capitals; what is asked for in vain; a second answer after a
    line cut short; carbon missing. *)
Example C85_others_hypotheses_met :
  fst (atomic_mass some_lines [] (str "ZN0")) = Some (mean (isotopes "Zn")) /\ fst (atomic_mass some_lines [] (str "U239")) = None /\ fst (atomic_mass some_lines [] (str "U239_m1")) = None /\
  (let ls := repeat [] 39 ++ map line some_parts ++ str "cut" :: [] in fst (atomic_mass ls [] (str "H1")) = None /\ fst (atomic_mass ls (snd (atomic_mass ls [] (str "H1"))) (str "h1")) = Some (qc 100782503223 100000000000)) /\
  (let ls := repeat [] 39 ++ map line (firstn 1 some_parts) in fst (atomic_mass ls [] (str "H1")) = None /\ fst (atomic_mass ls (snd (atomic_mass ls [] (str "H1"))) (str "C0")) = Some 0%Qc).
Proof.
  pose proof some_fit as F'.
  assert (ND : NoDup (map (fun n => Sampler_Model.lower (name_of n)) some_nuclides)) by (apply nodupb_ok; vm_compute; reflexivity).
  destruct some_nuclides as [|n ns] eqn:En; [vm_compute in En; discriminate|]. rewrite <- En in *.
  assert (Hn : n = nuclide (mkParts "  -1    0    1  " 2 1 " " 0 "H" 1 (p_mid (hd (mkParts "" 0 0 "" 0 "" 0 "" 0 0 "" "" "" "" 0 "") some_parts)) 2 1 " " "007825" "." "03223" 0 (p_rest (hd (mkParts "" 0 0 "" 0 "" 0 "" 0 0 "" "" "" "" 0 "") some_parts)))).
  { unfold some_nuclides in En. cbn [some_parts map] in En. injection En as <- _. reflexivity. }
  assert (In_ : In n some_nuclides) by (rewrite En; now left).
  split; [|split; [|split; [|split]]].
  - apply (C85_mixture _ _ _ [] "Zn" _ _ some_complete (re_start _)); [right; left; reflexivity|reflexivity|intros I; cbn in I; repeat (destruct I as [I|I]; [discriminate|]); exact I].
  - apply (C85_unknown _ _ _ [] (str "U239") [] some_complete (re_start _)).
    + intros I; cbn in I; repeat (destruct I as [I|I]; [discriminate|]); exact I.
    + intros m Im Sm. assert (T : forallb (fun m => negb (eqt (Sampler_Model.lower (str "U239")) (Sampler_Model.lower (name_of m)))) some_nuclides = true) by (vm_compute; reflexivity). rewrite forallb_forall in T. apply T in Im. rewrite Sm, eqt_refl in Im. discriminate.
    + intros el Ie Se. cbn [mixtures In] in Ie. repeat (destruct Ie as [<-|Ie]; [discriminate|]). exact Ie.
  - apply (C85_unknown _ _ _ [] (str "U239") (str "m1") some_complete (re_start _)).
    + intros I; cbn in I; repeat (destruct I as [I|I]; [discriminate|]); exact I.
    + intros m Im Sm. assert (T : forallb (fun m => negb (eqt (Sampler_Model.lower (str "U239")) (Sampler_Model.lower (name_of m)))) some_nuclides = true) by (vm_compute; reflexivity). rewrite forallb_forall in T. apply T in Im. rewrite Sm, eqt_refl in Im. discriminate.
    + intros el Ie Se. cbn [mixtures In] in Ie. repeat (destruct Ie as [<-|Ie]; [discriminate|]). exact Ie.
  - replace (qc 100782503223 100000000000) with (n_mass n) by (rewrite Hn; apply Qc_is_canon; reflexivity).
    apply (C85_failure_refuted (repeat [] 39) (map line some_parts) (str "cut") [] some_nuclides n (str "h1") (str "H1")); [reflexivity|exact F'|exact ND|reflexivity|exact In_|].
    exists (str "h1"). split; [rewrite Hn; reflexivity|]. split; [|now left]. intros I; cbn in I; repeat (destruct I as [I|I]; [discriminate|]); exact I.
  - apply (C85_zero_refuted (repeat [] 39) (map line (firstn 1 some_parts)) (map nuclide (firstn 1 some_parts))); [reflexivity| |apply nodupb_ok; vm_compute; reflexivity|].
    + cbn [some_parts firstn map] in *. constructor; [|constructor]. apply fits_text. vm_compute. reflexivity.
    + intros [I|[]]. discriminate.
Qed.
(** Osmium, its truncated name, and technetium. *)
Example C86_hypotheses_met :
  fst (atomic_weight some_lines [] "Os") = Some (mean (isotopes "Os")) /\ (qc 183952 1000 <= mean (isotopes "Os") <= qc 191962 1000)%Qc /\ qsum (map fst (isotopes "Os")) = 1%Qc /\
  (exists w, fst (atomic_weight some_lines [] "Os19") = Some w /\ (w < qc 129 1)%Qc) /\ atomic_weight some_lines [] "Tc" = (None, []).
Proof.
  assert (S : symbol "Os") by (split; [discriminate|reflexivity]). assert (C : composition some_nuclides "Os" (isotopes "Os")) by (apply some_isotopes; [exact S|vm_compute; reflexivity]).
  assert (N : isotopes "Os" <> []) by (intros X; apply (f_equal (@List.length (Qc * Qc))) in X; vm_compute in X; discriminate).
  destruct (C86_weight some_lines some_nuclides _ [] "Os" (isotopes "Os") (qc 183952 1000) (qc 191962 1000) some_complete (re_start _) S C N) as [W B]; [reflexivity| |].
  { intros p Hp. assert (T : forallb (fun p => qleb (qc 183952 1000) (snd p) && qleb (snd p) (qc 191962 1000)) (isotopes "Os") = true) by (vm_compute; reflexivity). rewrite forallb_forall in T. apply T in Hp. apply andb_true_iff in Hp as [H1 H2].
    destruct (qleb_spec (qc 183952 1000) (snd p)); [|discriminate]. destruct (qleb_spec (snd p) (qc 191962 1000)); [|discriminate]. now split. }
  split; [exact W|]. split; [exact B|]. split; [exact (proj1 (C86_abundances _ _ _ S C N))|]. split.
  - destruct (nth_error some_nuclides 13) as [a|] eqn:Ea; [|vm_compute in Ea; discriminate]. destruct (nth_error some_nuclides 14) as [b|] eqn:Eb; [|vm_compute in Eb; discriminate].
    assert (Ia := nth_error_In _ _ Ea). assert (Ib := nth_error_In _ _ Eb). unfold some_nuclides in Ea, Eb. cbn [some_parts map nth_error] in Ea, Eb. injection Ea as <-. injection Eb as <-.
    eexists. split; [apply (C86_element_refuted _ _ _ [] _ _ some_complete (re_start _) Ia Ib); reflexivity|]. reflexivity.
  - apply C86_none; [split; [discriminate|reflexivity]|]. intros iso ab I (n & E).
    assert (T : forallb (fun p => negb (eqt (firstn 2 (str (fst p))) (str "Tc"))) Sab_Model.natural_abundance = true) by (vm_compute; reflexivity). rewrite forallb_forall in T. apply T in I. cbn [fst] in I. rewrite E in I. discriminate.
Qed.
