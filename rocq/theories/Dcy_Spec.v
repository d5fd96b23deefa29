(** Decay data as ENDF-6 text means them. *)
From Verif Require Import Num Text Dec Endf_Spec Name_Model Dcy_Model.
From Coq Require Import ZArith.
Local Open Scope list_scope.
Local Open Scope nat_scope.

(** *** Modes *)
(** A chain of decays as a number: the first before the point, the others behind it. *)
Fixpoint rtyp (ds : list nat) : Qc :=
  match ds with [] => 0%Qc | d :: r => (qz (Z.of_nat d) + rtyp r / qz 10)%Qc end.
(** Such a chain: the first is not 0, the last neither (it could not be seen). *)
Definition chain (ds : list nat) : Prop :=
  ds <> [] /\ Forall (fun d => d <= 9) ds /\ hd 0 ds <> 0 /\ last ds 0 <> 0 /\ length ds <= 10.
(** ENDF-102, 8.4: what each digit is. *)
Definition mode_name (d : nat) : text :=
  str match d with
      | 0 => "gamma" | 1 => "beta-" | 2 => "ec/beta+" | 3 => "IT" | 4 => "alpha" | 5 => "n" | 6 => "sf" | 7 => "p" | 8 => "e-" | _ => "xray"
      end%string.
Definition times (s : string) (ms : list text) : Z := Z.of_nat (length (filter (eqt (str s)) ms)).
(** Charge and mass after a chain. *)
Definition z_after (z : Z) (ms : list text) : Z :=
  (z + times "beta-" ms - times "ec/beta+" ms - 2 * times "alpha" ms - times "p" ms)%Z.
Definition a_after (a : Z) (ms : list text) : Z := (a - 4 * times "alpha" ms - times "n" ms - times "p" ms)%Z.

(** *** Text *)
(** A LIST record. *)
Definition list_at (a b : Qc) (i j n : Z) (vs : list Qc) (ls : list text) : Prop :=
  exists l ls', ls = l :: ls' /\ control_line l a b i j (Z.of_nat (length vs)) n /\ rows number_field 6 vs ls'.
(** A dictionary with the last value given to each key. *)
Definition at_key {A} (k : text) (l : list (text * A)) : option A := option_map snd (find (fun p => eqt k (fst p)) l).
Definition holds {A} (l : list (text * A)) (d : dict A) : Prop := NoDup (map fst d) /\ forall k, lookup k d = at_key k (rev l).

(** *** Yields *)
Record fragment := { f_z : Z; f_a : Z; f_m : Z; f_yield : unum }.
Definition fragment_ok (p : fragment) : Prop := (0 <= f_a p < 1000)%Z /\ (0 <= f_z p)%Z /\ (0 <= snd (f_yield p))%Qc.
Definition fragment_values (p : fragment) : list Qc :=
  [qz (1000 * f_z p + f_a p); qz (f_m p); fst (f_yield p); snd (f_yield p)].
(** The name, if there is such an element. *)
Definition named (p : fragment) (e : text * unum) : Prop := gnd_name (f_z p) (f_a p) (f_m p) = Some (fst e) /\ snd e = f_yield p.
Inductive yield_lists : list (Qc * list fragment) -> list text -> Prop :=
| yl_nil : yield_lists [] []
| yl_cons e ps bs b i j l ls : list_at e b i j (Z.of_nat (length ps)) (flat_map fragment_values ps) l ->
    Forall (fun p => fragment_ok p /\ exists t, gnd_name (f_z p) (f_a p) (f_m p) = Some t) ps -> yield_lists bs ls -> yield_lists ((e, ps) :: bs) (l ++ ls).
Definition yields_text (bs : list (Qc * list fragment)) (ls : list text) : Prop :=
  exists h za awr j k n body, ls = h :: body /\ control_line h za awr (Z.of_nat (length bs)) j k n /\ yield_lists bs body.
(** What is read for the energies. *)
Definition yields_meant (bs : list (Qc * list fragment)) (ds : list (dict unum)) : Prop :=
  Forall2 (fun b d => exists es, Forall2 named (snd b) es /\ holds es d) bs ds.

(** *** Decay *)
Definition uval (u : unum) : list Qc := [fst u; snd u].
Definition usure (u : unum) : Prop := (0 <= snd u)%Qc.
(** A mode: chain, state of the daughter, energy, branching ratio. *)
Record branch := { b_chain : list nat; b_state : Z; b_energy : unum; b_ratio : unum }.
Definition branch_ok (b : branch) : Prop :=
  chain (b_chain b) /\ usure (b_energy b) /\ usure (b_ratio b) /\ (0 <= fst (b_energy b))%Qc /\ (0 <= fst (b_ratio b))%Qc.
Definition branch_values (b : branch) : list Qc := [rtyp (b_chain b); qz (b_state b)] ++ uval (b_energy b) ++ uval (b_ratio b).
Definition branch_mode (name : text) (b : branch) (m : mode) : Prop :=
  m = mkMode name (map mode_name (b_chain b)) (b_state b) (b_energy b) (b_ratio b).

(** Radiation types and kinds of transitions (ENDF-102, 8.4). *)
Definition radiation (z : Z) (t : text) : Prop :=
  In (z, t) (map (fun p => (fst p, str (snd p)))
    [(0, "gamma"); (1, "beta-"); (2, "ec/beta+"); (4, "alpha"); (5, "n"); (6, "sf"); (7, "p"); (8, "e-"); (9, "xray");
     (10, "anti-neutrino"); (11, "neutrino")]%string)%Z.
Definition transition (z : Z) (t : option text) : Prop :=
  In (z, t) [(0, None); (1, Some (str "allowed")); (2, Some (str "first-forbidden")); (3, Some (str "second-forbidden"));
             (4, Some (str "third-forbidden")); (5, Some (str "fourth-forbidden")); (6, Some (str "fifth-forbidden"))]%Z.
(** The numbers of a line of a spectrum of type [ty], and the line. *)
Definition line_values (ty : text) (vs : list Qc) (d : dline) : Prop :=
  exists ds t more, chain ds /\ vs = [rtyp ds; qz t] ++ uval (d_intensity d) ++ more /\ usure (d_intensity d) /\
    d_from d = map mode_name ds /\ transition t (d_type d) /\
    if eqt ty (str "gamma") then
      exists p, d_pair d = Some p /\ usure p /\ d_positron d = None /\
        ((more = uval p /\ d_total d = None /\ d_k d = None /\ d_l d = None) \/
         (exists c, more = uval p ++ uval c /\ usure c /\ d_total d = Some c /\ d_k d = None /\ d_l d = None) \/
         (exists c k l, more = uval p ++ uval c ++ uval k ++ uval l /\ usure c /\ usure k /\ usure l /\ d_total d = Some c /\ d_k d = Some k /\ d_l d = Some l))
    else if eqt ty (str "ec/beta+") then
      exists p rest, more = uval p ++ rest /\ usure p /\ d_positron d = Some p /\ d_pair d = None /\ d_total d = None /\ d_k d = None /\ d_l d = None
    else d_positron d = None /\ d_pair d = None /\ d_total d = None /\ d_k d = None /\ d_l d = None.
Inductive lines_text (ty : text) : list dline -> list text -> Prop :=
| lt_nil : lines_text ty [] []
| lt_cons d ds i j n vs l ls : list_at (fst (d_energy d)) (snd (d_energy d)) i j n vs l -> usure (d_energy d) -> line_values ty vs d ->
    lines_text ty ds ls -> lines_text ty (d :: ds) (l ++ ls).
(** The continuous part, with covariances or without. *)
Definition cont_text (c : cpart) (ls : list text) : Prop :=
  exists h ds b i lcov lr lp lc,
    ls = h :: lr ++ lp ++ lc /\ control_line h (rtyp ds) b i lcov (Z.of_nat (length (c_regions c))) (Z.of_nat (length (c_points c))) /\
    chain ds /\ c_from c = map mode_name ds /\
    rows (pair_field integer_field) 3 (c_regions c) lr /\ rows (pair_field number_field) 3 (c_points c) lp /\
    match c_cov c with
    | None => lcov = 0%Z /\ lc = []
    | Some (lb, ps) => lcov <> 0%Z /\ exists x y i' n', list_at x y i' lb n' (flat_map uval ps) lc
    end.
(** A spectrum: flag 0 discrete, 1 continuous, 2 both. *)
Definition spectrum_text (s : spectrum) (ls : list text) : Prop :=
  exists c styp j more n l1 l2 l3, ls = l1 ++ l2 ++ l3 /\ radiation styp (s_type s) /\
    usure (s_dnorm s) /\ usure (s_eavg s) /\ usure (s_cnorm s) /\
    list_at c (qz styp) (s_flag s) j n (uval (s_dnorm s) ++ uval (s_eavg s) ++ uval (s_cnorm s) ++ more) l1 /\
    (s_flag s = 0%Z \/ s_flag s = 1%Z \/ s_flag s = 2%Z) /\
    match s_discrete s with
    | None => s_flag s = 1%Z /\ l2 = []
    | Some ds => s_flag s <> 1%Z /\ n = Z.of_nat (length ds) /\ lines_text (s_type s) ds l2
    end /\
    match s_cont s with
    | None => s_flag s = 0%Z /\ l3 = []
    | Some ci => s_flag s <> 0%Z /\ cont_text ci l3
    end.
Inductive spectra_text : list spectrum -> list text -> Prop :=
| ss_nil : spectra_text [] []
| ss_cons s ss l ls : spectrum_text s l -> spectra_text ss ls -> spectra_text (s :: ss) (l ++ ls).

(** Names of the average energies: three, or seventeen. *)
Definition average_names : list text := map str
  ["light"; "electromagnetic"; "heavy"; "beta-"; "beta+"; "auger"; "conversion"; "gamma"; "xray"; "Bremsstrahlung"; "annihilation";
   "alpha"; "recoil"; "SF"; "neutron"; "proton"; "neutrino"]%string.
(** A radioactive nuclide. *)
Record unstable := { u_z : Z; u_a : Z; u_m : Z; u_name : text; u_awr : Qc; u_lis : Z; u_half : unum; u_avg : list unum;
  u_spin : Qc; u_parity : Qc; u_branches : list branch; u_spectra : list spectrum }.
Definition unstable_text (u : unstable) (ls : list text) : Prop :=
  exists h za nst i1 j1 n1 l1 i2 j2 more l2 l3, ls = h :: l1 ++ l2 ++ l3 /\
    control_line h za (u_awr u) (u_lis u) (u_m u) nst (Z.of_nat (length (u_spectra u))) /\ nst <> 1%Z /\
    za = qz (1000 * u_z u + u_a u) /\ (0 <= u_a u < 1000)%Z /\ (0 <= u_z u)%Z /\ gnd_name (u_z u) (u_a u) (u_m u) = Some (u_name u) /\
    list_at (fst (u_half u)) (snd (u_half u)) i1 j1 n1 (flat_map uval (u_avg u)) l1 /\ usure (u_half u) /\
    (length (u_avg u) = 3 \/ length (u_avg u) = 17) /\ Forall usure (u_avg u) /\
    list_at (u_spin u) (u_parity u) i2 j2 (Z.of_nat (length (u_branches u))) (flat_map branch_values (u_branches u) ++ more) l2 /\
    Forall branch_ok (u_branches u) /\ spectra_text (u_spectra u) l3.
Definition unknown_spin : Qc := qc (-77777) 1000.
Definition unstable_decay (u : unstable) (v : decay) : Prop :=
  v_z v = u_z u /\ v_a v = u_a u /\ v_m v = u_m u /\ v_name v = u_name u /\ v_mass v = u_awr u /\ v_excited v = u_lis u /\ v_stable v = false /\
  v_half v = Some (u_half u) /\ v_parity v = Some (u_parity u) /\
  (u_spin u = unknown_spin -> v_spin v = None) /\ (u_spin u <> unknown_spin -> v_spin v = Some (u_spin u)) /\
  holds (combine average_names (u_avg u)) (v_averages v) /\
  Forall2 (branch_mode (u_name u)) (u_branches u) (v_modes v) /\
  holds (map (fun s => (s_type s, s)) (u_spectra u)) (v_spectra v).
