(** What thermal scattering data are, and what becomes of them. *)
From Coq Require Import ZArith QArith Qcanon List Bool Arith String Ascii Permutation Sorted.
From Verif Require Import Num Neut_Model Neut_Spec Law_Model Hdf_Model Hdf_Spec Nuc_Model Sab_Model.
From Verif Require Law_Spec Cont_Model Name_Model Dec.
Import ListNotations.
Local Open Scope string_scope.
Local Open Scope list_scope.
Local Open Scope Z_scope.

(** ** Names *)
(** The contract of [difflib.get_close_matches]: what it finds is among the possibilities. *)
Definition among (close : string -> list string -> list string) : Prop := forall s l m, In m (close s l) -> In m l.
(** The proper names. *)
Definition proper (s : string) : Prop := exists l, In (s, l) thermal_names.

(** ** Coherent elastic scattering *)
(** The sum of the structure factors of the edges below [e], as documented (thermal.py:123-124):
    [factors] are partial sums. *)
Inductive documented : list Qc -> list Qc -> Qc -> Qc -> Prop :=
| doc_none E F e : (forall v, In v E -> (e <= v)%Qc) -> documented E F e 0%Qc
| doc_some E1 E2 F1 F2 v s e : List.length E1 = List.length F1 -> (v < e)%Qc -> (forall w, In w E2 -> (e <= w)%Qc) ->
    documented (E1 ++ v :: E2) (F1 ++ s :: F2) e s.
Definition ascending (l : list Qc) : Prop := StronglySorted Qclt l.

(** ** Nuclides *)
(** A natural isotope of an element. *)
Definition natural (element isotope : string) : Prop :=
  In isotope (map fst natural_abundance) /\ exists d r, isotope = String.append element (String d r) /\ Dec.is_digit d = true.
(** The nuclides a pair (1000 Z + A, atomic weight ratio) stands for. *)
Definition meant (zaid : Z) (n : string) : Prop :=
  0 < zaid /\ exists s, Name_Model.symbol (zaid / 1000) = Some s /\ let element := string_of_list_ascii s in
    (In element ["H"; "Fe"] /\ n = String.append element (digits (Z.to_nat (zaid mod 1000)))) \/
    (~ In element ["H"; "Fe"] /\ (n = String.append element "0" \/ natural element n)).

(** ** What a table says *)
Definition ev : Qc := qz 1000000.
Definition len {T} (l : list T) : Z := Z.of_nat (List.length l).
(** Inelastic scattering.  In bins: for each incident energy and each outgoing one, that energy
    (MeV) and the cosines.  Continuous: for each incident energy the points (energy, density,
    cumulative probability), each with its cosines. *)
Inductive out :=
| InBins (skewed : bool) (n_out n_mu : nat) (rows : list (list (Qc * list Qc)))
| InSpectra (n_mu : nat) (spectra : list (list (Cont_Model.point * list Qc))).
(** Elastic scattering (energies in MeV). *)
Inductive el :=
| NoElastic
| Coherent (edges sums : list Qc)
| WithCosines (es xs : list Qc) (n_mu : nat) (mu : list (list Qc)).
Record told := mkTold { o_es : list Qc; o_xs : list Qc; o_out : out; o_el : el }.
Definition point_words (b : Cont_Model.point * list Qc) : list Qc := Cont_Model.px (fst b) :: Cont_Model.pp (fst b) :: Cont_Model.pc (fst b) :: snd b.
Definition out_stands (a : ace) (n : nat) (o : out) : Prop :=
  match o with
  | InBins sk n_out n_mu rows =>
      nxs a 7 = (if sk then 1 else 0) /\ nxs a 4 = Z.of_nat n_out /\ nxs a 3 = Z.of_nat n_mu /\ List.length rows = n /\
      (forall r, In r rows -> List.length r = n_out /\ forall b, In b r -> List.length (snd b) = S n_mu) /\
      stands (xss a) (jxs a 3) (flat_map (flat_map (fun b => fst b :: snd b)) rows)
  | InSpectra n_mu spectra =>
      nxs a 7 = 2 /\ nxs a 3 = Z.of_nat n_mu + 1 /\ (0 < n_mu)%nat /\
      exists locs, List.length locs = n /\ stands (xss a) (jxs a 3) (map qz locs ++ map (fun s => qz (len s)) spectra) /\
        Forall2 (fun k s => stands (xss a) (k + 1) (flat_map point_words s) /\ forall b, In b s -> List.length (snd b) = n_mu) locs spectra
  end.
Definition el_stands (a : ace) (e : el) : Prop :=
  match e with
  | NoElastic => jxs a 4 = 0
  | Coherent edges sums => jxs a 4 <> 0 /\ nxs a 5 = 4 /\ nxs a 6 = -1 /\ List.length sums = List.length edges /\ stands (xss a) (jxs a 4) (qz (len edges) :: edges ++ sums)
  | WithCosines es xs n_mu mu => jxs a 4 <> 0 /\ nxs a 5 <> 4 /\ nxs a 6 = Z.of_nat n_mu - 1 /\ (0 < n_mu)%nat /\ List.length xs = List.length es /\ List.length mu = List.length es /\
      (forall m, In m mu -> List.length m = n_mu) /\ stands (xss a) (jxs a 4) (qz (len es) :: es ++ xs) /\ stands (xss a) (jxs a 6) (concat mu)
  end.
(** The name of a table: the material, one dot, what sets it apart. *)
Fixpoint dotless (s : string) : Prop := match s with EmptyString => True | String c r => c <> "."%char /\ dotless r end.
Definition called (s material : string) : Prop := exists r, s = String.append material (String "." r) /\ dotless material /\ dotless r.
Definition table_says (a : ace) (s : told) : Prop :=
  List.length (o_xs s) = List.length (o_es s) /\ stands (xss a) (jxs a 1) (qz (len (o_es s)) :: o_es s ++ o_xs s) /\
  out_stands a (List.length (o_es s)) (o_out s) /\ el_stands a (o_el s).

(** ** The same in eV *)
Definition in_ev (l : list Qc) : list Qc := map (fun v => v * ev)%Qc l.
(** Cosines of equal probability. *)
Definition equal_cosines (n_mu : nat) (mu : list Qc) (c : cosine) : Prop :=
  exists l, c = Lines l /\ map Cont_Model.px l = mu /\ (forall t, In t l -> Cont_Model.pp t = (1 / qz (Z.of_nat n_mu))%Qc) /\
    forall i t, nth_error l i = Some t -> Cont_Model.pc t = (qz (Z.of_nat i + 1) / qz (Z.of_nat n_mu))%Qc.
Definition spectrum_read (n_mu : nat) (s : list (Cont_Model.point * list Qc)) (d : Cont_Model.dist) (mu : list cosine) : Prop :=
  d = Cont_Model.Tab Cont_Model.LinLin (map (fun b => (Cont_Model.px (fst b) * ev, Cont_Model.pp (fst b) / ev, Cont_Model.pc (fst b))%Qc) s) /\
  Forall2 (fun b c => equal_cosines n_mu (snd b) c) s mu.
Definition out_read (es : list Qc) (t : string) (o : out) (d : thermal) : Prop :=
  match o with
  | InBins sk _ _ rows => t_mode d = Some (if sk then "skewed" else "equal") /\
      t_e_out d = [(t, map (fun r => in_ev (map fst r)) rows)] /\ t_mu_out d = [(t, map (map snd) rows)] /\ t_dist d = []
  | InSpectra n_mu spectra => t_mode d = Some "continuous" /\ t_e_out d = [] /\ t_mu_out d = [] /\
      exists ds mus, t_dist d = [(t, Correlated [len es] [2] (in_ev es) ds mus)] /\ Forall3 (spectrum_read n_mu) spectra ds mus
  end.
Definition el_read (t : string) (e : el) (d : thermal) : Prop :=
  match e with
  | NoElastic => t_elastic d = [] /\ t_elastic_mu d = []
  | Coherent edges sums => t_elastic d = [(t, Bragg (in_ev edges) (in_ev sums))] /\ t_elastic_mu d = []
  | WithCosines es xs _ mu => t_elastic d = [(t, Incoherent (mkFn (in_ev es) xs [len es] [2]))] /\ t_elastic_mu d = [(t, mu)]
  end.
Definition table_read (s : told) (temperature : Qc) (d : thermal) : Prop :=
  let t := kelvin (temperature * ev)%Qc in
  t_kts d = [(temperature * ev)%Qc] /\ t_inelastic d = [(t, mkFn (in_ev (o_es s)) (o_xs s) [len (o_es s)] [2])] /\
  out_read (o_es s) t (o_out s) d /\ el_read t (o_el s) d.

(** ** Fit to be stored *)
(** At temperature [t]: elastic and inelastic scattering wherever they are at any temperature,
    and what the secondary mode asks for. *)
Definition elastic_fine (e : elastic) : Prop := match e with Bragg x f => List.length x = List.length f | Incoherent f => fn_fine f end.
Definition complete_at (d : thermal) (t : string) : Prop :=
  (t_elastic d <> [] -> exists e, look t (t_elastic d) = Some e /\ elastic_fine e /\ (t_elastic_mu d <> [] -> look t (t_elastic_mu d) <> None)) /\
  (t_inelastic d <> [] -> exists f, look t (t_inelastic d) = Some f /\ fn_fine f /\
     ((t_mode d = Some "equal" \/ t_mode d = Some "skewed") -> look t (t_e_out d) <> None /\ look t (t_mu_out d) <> None) /\
     (t_mode d = Some "continuous" -> exists l, look t (t_dist d) = Some l /\ law_fine (l, None))).
Definition thermal_fine (d : thermal) : Prop :=
  t_mode d <> None /\ NoDup (t_temperatures d) /\ forall t, In t (t_temperatures d) -> complete_at d t.

(** ** What comes back *)
Definition back_when {A} (c : Prop) (o o' : option A) : Prop := (c -> o' = o) /\ (~ c -> o' = None).
Definition kept_thermal (d d' : thermal) : Prop :=
  t_name d' = t_name d /\ t_awr d' = t_awr d /\ t_mode d' = t_mode d /\ t_nuclides d' = t_nuclides d /\
  Permutation (t_kts d) (t_kts d') /\ StronglySorted (fun s t => String.leb s t = true) (t_temperatures d') /\
  forall t,
    back_when (In t (t_temperatures d)) (look t (t_elastic d)) (look t (t_elastic d')) /\
    back_when (In t (t_temperatures d) /\ t_elastic d <> []) (look t (t_elastic_mu d)) (look t (t_elastic_mu d')) /\
    back_when (In t (t_temperatures d)) (look t (t_inelastic d)) (look t (t_inelastic d')) /\
    (let binned := In t (t_temperatures d) /\ t_inelastic d <> [] /\ (t_mode d = Some "equal" \/ t_mode d = Some "skewed") in
     back_when binned (look t (t_e_out d)) (look t (t_e_out d')) /\ back_when binned (look t (t_mu_out d)) (look t (t_mu_out d'))) /\
    (let spread := In t (t_temperatures d) /\ t_inelastic d <> [] /\ t_mode d = Some "continuous" in
     (spread -> exists l l', look t (t_dist d) = Some l /\ look t (t_dist d') = Some l' /\ (exists a, kept_law (l, None) (l', a)) /\ (plain_law (l, None) -> l' = l)) /\
     (~ spread -> look t (t_dist d') = None)).
Definition same_thermal (d d' : thermal) : Prop :=
  t_name d' = t_name d /\ t_awr d' = t_awr d /\ t_mode d' = t_mode d /\ t_nuclides d' = t_nuclides d /\ t_kts d' = t_kts d /\
  forall t, look t (t_elastic d') = look t (t_elastic d) /\ look t (t_elastic_mu d') = look t (t_elastic_mu d) /\ look t (t_inelastic d') = look t (t_inelastic d) /\
    look t (t_e_out d') = look t (t_e_out d) /\ look t (t_mu_out d') = look t (t_mu_out d) /\ look t (t_dist d') = look t (t_dist d).
(** No spectrum is empty. *)
Definition filled (o : out) : Prop := match o with InBins _ _ _ _ => True | InSpectra _ spectra => forall s, In s spectra -> s <> [] end.

(** ** Another temperature *)
Definition joined {A} (t : string) (self data new : list (string * A)) : Prop :=
  forall k, look k new = if String.eqb k t then match look t data with Some v => Some v | None => look t self end else look k self.
Definition with_temperature (t : string) (self data d : thermal) : Prop :=
  t_name d = t_name self /\ t_awr d = t_awr self /\ t_mode d = t_mode self /\ t_nuclides d = t_nuclides self /\ t_kts d = t_kts self ++ t_kts data /\
  joined t (t_elastic self) (t_elastic data) (t_elastic d) /\ joined t (t_elastic_mu self) (t_elastic_mu data) (t_elastic_mu d) /\
  joined t (t_inelastic self) (t_inelastic data) (t_inelastic d) /\ joined t (t_e_out self) (t_e_out data) (t_e_out d) /\
  joined t (t_mu_out self) (t_mu_out data) (t_mu_out d) /\ joined t (t_dist self) (t_dist data) (t_dist d).
(** Data of the same kinds. *)
Definition alike (d d' : thermal) : Prop :=
  t_mode d = t_mode d' /\ (t_elastic d = [] <-> t_elastic d' = []) /\ (t_elastic_mu d = [] <-> t_elastic_mu d' = []) /\ (t_inelastic d = [] <-> t_inelastic d' = []).
(** Tables of different kinds: elastic scattering (none, coherent, with cosines), or outgoing
    energies (in bins, continuous). *)
Definition kind (e : el) : Z := match e with NoElastic => 0 | Coherent _ _ => 1 | WithCosines _ _ _ _ => 2 end.
Definition spectral (o : out) : bool := match o with InBins _ _ _ _ => false | InSpectra _ _ => true end.
Definition mixed (s s' : told) : Prop := kind (o_el s) <> kind (o_el s') \/ spectral (o_out s) <> spectral (o_out s').
(** [d] has at [t] what [data] has. *)
Definition has_at (t : string) (data d : thermal) : Prop :=
  look t (t_elastic d) = look t (t_elastic data) /\ look t (t_elastic_mu d) = look t (t_elastic_mu data) /\ look t (t_inelastic d) = look t (t_inelastic data) /\
  look t (t_e_out d) = look t (t_e_out data) /\ look t (t_mu_out d) = look t (t_mu_out data) /\ look t (t_dist d) = look t (t_dist data).
