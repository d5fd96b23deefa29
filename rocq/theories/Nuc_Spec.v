(** What becomes of the data of a nuclide in HDF5. *)
From Coq Require Import ZArith QArith Qcanon List Bool Arith String Permutation Sorted.
From Verif Require Import Num Neut_Model Law_Model Hdf_Model Hdf_Spec Nuc_Model.
From Verif Require Sums_Model.
Import ListNotations.
Local Open Scope string_scope.
Local Open Scope list_scope.
Local Open Scope Z_scope.

(** Those in the file: not redundant, or with photons, or one of the sums a file keeps. *)
Definition written (r : nrx) : Prop :=
  x_redundant r = false \/ (exists p, In p (x_products r) /\ p_neutron p = false) \/ In (x_mt r) [4; 16; 103; 104; 105; 106; 107].
(** A temperature with a grid in the file. *)
Definition gridded (d : nuclide) (t : string) : Prop := In t (temperatures d) \/ t = "0K".
Definition at_temperature (d : nuclide) (t : string) : list Qc := match look t (d_energy d) with Some es => es | None => [] end.

(** ** Fit to be stored *)
Definition xsec_fine (x : xsec) : Prop := match x with Table _ (Some i) => 0 <= i | Table _ None => True | Added _ => False end.
Definition rx_fine (d : nuclide) (r : nrx) : Prop :=
  NoDup (map fst (x_xs r)) /\
  (forall t, In t (temperatures d) -> look t (x_xs r) <> None) /\
  (forall t x, In (t, x) (x_xs r) -> gridded d t /\ look t (d_energy d) <> None /\ xsec_fine x) /\
  Forall product_fine (x_products r) /\ Forall product_fine (x_derived r).
Definition nuclide_fine (d : nuclide) : Prop :=
  d_endf d = false /\ 0 <= d_z d /\ 0 <= d_a d /\ 0 <= d_m d /\ (0 < d_awr d)%Qc /\
  NoDup (temperatures d) /\ (forall t, In t (temperatures d) -> look t (d_energy d) <> None) /\
  NoDup (map fst (d_rx d)) /\ (forall mt r, In (mt, r) (d_rx d) -> x_mt r = mt /\ 0 <= mt /\ (written r -> rx_fine d r)) /\
  NoDup (map fst (d_urr d)) /\ (forall t u, In (t, u) (d_urr d) -> u_interp u = 2 \/ u_interp u = 5).

(** ** What comes back *)
Definition same_nuclide (d d' : nuclide) : Prop :=
  d_endf d' = false /\ d_name d' = d_name d /\ d_z d' = d_z d /\ d_a d' = d_a d /\ d_m d' = d_m d /\ d_awr d' = d_awr d.
(** The temperatures, by name. *)
Definition same_temperatures (d d' : nuclide) : Prop :=
  Permutation (d_kts d) (d_kts d') /\ StronglySorted (fun s t => String.leb s t = true) (temperatures d').
(** The grids of those temperatures and of 0K. *)
Definition same_grids (d d' : nuclide) : Prop :=
  forall t, (gridded d t -> look t (d_energy d') = look t (d_energy d)) /\ (~ gridded d t -> look t (d_energy d') = None).
Definition same_tables (d d' : nuclide) : Prop := forall t, look t (d_urr d') = look t (d_urr d).
(** The total yield: the first product of the first reaction in the file that has derived
    ones. *)
Definition total_yield (d : nuclide) (nu : list prod) : Prop :=
  (nu = [] /\ forall mt r, In (mt, r) (d_rx d) -> written r -> x_derived r = []) \/
  exists pre mt r post p rest p', d_rx d = pre ++ (mt, r) :: post /\ (forall mt r, In (mt, r) pre -> written r -> x_derived r = []) /\ written r /\
    x_derived r = p :: rest /\ nu = [p'] /\ kept_product p p' /\ (plain_product p -> p' = p).
(** Fission, whole or partial. *)
Definition fission (mt : Z) : Prop := In mt [18; 19; 20; 21; 38].
(** Values stay; they are now against the grid, linearly. *)
Definition kept_xsec (es : list Qc) (x x' : xsec) : Prop :=
  exists f idx, x = Table f idx /\ let i := match idx with Some i => i | None => 0 end in x' = Table (linear (skipn (Z.to_nat i) es) (fy f)) (Some i).
Definition kept_rx (d : nuclide) (nu : list prod) (r r' : nrx) : Prop :=
  x_mt r' = x_mt r /\ x_q r' = x_q r /\ x_cm r' = x_cm r /\ x_redundant r' = x_redundant r /\
  (forall t, both (kept_xsec (at_temperature d t)) (look t (x_xs r)) (look t (x_xs r'))) /\
  Forall2 (fun p p' => kept_product p p' /\ (plain_product p -> p' = p)) (x_products r) (x_products r') /\
  (fission (x_mt r) -> x_derived r' = nu) /\ (~ fission (x_mt r) -> x_derived r' = []).
(** Every reaction of the file comes back. *)
Definition kept_reactions (d : nuclide) (nu : list prod) (d' : nuclide) : Prop :=
  forall mt r, In (mt, r) (d_rx d) -> written r -> exists r', reaction_at (d_rx d') mt = Some r' /\ kept_rx d nu r r'.
(** [r] is the sum of the reactions [parts]. *)
Definition sum_rx (temps : list string) (nu : list prod) (mt : Z) (parts : list nrx) (r : nrx) : Prop :=
  x_mt r = mt /\ x_q r = 0%Qc /\ x_cm r = true /\ x_redundant r = true /\ x_products r = [] /\
  (mt = 18 -> x_derived r = nu) /\ (mt <> 18 -> x_derived r = []) /\
  (forall t, In t temps -> exists l, look t (x_xs r) = Some (Added l) /\ Forall2 (fun p x => look t (x_xs p) = Some x) parts l) /\
  (forall t, ~ In t temps -> look t (x_xs r) = None).
(** The reactions [mts] that are there in time, in that order. *)
Inductive there (data : Z -> option nrx) (early : Z -> Prop) : list Z -> list nrx -> Prop :=
| there_nil : there data early [] []
| there_some m r l rs : data m = Some r -> early m -> there data early l rs -> there data early (m :: l) (r :: rs)
| there_none m l rs : data m = None \/ ~ early m -> there data early l rs -> there data early (m :: l) rs.
(** In time for the sum [mt]: larger numbers, and those of the file. *)
Definition early (d : nuclide) (mt m : Z) : Prop := mt < m \/ exists r, In (m, r) (d_rx d) /\ written r.
(** Where the file has no reaction [mt]: the sum of what there is of its parts in time; or
    nothing, if there is nothing, or [mt] has no parts. *)
Definition rebuilt (d : nuclide) (nu : list prod) (d' : nuclide) : Prop :=
  forall mt, (forall r, In (mt, r) (d_rx d) -> ~ written r) ->
    (forall parts, In (mt, parts) Sums_Model.sum_rules -> exists rs, there (reaction_at (d_rx d')) (early d mt) parts rs /\
       (rs = [] -> reaction_at (d_rx d') mt = None) /\ (rs <> [] -> exists r', reaction_at (d_rx d') mt = Some r' /\ sum_rx (temperatures d) nu mt rs r')) /\
    ((forall parts, ~ In (mt, parts) Sums_Model.sum_rules) -> reaction_at (d_rx d') mt = None).
Definition stored (d d' : nuclide) : Prop :=
  same_nuclide d d' /\ same_temperatures d d' /\ same_grids d d' /\ same_tables d d' /\
  exists nu, total_yield d nu /\ kept_reactions d nu d' /\ rebuilt d nu d'.
(** The tables a cross section is the sum of. *)
Fixpoint leaves (x : xsec) : list fn := match x with Table f _ => [f] | Added l => flat_map leaves l end.
