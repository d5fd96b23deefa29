(** What a table of cross sections in ACE form says, and what is read from it. *)
From Coq Require Import ZArith QArith Qcanon List Bool Arith.
From Verif Require Import Num Neut_Model.
From Verif Require Sums_Spec AceEdit_Model AceEdit_Spec.
Import ListNotations.
Local Open Scope Z_scope.

(** The words [l] stand in [x] from place [p] on. *)
Definition stands (x : list Qc) (p : Z) (l : list Qc) : Prop :=
  exists u w, x = u ++ l ++ w /\ Z.of_nat (length u) = p.

(** ** Cross sections *)
(** A reaction: MT, Q value (MeV), number of neutrons (negative: centre of mass), the place
    of its first energy on the grid, its values. *)
Record channel := mkChannel { c_mt : Z; c_q : Qc; c_ty : Z; c_first : nat; c_values : list Qc }.
(** A table: grid (MeV), total, absorption and elastic cross section, other reactions. *)
Record content := mkContent { c_grid : list Qc; c_total : list Qc; c_abs : list Qc; c_elastic : list Qc; c_channels : list channel }.
(** The place of the values of reaction [k] (0: elastic). *)
Definition values_at (a : ace) (c : content) (k : nat) (p : Z) : Prop :=
  match k with
  | O => p = jxs a 1 + 3 * Z.of_nat (length (c_grid c))
  | S i => exists loc, stands (xss a) (jxs a 6 + Z.of_nat i) [qz loc] /\ p = jxs a 7 + loc + 1
  end.
(** Its values. *)
Definition values_of (c : content) (k : nat) : list Qc :=
  match k with O => c_elastic c | S i => match nth_error (c_channels c) i with Some r => c_values r | None => [] end end.
(** The table [a] says [c]: blocks ESZ, MTR, LQR, TYR, LSIG and SIG of the ACE format. *)
Record says (a : ace) (c : content) : Prop := {
  s_lengths : length (c_total c) = length (c_grid c) /\ length (c_abs c) = length (c_grid c) /\ length (c_elastic c) = length (c_grid c);
  s_grid : nxs a 3 = Z.of_nat (length (c_grid c)) /\ stands (xss a) (jxs a 1) (c_grid c ++ c_total c ++ c_abs c ++ c_elastic c);
  s_count : nxs a 4 = Z.of_nat (length (c_channels c));
  s_channel : forall i r, nth_error (c_channels c) i = Some r ->
    stands (xss a) (jxs a 3 + Z.of_nat i) [qz (c_mt r)] /\
    stands (xss a) (jxs a 4 + Z.of_nat i) [c_q r] /\
    stands (xss a) (jxs a 5 + Z.of_nat i) [qz (c_ty r)] /\
    (c_first r + length (c_values r) <= length (c_grid c))%nat /\
    exists loc, stands (xss a) (jxs a 6 + Z.of_nat i) [qz loc] /\
      stands (xss a) (jxs a 7 + loc - 1) (qz (Z.of_nat (c_first r) + 1) :: qz (Z.of_nat (length (c_values r))) :: c_values r) }.
(** Place [p] holds a value of the cross section of some reaction (not the total, not
    absorption). *)
Definition valued (a : ace) (c : content) (p : Z) : Prop :=
  exists k q, (k <= length (c_channels c))%nat /\ values_at a c k q /\ q <= p < q + Z.of_nat (length (values_of c k)).
(** The other words of the table are not among those. *)
Record apart (a : ace) (c : content) : Prop := {
  a_grid : forall p, jxs a 1 <= p < jxs a 1 + 3 * Z.of_nat (length (c_grid c)) -> ~ valued a c p;
  a_lists : forall i, (i < length (c_channels c))%nat ->
    ~ valued a c (jxs a 3 + Z.of_nat i) /\ ~ valued a c (jxs a 4 + Z.of_nat i) /\
    ~ valued a c (jxs a 5 + Z.of_nat i) /\ ~ valued a c (jxs a 6 + Z.of_nat i) /\
    forall p, values_at a c (S i) p -> ~ valued a c (p - 2) /\ ~ valued a c (p - 1) }.
(** A negative cross section counts as 0. *)
Definition clip (v : Qc) : Qc := if qltb v 0%Qc then 0%Qc else v.
(** [x] is what XSS was, with the negative cross sections set to 0. *)
Definition cleared (a : ace) (c : content) (x : list Qc) : Prop :=
  length x = length (xss a) /\
  forall p v, nth_error (xss a) p = Some v ->
    (valued a c (Z.of_nat p) -> nth_error x p = Some (clip v)) /\ (~ valued a c (Z.of_nat p) -> nth_error x p = Some v).
(** Gas production (201 to 218) and damage (444). *)
Definition ignored (mt : Z) : Prop := 201 <= mt <= 218 \/ mt = 444.

(** The reactions of [n] as functions of energy, XSS being [x]. *)
Definition read_as {D A} (n : neutron (D:=D) (A:=A)) (x : list Qc) (mt : Z) (r : reaction) (energy values : list Qc) : Prop :=
  AceEdit_Model.lookup mt (n_reactions n) = Some r /\ r_mt r = mt /\ r_energy r = energy /\ elements x (r_xs r) = values.
(** Energies of the grid in eV, [m] of them from place [f] on. *)
Definition energies (c : content) (f m : nat) : list Qc := map (fun e => e * qz 1000000)%Qc (firstn m (skipn f (c_grid c))).

(** The value of a reaction of the table at the [j]-th energy of the grid. *)
Definition value_at (f : nat) (vs : list Qc) (j : nat) : Qc := if (f <=? j)%nat then nth (j - f) vs 0%Qc else 0%Qc.

(** ** Sums *)
(** No MT is listed twice, nor total, elastic or absorption again. *)
Definition listed_once (c : content) : Prop := NoDup (1 :: 2 :: 101 :: map c_mt (c_channels c)).
(** The table gives for [mt] the values [vs] from place [f] of the grid on. *)
Definition gives (c : content) (mt : Z) (f : nat) (vs : list Qc) : Prop :=
  (mt = 1 /\ f = O /\ vs = c_total c) \/
  (mt = 2 /\ f = O /\ vs = map clip (c_elastic c)) \/
  (mt = 101 /\ f = O /\ vs = c_abs c /\ exists v, In v (c_abs c) /\ v <> 0%Qc) \/
  (exists h, In h (c_channels c) /\ ~ ignored (c_mt h) /\ mt = c_mt h /\ f = c_first h /\ vs = map clip (c_values h)).
Definition given (c : content) (mt : Z) : Prop := exists f vs, gives c mt f vs.
(** The grid in eV is strictly increasing, and no energy is taken for the first or last
    of a reaction's energies but that one itself. *)
Definition resolved (c : content) : Prop :=
  let g := energies c 0 (length (c_grid c)) in
  AceEdit_Spec.increasing g /\
  forall mt f vs, gives c mt f vs -> vs <> [] /\
    forall j, (j < length g)%nat ->
      (j <> f -> AceEdit_Spec.far (nth j g 0%Qc) (nth f g 0%Qc)) /\
      (j <> f + length vs - 1 -> AceEdit_Spec.far (nth j g 0%Qc) (nth (f + length vs - 1) g 0%Qc))%nat.
(** [r] is the sum of the reactions [l], on the grid from the first energy of any on. *)
Definition sums {D A} (c : content) (x : list Qc) (r : @reaction D A) (l : list Z) : Prop :=
  exists f0, (exists m vs, In m l /\ gives c m f0 vs) /\ (forall m f vs, In m l -> gives c m f vs -> (f0 <= f)%nat) /\
    r_energy r = energies c f0 (length (c_grid c) - f0) /\ r_redundant r = true /\
    length (elements x (r_xs r)) = (length (c_grid c) - f0)%nat /\
    forall src, (forall m, In m l -> gives c m (fst (src m)) (snd (src m))) ->
      forall j, (f0 <= j < length (c_grid c))%nat ->
        nth (j - f0) (elements x (r_xs r)) 0%Qc = Sums_Spec.total (fun m => value_at (fst (src m)) (snd (src m)) j) l.
(** The photon reactions of the table are [ms] (thousandfold the neutron MTs). *)
Definition lists_photons (a : ace) (c : content) (ms : list Z) : Prop :=
  nxs a 6 = Z.of_nat (length ms) /\ stands (xss a) (jxs a 13) (map qz ms) /\
  forall p, jxs a 13 <= p < jxs a 13 + Z.of_nat (length ms) -> ~ valued a c p.
(** Sums that are made: (n,2n) and those over the levels of an emitted charged particle, and
    what has photons; but not MT 3. *)
Definition summed (ms : list Z) (m : Z) : Prop :=
  m = 16 \/ 103 <= m <= 107 \/ (m <> 3 /\ (exists b, Sums_Spec.part m b) /\ exists t, In t ms /\ t / 1000 = m).
(** A table with no secondary neutrons, photons or probability tables: blocks one after
    the other. *)
Definition block (h : channel) : list Qc := qz (Z.of_nat (c_first h) + 1) :: qz (Z.of_nat (length (c_values h))) :: c_values h.
Definition offset (l : list channel) (i : nat) : nat := length (concat (map block (firstn i l))).
Definition lay (c : content) : ace :=
  let N := Z.of_nat (length (c_grid c)) in
  let k := Z.of_nat (length (c_channels c)) in
  mkAce (fun i => match i with 3%nat => N | 4%nat => k | _ => 0 end)
        (fun i => match i with 1%nat => 1 | 8%nat => 1 + 4 * N | 3%nat => 2 + 4 * N | 4%nat => 2 + 4 * N + k | 5%nat => 2 + 4 * N + 2 * k
                  | 6%nat => 2 + 4 * N + 3 * k | 7%nat => 2 + 4 * N + 4 * k | _ => 0 end)
        ([0%Qc] ++ (c_grid c ++ c_total c ++ c_abs c ++ c_elastic c) ++ [0%Qc] ++ map (fun h => qz (c_mt h)) (c_channels c) ++ map c_q (c_channels c) ++
         map (fun h => qz (c_ty h)) (c_channels c) ++ map (fun i => qz (Z.of_nat (offset (c_channels c) i) + 1)) (seq 0 (length (c_channels c))) ++ concat (map block (c_channels c))).
(** Content that a table can have. *)
Record consistent (c : content) : Prop := {
  k_lengths : length (c_total c) = length (c_grid c) /\ length (c_abs c) = length (c_grid c) /\ length (c_elastic c) = length (c_grid c);
  k_channels : forall h, In h (c_channels c) -> (c_first h + length (c_values h) <= length (c_grid c))%nat }.
(** A table of cross sections alone, elastic scattering isotropic. *)
Record bare (a : ace) (c : content) : Prop := {
  b_neutrons : nxs a 5 = 0; b_photons : nxs a 6 = 0; b_tables : jxs a 23 = 0;
  b_isotropic : exists loc, loc <= 0 /\ stands (xss a) (jxs a 8) [qz loc] /\ ~ valued a c (jxs a 8) }.
