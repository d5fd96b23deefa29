(** Secondary distributions read from an ACE table.
    Source: /repo/ASAPy/data/angle_energy.py:37-103 (AngleEnergy.from_ace);
            /repo/ASAPy/data/energy_distribution.py:193-195, 303-329, 436-462, 584-622, 875-894,
            972-991, 1192-1277; /repo/ASAPy/data/kalbach_mann.py:259-352;
            /repo/ASAPy/data/correlated.py:296-411; /repo/ASAPy/data/nbody.py:37-76, 121-143.
    Simplifications: an exception is [None]; warnings are left out; numbers are exact; a
    negative number of points raises (numpy takes -1 in a shape as a number to be worked out);
    arrays do not share memory. *)
From Coq Require Import ZArith QArith Qcanon List Bool Arith.
From Verif Require Import Num Neut_Model.
From Verif Require Cont_Model.
Import ListNotations.
Local Open Scope Z_scope.

Local Notation "'do' x <- e ; k" :=
  (match e with Some x => k | None => None end) (at level 60, x pattern, e at level 59, k at level 60).

(** Cosines: univariate.py:114 ([Uniform(-1., 1.)]), 37 (Discrete), 312 (Tabular, with [c]). *)
Inductive cosine := Iso | Lines (l : list Cont_Model.point) | Cos (i : Cont_Model.scheme) (l : list Cont_Model.point).
(** energy_distribution.py: DiscretePhoton (782), LevelInelastic (897), ContinuousTabular
    (994), MaxwellEnergy (223), Evaporation (356), WattEnergy (489); those of ENDF only:
    MadlandNix (650), GeneralEvaporation (156), ArbitraryTabulated (94). *)
Inductive energy :=
| Photon (primary : Z) (e awr : Qc)
| Level (threshold ratio : Qc)
| Continuous (bp it : list Z) (es : list Qc) (out : list Cont_Model.dist)
| Maxwell (theta : fn) (u : Qc)
| Evaporation (theta : fn) (u : Qc)
| Watt (a b : fn) (u : Qc)
| Madland (efl efh : Qc) (tm : fn)
| General (theta g : fn) (u : Qc)
| Arbitrary (es : list Qc) (pdf : list fn).
(** angle_energy.py:6: UncorrelatedAngleEnergy (uncorrelated.py:30-37, its angles are kept
    elsewhere), KalbachMann, CorrelatedAngleEnergy, NBodyPhaseSpace. *)
Inductive law :=
| Uncorrelated (e : option energy)
| Kalbach (bp it : list Z) (es : list Qc) (out : list Cont_Model.dist) (r a : list fn)
| Correlated (bp it : list Z) (es : list Qc) (out : list Cont_Model.dist) (mu : list (list cosine))
| NBody (mass : Qc) (n : Z) (awr q : Qc).

(** energy_distribution.py:875-894. *)
Definition photon_from_ace (awr : Qc) (x : list Qc) (idx : Z) : option energy :=
  do primary <- int_at x idx; do e <- at_ x (idx + 1);
  Some (Photon primary (e * EV_PER_MEV)%Qc awr).
(** energy_distribution.py:972-991. *)
Definition level_from_ace (x : list Qc) (idx : Z) : option energy :=
  do t <- at_ x idx; do m <- at_ x (idx + 1);
  Some (Level (t * EV_PER_MEV)%Qc m).
(** [f.y *= k] and [f.y /= k]. *)
Definition times_y (k : Qc) (f : fn) : fn := mkFn (fx f) (map (fun v => v * k)%Qc (fy f)) (fbp f) (fint f).
Definition over_y (k : Qc) (f : fn) : fn := mkFn (fx f) (map (fun v => v / k)%Qc (fy f)) (fbp f) (fint f).
(** energy_distribution.py:325-327, 458-460, 606-608: the place after a function. *)
Definition after_fn (x : list Qc) (idx : Z) : option Z :=
  do nr <- int_at x idx; do ne <- int_at x (idx + 1 + 2 * nr);
  Some (idx + 2 + 2 * nr + 2 * ne).
(** energy_distribution.py:321-327 and 454-460: temperature and restriction energy. *)
Definition theta_from_ace (x : list Qc) (idx : Z) : option (fn * Qc) :=
  do theta <- fn_from_ace x idx;
  do p <- after_fn x idx; do u <- at_ x p;
  Some (times_y EV_PER_MEV theta, (u * EV_PER_MEV)%Qc).
(** energy_distribution.py:600-622. *)
Definition watt_from_ace (x : list Qc) (idx : Z) : option energy :=
  do a <- fn_from_ace x idx; do idx <- after_fn x idx;
  do b <- fn_from_ace x idx; do idx <- after_fn x idx;
  do u <- at_ x idx;
  Some (Watt (times_y EV_PER_MEV a) (over_y EV_PER_MEV b) (u * EV_PER_MEV)%Qc).
(** nbody.py:141-143 with the setters 58-76. *)
Definition nbody_from_ace (awr : Qc) (x : list Qc) (idx : Z) (q : Qc) : option law :=
  do n <- int_at x idx; do m <- at_ x (idx + 1);
  if qltb 0%Qc m && (0 <? n) && qltb 0%Qc awr then Some (NBody m n awr q) else None.

(** energy_distribution.py:1214-1232 (kalbach_mann.py:281-299, correlated.py:318-336 are the
    same): breakpoints, schemes, energies, locators. *)
Definition heading (x : list Qc) (idx : Z) : option (list Z * list Z * list Qc * list Z) :=
  do n_regions <- int_at x idx;
  do n_energy_in <- int_at x (idx + 1 + 2 * n_regions);
  let idx := idx + 1 in
  let '(bp, it) := if 0 <? n_regions
                   then (map int (slice x idx (idx + n_regions)), map int (slice x (idx + n_regions) (idx + 2 * n_regions)))
                   else ([n_energy_in], [2]) in
  let idx := idx + 2 * n_regions + 1 in
  let es := mega (slice x idx (idx + n_energy_in)) in
  let idx := idx + n_energy_in in
  do locs <- all_some (map (at_ (map int (slice x idx (idx + n_energy_in)))) (range n_energy_in));
  Some (bp, it, es, locs).
(** Row [r] of an array of shape (k, n). *)
Definition row (n r : nat) (data : list Qc) : list Qc := firstn n (skipn (r * n) data).
(** [a] array of shape ([k], n) at [idx], with n before it: energy_distribution.py:1250-1252,
    correlated.py:396-398. *)
Definition array_at (x : list Qc) (k : nat) (idx : Z) : option (nat * list Qc) :=
  do n <- int_at x idx;
  if n <? 0 then None else
  let data := slice x (idx + 1) (idx + 1 + Z.of_nat k * n) in
  if (length data =? k * Z.to_nat n)%nat then Some (Z.to_nat n, data) else None.
(** Three rows as points. *)
Fixpoint triples (x p c : list Qc) : list Cont_Model.point :=
  match x, p, c with a :: x', b :: p', d :: c' => (a, b, d) :: triples x' p' c' | _, _, _ => [] end.
(** function.py:13-14: INTERPOLATION_SCHEME; [None]: KeyError. *)
Definition scheme_of_int (k : Z) : option Cont_Model.scheme := if k <? 0 then None else Cont_Model.scheme_at (Z.to_nat k).
(** energy_distribution.py:1239-1275 (kalbach_mann.py:308-348, correlated.py:344-385): the
    spectrum at [idx], in an array of [k] rows; [ignore]: negative densities are let pass
    (kalbach_mann.py:328, correlated.py:365).  Also gives the array with its first row in
    eV. *)
Definition spectrum_at (ignore : bool) (x : list Qc) (k : nat) (idx : Z) : option (Cont_Model.dist * nat * list Qc) :=
  do inttp <- int_at x idx;
  let intt := inttp mod 10 in
  let lines := (inttp - intt) / 10 in
  let s := if intt =? 1 then Cont_Model.Histogram else Cont_Model.LinLin in
  do (n, data) <- array_at x k (idx + 1);
  let data := mega (firstn n data) ++ skipn n data in
  let pts := triples (row n 0 data) (row n 1 data) (row n 2 data) in
  let cont := map (fun t => (Cont_Model.px t, Cont_Model.pp t / EV_PER_MEV, Cont_Model.pc t)%Qc) (slice pts lines (Z.of_nat n)) in
  if ignore || Cont_Model.nonneg cont then
    if 0 <? lines then
      let disc := slice pts 0 lines in
      if Cont_Model.nonneg disc then
        if lines =? Z.of_nat n then Some (Cont_Model.Disc disc, n, data)
        else let q := qsum (map Cont_Model.pp disc) in
             let p := if qleb q 1 then q else 1%Qc in
             Some (Cont_Model.Mix [p; (1 - p)%Qc] disc s cont, n, data)
      else None
    else Some (Cont_Model.Tab s cont, n, data)
  else None.
(** energy_distribution.py:1192-1277; [ldis] is the start of the block. *)
Definition continuous_from_ace (x : list Qc) (idx ldis : Z) : option energy :=
  do (bp, it, es, locs) <- heading x idx;
  do out <- all_some (map (fun l => spectrum_at false x 3 (ldis + l - 1)) locs);
  Some (Continuous bp it es (map (fun s => fst (fst s)) out)).
(** kalbach_mann.py:259-352. *)
Definition kalbach_from_ace (x : list Qc) (idx ldis : Z) : option law :=
  do (bp, it, es, locs) <- heading x idx;
  do out <- all_some (map (fun l => spectrum_at true x 5 (ldis + l - 1)) locs);
  let col r := map (fun s => linear (row (snd (fst s)) 0 (snd s)) (row (snd (fst s)) r (snd s))) out in
  Some (Kalbach bp it es (map (fun s => fst (fst s)) out) (col 3%nat) (col 4%nat)).
(** correlated.py:392-406: the cosine with locator [lc]. *)
Definition cosine_at (x : list Qc) (ldis lc : Z) : option cosine :=
  if 0 <? lc then
    let idx := ldis + Z.abs lc - 1 in
    do intt <- int_at x idx;
    do (n, data) <- array_at x 3 (idx + 1);
    let l := triples (row n 0 data) (row n 1 data) (row n 2 data) in
    do s <- scheme_of_int intt;
    if Cont_Model.nonneg l then Some (Cos s l) else None
  else Some Iso.
(** correlated.py:296-411. *)
Definition correlated_from_ace (x : list Qc) (idx ldis : Z) : option law :=
  do (bp, it, es, locs) <- heading x idx;
  do out <- all_some (map (fun l =>
    do s <- spectrum_at true x 4 (ldis + l - 1);
    do mu <- all_some (map (cosine_at x ldis) (map int (row (snd (fst s)) 3 (snd s))));
    Some (fst (fst s), mu)) locs);
  Some (Correlated bp it es (map fst out) (map snd out)).

(** angle_energy.py:69-88: [distribution = UncorrelatedAngleEnergy(); distribution.energy = e]. *)
Definition uncorrelated (e : energy) : law := Uncorrelated (Some e).
(** angle_energy.py:37-103; [q]: the Q value of the reaction handed over, if one is. *)
Definition law_from_ace (awr : Qc) (x : list Qc) (location_dist location_start : Z) (q : option Qc) : option law :=
  let idx := location_dist + location_start - 1 in
  do number <- int_at x (idx + 1);
  do location_data <- int_at x (idx + 2);
  let idx := location_dist + location_data - 1 in
  if number =? 2 then option_map uncorrelated (photon_from_ace awr x idx)
  else if (number =? 3) || (number =? 33) then option_map uncorrelated (level_from_ace x idx)
  else if number =? 4 then option_map uncorrelated (continuous_from_ace x idx location_dist)
  else if number =? 5 then None (* energy_distribution.py:195: NotImplementedError *)
  else if number =? 7 then option_map (fun t => uncorrelated (Maxwell (fst t) (snd t))) (theta_from_ace x idx)
  else if number =? 9 then option_map (fun t => uncorrelated (Evaporation (fst t) (snd t))) (theta_from_ace x idx)
  else if number =? 11 then option_map uncorrelated (watt_from_ace x idx)
  else if number =? 44 then kalbach_from_ace x idx location_dist
  else if number =? 61 then correlated_from_ace x idx location_dist
  else if number =? 66 then match q with None => None (* AttributeError *) | Some q => nbody_from_ace awr x idx q end
  else None.
