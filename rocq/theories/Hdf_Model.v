(** Products of reactions and their distributions in HDF5.
    Source: /repo/ASAPy/data/product.py:95-187; /repo/ASAPy/data/angle_energy.py:12-35;
            /repo/ASAPy/data/uncorrelated.py:57-96; /repo/ASAPy/data/energy_distribution.py:26-57,
            121-122, 190-191, 270-301, 403-434, 549-582, 702-754, 840-873, 939-970, 1068-1190;
            /repo/ASAPy/data/kalbach_mann.py:124-257; /repo/ASAPy/data/correlated.py:105-294;
            /repo/ASAPy/data/nbody.py:58-119; /repo/ASAPy/data/angle_distribution.py:61-140;
            /repo/ASAPy/data/function.py:77-95, 315-355, 404-436.
    Simplifications: an exception is [None] (what was written before it is dropped); values
    come back from HDF5 as written; the particle is a neutron or a photon; distributions have
    their [c] (those of ENDF have not, see Ang_Model.v); numbers are exact. *)
From Coq Require Import ZArith QArith Qcanon List Bool Arith String.
From Coq Require Import DecimalString.
From Verif Require Import Num Neut_Model Law_Model.
From Verif Require Cont_Model Ang_Model.
Import ListNotations.
Local Open Scope string_scope.
Local Open Scope list_scope.
Local Open Scope nat_scope.

Local Notation "'do' x <- e ; k" :=
  (match e with Some x => k | None => None end) (at level 60, x pattern, e at level 59, k at level 60).

(** ** h5py *)
(** What attributes and datasets hold: texts, numbers, arrays of numbers, of integers, of
    rows, of arrays of rows (urr.py:147), of texts (thermal.py:288); two rows of integers
    (energy_distribution.py:1079-1081). *)
Inductive val :=
| VStr (s : string) | VNum (q : Qc) | VInt (z : Z) | VNums (l : list Qc) | VInts (l : list Z) | VNats (l : list nat)
| VRows (r : list (list Qc)) | VCube (t : list (list (list Qc))) | VStrs (l : list string) | VPair (a b : list Z).
(** A group (no data) or a dataset, with its attributes and, by name, what is in it
    (product.py:132-146). *)
Inductive node := Node (attrs : list (string * val)) (data : option val) (kids : list (string * node)).
(** A new group, a new dataset (product.py:143, energy_distribution.py:1079). *)
Definition group : node := Node [] None [].
Definition dataset (v : val) : node := Node [] (Some v) [].
Fixpoint look {A} (k : string) (l : list (string * A)) : option A :=
  match l with [] => None | (k', a) :: r => if String.eqb k k' then Some a else look k r end.
(** [g.attrs[k] = v], [g.attrs[k]] ([None]: KeyError), [g[k]], [d.value]: product.py:132-135, 163-168; energy_distribution.py:1147. *)
Definition set_attr (k : string) (v : val) (n : node) : node := let 'Node a d ks := n in Node ((k, v) :: a) d ks.
Definition attr (n : node) (k : string) : option val := let 'Node a _ _ := n in look k a.
Definition kid (n : node) (k : string) : option node := let 'Node _ _ ks := n in look k ks.
Definition value (n : node) : option val := let 'Node _ d _ := n in d.
(** [g.create_group(k)], [g.create_dataset(k)] filled with [c]; [None]: the name is taken. *)
Definition create (k : string) (c : node) (n : node) : option node :=
  let 'Node a d ks := n in match look k ks with Some _ => None | None => Some (Node a d (ks ++ [(k, c)])) end.
(** The kinds of values, one by one ([None]: an exception further on). *)
Definition str (v : option val) : option string := match v with Some (VStr s) => Some s | _ => None end.
Definition num (v : option val) : option Qc := match v with Some (VNum q) => Some q | _ => None end.
Definition integer (v : option val) : option Z := match v with Some (VInt z) => Some z | _ => None end.
Definition nums (v : option val) : option (list Qc) := match v with Some (VNums l) => Some l | _ => None end.
Definition ints (v : option val) : option (list Z) := match v with Some (VInts l) => Some l | _ => None end.
Definition nats (v : option val) : option (list nat) := match v with Some (VNats l) => Some l | _ => None end.
Definition rows (v : option val) : option (list (list Qc)) := match v with Some (VRows r) => Some r | _ => None end.
Definition pair_of (v : option val) : option (list Z * list Z) := match v with Some (VPair a b) => Some (a, b) | _ => None end.

(** ** Functions *)
(** function.py:315-330; [np.vstack] refuses rows of different lengths. *)
Definition fn_node (f : fn) : option node :=
  if length (fx f) =? length (fy f)
  then Some (Node [("type", VStr "Tabulated1D"); ("breakpoints", VInts (fbp f)); ("interpolation", VInts (fint f))] (Some (VRows [fx f; fy f])) [])
  else None.
(** function.py:332-355. *)
Definition fn_of (n : node) : option fn :=
  do t <- str (attr n "type");
  if String.eqb t "Tabulated1D" then
    do r <- rows (value n);
    do x <- nth_error r 0; do y <- nth_error r 1;
    do b <- ints (attr n "breakpoints"); do i <- ints (attr n "interpolation");
    Some (mkFn x y b i)
  else None.
(** function.py:404-416. *)
Definition yield_node (y : yield) : option node :=
  match y with
  | Tabd f => fn_node f
  | Poly c => Some (Node [("type", VStr "Polynomial")] (Some (VNums c)) [])
  end.
(** function.py:77-95 (Function1D.from_hdf5), 419-436. *)
Definition yield_of (n : node) : option yield :=
  do t <- str (attr n "type");
  if String.eqb t "Tabulated1D" then option_map Tabd (fn_of n)
  else if String.eqb t "Polynomial" then option_map Poly (nums (value n))
  else None.

(** ** Angles *)
(** Three rows of an array. *)
Definition rows_of (l : list Cont_Model.point) : list (list Qc) := [map Cont_Model.px l; map Cont_Model.pp l; map Cont_Model.pc l].
Definition points_of (r : list (list Qc)) : option (list Cont_Model.point) :=
  do x <- nth_error r 0; do p <- nth_error r 1; do c <- nth_error r 2; Some (triples x p c).
Definition angle := (list Qc * list Ang_Model.mu)%type.
(** angle_distribution.py:61-101. *)
Definition angle_node (a : angle) : option node :=
  match Ang_Model.to_hdf5 (fst a) (snd a) with
  | (g, true) =>
      do n <- create "energy" (dataset (VNums (Ang_Model.g_energy g))) group;
      do (p, offs, codes) <- Ang_Model.g_mu g;
      create "mu" (Node [("offsets", VNats offs); ("interpolation", VNats codes)] (Some (VRows (rows_of p))) []) n
  | (_, false) => None
  end.
(** angle_distribution.py:103-140. *)
Definition angle_of (n : node) : option angle :=
  do e <- kid n "energy"; do es <- nums (value e);
  do m <- kid n "mu"; do r <- rows (value m); do p <- points_of r;
  do offs <- nats (attr m "offsets"); do codes <- nats (attr m "interpolation");
  Ang_Model.from_hdf5 (Ang_Model.mkGroup es (Some (p, offs, codes))).

(** ** Spectra *)
(** energy_distribution.py:1079-1081 (kalbach_mann.py:135-137, correlated.py:116-118): the
    incident energies. *)
Definition incident_node (bp it : list Z) (es : list Qc) (n : node) : option node :=
  if length bp =? length it then create "energy" (Node [("interpolation", VPair bp it)] (Some (VNums es)) []) n else None.
(** energy_distribution.py:1144-1147 (kalbach_mann.py:203-206, correlated.py:210-213). *)
Definition incident_of (n : node) : option (list Z * list Z * list Qc) :=
  do e <- kid n "energy"; do (bp, it) <- pair_of (attr e "interpolation"); do es <- nums (value e); Some (bp, it, es).
(** energy_distribution.py:1083-1127 (kalbach_mann.py:139-186, correlated.py:120-190): the
    array of the spectra [ds] and [more] rows, with its attributes. *)
Definition spectra_node (name : string) (ds : list Cont_Model.dist) (more : list (list Qc)) (n : node) : option node :=
  create name (Node [("offsets", VNats (Cont_Model.offsets_from 0 ds)); ("interpolation", VNats (map Cont_Model.scheme_of ds)); ("n_discrete_lines", VNats (map Cont_Model.lines_of ds))]
                 (Some (VRows (rows_of (flat_map Cont_Model.columns ds) ++ more))) []) n.
(** The local variables that outlive a turn, and one turn, as in Cont_Model.v
    (energy_distribution.py:1156-1187, kalbach_mann.py:217-248, correlated.py:225-261);
    [ignore]: negative densities are let pass (correlated.py:249). *)
Definition turn (ignore : bool) (f : Cont_Model.file) (v : Cont_Model.vars) (i n_energy : nat) : option (Cont_Model.dist * Cont_Model.vars) :=
  do j <- nth_error (Cont_Model.f_offsets f) i; do m <- nth_error (Cont_Model.f_discrete f) i;
  do e <- (if i <? n_energy - 1 then nth_error (Cont_Model.f_offsets f) (i + 1) else Some (length (Cont_Model.f_pairs f)));
  let n := e - j in
  let disc := Cont_Model.slice (Cont_Model.f_pairs f) j (j + m) in
  let cont := Cont_Model.slice (Cont_Model.f_pairs f) (j + m) (j + n) in
  do vd <- (if 0 <? m then if Cont_Model.nonneg disc then Some (Some disc) else None else Some (Cont_Model.v_disc v));
  do vc <- (if m <? n then do k <- nth_error (Cont_Model.f_schemes f) i; do s <- Cont_Model.scheme_at k;
                           if ignore || Cont_Model.nonneg cont then Some (Some (s, cont)) else None
            else Some (Cont_Model.v_cont v));
  let v' := Cont_Model.mkVars vd vc in
  if m =? 0 then do (s, l) <- vc; Some (Cont_Model.Tab s l, v')
  else if m =? n then do l <- vd; Some (Cont_Model.Disc l, v')
  else do a <- vd; do (s, c) <- vc;
       let p := Cont_Model.pc (last a (0, 0, 0)%Qc) in
       if qleb 0 p && qleb 0 (1 - p) then Some (Cont_Model.Mix [p; (1 - p)%Qc] a s c, v') else None.
Fixpoint turns (ignore : bool) (f : Cont_Model.file) (v : Cont_Model.vars) (is : list nat) (n_energy : nat) : option (list Cont_Model.dist) :=
  match is with
  | [] => Some []
  | i :: r => do (d, v') <- turn ignore f v i n_energy; do ds <- turns ignore f v' r n_energy; Some (d :: ds)
  end.
(** energy_distribution.py:1149-1187: the spectra, and the array they were in. *)
Definition spectra_of (ignore : bool) (name : string) (es : list Qc) (n : node) : option (list Cont_Model.dist * list nat * list (list Qc)) :=
  do d <- kid n name;
  do offs <- nats (attr d "offsets"); do codes <- nats (attr d "interpolation"); do lines <- nats (attr d "n_discrete_lines");
  do r <- rows (value d); do p <- points_of r;
  do ds <- turns ignore (Cont_Model.mkFile es [] p offs codes lines) (Cont_Model.mkVars None None) (seq 0 (length es)) (length es);
  Some (ds, offs, r).

(** ** Energies *)
(** energy_distribution.py:270-282 (Maxwell), 403-415 (Evaporation), 549-562 (Watt), 721-734
    (Madland-Nix: the function goes to the default name of function.py:315), 840-853
    (photon), 939-951 (level), 1068-1127 (continuous), 121-122 and 190-191
    (NotImplementedError). *)
Definition energy_node (e : energy) (n : node) : option node :=
  match e with
  | Maxwell theta u => do t <- fn_node theta; create "theta" t (set_attr "u" (VNum u) (set_attr "type" (VStr "maxwell") n))
  | Evaporation theta u => do t <- fn_node theta; create "theta" t (set_attr "u" (VNum u) (set_attr "type" (VStr "evaporation") n))
  | Watt a b u => do na <- fn_node a; do nb <- fn_node b;
                  do n <- create "a" na (set_attr "u" (VNum u) (set_attr "type" (VStr "watt") n)); create "b" nb n
  | Madland efl efh tm => do t <- fn_node tm; create "xy" t (set_attr "efh" (VNum efh) (set_attr "efl" (VNum efl) (set_attr "type" (VStr "madland-nix") n)))
  | Photon primary e awr => Some (set_attr "atomic_weight_ratio" (VNum awr) (set_attr "energy" (VNum e) (set_attr "primary_flag" (VInt primary) (set_attr "type" (VStr "discrete_photon") n))))
  | Level threshold ratio => Some (set_attr "mass_ratio" (VNum ratio) (set_attr "threshold" (VNum threshold) (set_attr "type" (VStr "level") n)))
  | Continuous bp it es ds => do n <- incident_node bp it es (set_attr "type" (VStr "continuous") n); spectra_node "distribution" ds [] n
  | General _ _ _ | Arbitrary _ _ => None
  end.
(** energy_distribution.py:26-57, 285-301, 418-434, 565-582, 737-754 with the setters 702-719,
    856-873, 954-970, 1130-1190. *)
Definition energy_of (n : node) : option energy :=
  do t <- str (attr n "type");
  if String.eqb t "maxwell" then do k <- kid n "theta"; do f <- fn_of k; do u <- num (attr n "u"); Some (Maxwell f u)
  else if String.eqb t "evaporation" then do k <- kid n "theta"; do f <- fn_of k; do u <- num (attr n "u"); Some (Evaporation f u)
  else if String.eqb t "watt" then do k <- kid n "a"; do a <- fn_of k; do k <- kid n "b"; do b <- fn_of k; do u <- num (attr n "u"); Some (Watt a b u)
  else if String.eqb t "madland-nix" then
    do efl <- num (attr n "efl"); do efh <- num (attr n "efh"); do k <- kid n "tm"; do f <- fn_of k;
    if qltb 0 efl && qltb 0 efh then Some (Madland efl efh f) else None
  else if String.eqb t "discrete_photon" then do p <- integer (attr n "primary_flag"); do e <- num (attr n "energy"); do awr <- num (attr n "atomic_weight_ratio"); Some (Photon p e awr)
  else if String.eqb t "level" then do th <- num (attr n "threshold"); do r <- num (attr n "mass_ratio"); Some (Level th r)
  else if String.eqb t "continuous" then
    do (bp, it, es) <- incident_of n; do (ds, _, _) <- spectra_of false "distribution" es n; Some (Continuous bp it es ds)
  else None.

(** ** Kalbach-Mann *)
(** [a[j:j+n] = v]: numpy spreads a single value. *)
Definition fill (n : nat) (v : list Qc) : option (list Qc) :=
  if length v =? n then Some v else match v with [w] => Some (repeat w n) | _ => None end.
(** kalbach_mann.py:150-151, 176-177: a row of parameters along the spectra.  Simplification:
    a number of functions other than that of spectra is [None] (the longer lists are cut by
    [zip], leaving parts of the arrays as they were in memory). *)
Fixpoint parameters (ds : list Cont_Model.dist) (fs : list fn) : option (list Qc) :=
  match ds, fs with
  | [], [] => Some []
  | d :: ds', f :: fs' => do v <- fill (Cont_Model.size d) (fy f); do r <- parameters ds' fs'; Some (v ++ r)
  | _, _ => None
  end.
(** kalbach_mann.py:250-251: the function of one turn, from row [r]. *)
Definition parameter_of (x v : list Qc) (offs : list nat) (i n_energy : nat) : option fn :=
  do j <- nth_error offs i;
  do e <- (if i <? n_energy - 1 then nth_error offs (i + 1) else Some (length x));
  Some (linear (firstn (e - j) (skipn j x)) (firstn (e - j) (skipn j v))).
Definition parameters_of (r : list (list Qc)) (k : nat) (offs : list nat) (n_energy : nat) : option (list fn) :=
  do x <- nth_error r 0; do v <- nth_error r k;
  all_some (map (fun i => parameter_of x v offs i n_energy) (seq 0 n_energy)).

(** ** Correlated *)
(** correlated.py:124-128 with univariate.py:159-163. *)
Definition tabular (m : cosine) : nat * list Cont_Model.point :=
  match m with
  | Iso => (1, [(- (1), qc 1 2, 0)%Qc; (1, qc 1 2, 1)%Qc])
  | Lines l => (0, l)
  | Cos i l => (Cont_Model.code i, l)
  end.
(** correlated.py:121: [d.x] of a mixture is an AttributeError. *)
Definition has_x (d : Cont_Model.dist) : bool := match d with Cont_Model.Mix _ _ _ _ => false | _ => true end.
(** correlated.py:167-180: the running offset of the cosines. *)
Fixpoint mu_offsets (j : nat) (ms : list (nat * list Cont_Model.point)) : list nat :=
  match ms with [] => [] | m :: r => j :: mu_offsets (j + length (snd m)) r end.
(** correlated.py:167-172: one cosine for each energy.  Simplification: otherwise [None] (what stood in memory, or
    an IndexError). *)
Fixpoint matching (ds : list Cont_Model.dist) (mus : list (list cosine)) : bool :=
  match ds, mus with
  | [], [] => true
  | d :: ds', m :: mus' => (Cont_Model.size d =? length m) && matching ds' mus'
  | _, _ => false
  end.
(** correlated.py:105-193. *)
Definition correlated_node (bp it : list Z) (es : list Qc) (ds : list Cont_Model.dist) (mus : list (list cosine)) (n : node) : option node :=
  do n <- incident_node bp it es (set_attr "type" (VStr "correlated") n);
  if forallb has_x ds && matching ds mus then
    let ms := map tabular (concat mus) in
    do n <- spectra_node "energy_out" ds [map (fun m => qz (Z.of_nat (fst m))) ms; map (fun j => qz (Z.of_nat j)) (mu_offsets 0 ms)] n;
    create "mu" (dataset (VRows (rows_of (flat_map snd ms)))) n
  else None.
(** correlated.py:266-287: the cosine at column [c]. *)
Definition cosine_of (codes offs : list Qc) (mu : list Cont_Model.point) (c : nat) : option cosine :=
  do k <- nth_error codes c; do j <- nth_error offs c;
  let j := Z.to_nat (int j) in
  do e <- (if c <? length codes - 1 then option_map (fun q => Z.to_nat (int q)) (nth_error offs (c + 1)) else Some (length mu));
  let l := Cont_Model.slice mu j e in
  if (int k =? 0)%Z then if Cont_Model.nonneg l then Some (Lines l) else None
  else do s <- scheme_of_int (int k); Some (Cos s l).
(** correlated.py:263-291: those of one turn. *)
Definition cosines_of (codes qoffs : list Qc) (mu : list Cont_Model.point) (offs : list nat) (i n_energy : nat) : option (list cosine) :=
  do j <- nth_error offs i;
  do e <- (if i <? n_energy - 1 then nth_error offs (i + 1) else Some (length codes));
  all_some (map (cosine_of codes qoffs mu) (seq j (e - j))).
(** correlated.py:196-294. *)
Definition correlated_of (n : node) : option law :=
  do (bp, it, es) <- incident_of n;
  do (ds, offs, r) <- spectra_of true "energy_out" es n;
  do m <- kid n "mu"; do mr <- rows (value m); do mu <- points_of mr;
  do codes <- nth_error r 3; do qoffs <- nth_error r 4;
  do mus <- all_some (map (fun i => cosines_of codes qoffs mu offs i (length es)) (seq 0 (length es)));
  Some (Correlated bp it es ds mus).

(** ** Distributions *)
(** uncorrelated.py:57-73; kalbach_mann.py:124-186; correlated.py:105-193; nbody.py:85-98.
    The [angle] of other than uncorrelated ones is just an attribute set by reaction.py:1085. *)
Definition law_node (d : law * option angle) (n : node) : option node :=
  match d with
  | (Uncorrelated e, a) =>
      let n := set_attr "type" (VStr "uncorrelated") n in
      do n <- match a with None => Some n | Some a => do k <- angle_node a; create "angle" k n end;
      match e with None => Some n | Some e => do k <- energy_node e group; create "energy" k n end
  | (Kalbach bp it es ds r a, _) =>
      do n <- incident_node bp it es (set_attr "type" (VStr "kalbach-mann") n);
      do r <- parameters ds r; do a <- parameters ds a;
      spectra_node "distribution" ds [r; a] n
  | (Correlated bp it es ds mus, _) => correlated_node bp it es ds mus n
  | (NBody mass k awr q, _) => Some (set_attr "q_value" (VNum q) (set_attr "atomic_weight_ratio" (VNum awr) (set_attr "n_particles" (VInt k) (set_attr "total_mass" (VNum mass) (set_attr "type" (VStr "nbody") n)))))
  end.
(** angle_energy.py:12-35; uncorrelated.py:76-96; kalbach_mann.py:189-257; nbody.py:101-119 with
    the setters 58-76.  Another type is [None] (angle_energy.py returns nothing, which the
    setter of product.py:101-105 refuses). *)
Definition law_of (n : node) : option (law * option angle) :=
  do t <- str (attr n "type");
  if String.eqb t "uncorrelated" then
    do a <- match kid n "angle" with None => Some None | Some k => option_map Some (angle_of k) end;
    do e <- match kid n "energy" with None => Some None | Some k => option_map Some (energy_of k) end;
    Some (Uncorrelated e, a)
  else if String.eqb t "correlated" then option_map (fun d => (d, None)) (correlated_of n)
  else if String.eqb t "kalbach-mann" then
    do (bp, it, es) <- incident_of n; do (ds, offs, r) <- spectra_of false "distribution" es n;
    do rs <- parameters_of r 3 offs (length es); do sl <- parameters_of r 4 offs (length es);
    Some (Kalbach bp it es ds rs sl, None)
  else if String.eqb t "nbody" then
    do m <- num (attr n "total_mass"); do k <- integer (attr n "n_particles"); do awr <- num (attr n "atomic_weight_ratio"); do q <- num (attr n "q_value");
    if qltb 0 m && (0 <? k)%Z && qltb 0 awr then Some (NBody m k awr q, None) else None
  else None.

(** ** Products *)
Definition prod := @product law angle.
(** [str(i)], ['distribution_{}'.format(i)]: product.py:143, 178. *)
Definition digits (i : nat) : string := NilZero.string_of_uint (Nat.to_uint i).
Definition numbered (prefix : string) (i : nat) : string := String.append prefix (digits i).
(** product.py:132-133. *)
Definition particle (neutron : bool) : string := if neutron then "neutron" else "photon".
Definition mode_name (m : mode) : string := match m with Prompt => "prompt" | Total => "total" | Delayed => "delayed" end.
(** product.py:142-146. *)
Fixpoint write_dists (i : nat) (app : list fn) (ds : list (law * option angle)) (n : node) : option node :=
  match ds with
  | [] => Some n
  | d :: r =>
      do g <- match app with
              | [] => Some group
              | _ => do f <- nth_error app i; do k <- fn_node f; create "applicability" k group
              end;
      do g <- law_node d g;
      do n <- create (numbered "distribution_" i) g n;
      write_dists (S i) app r n
  end.
(** product.py:123-146. *)
Definition product_node (p : prod) (n : node) : option node :=
  let n := set_attr "emission_mode" (VStr (mode_name (p_mode p))) (set_attr "particle" (VStr (particle (p_neutron p))) n) in
  let n := if qltb 0 (p_rate p) then set_attr "decay_rate" (VNum (p_rate p)) n else n in
  do y <- yield_node (p_yield p);
  do n <- create "yield" y n;
  write_dists 0 (p_app p) (p_dist p) (set_attr "n_distribution" (VInt (Z.of_nat (length (p_dist p)))) n).
(** product.py:177-182: [None]: an exception. *)
Definition read_dist (n : node) (i : nat) : option ((law * option angle) * option fn) :=
  do g <- kid n (numbered "distribution_" i);
  do f <- match kid g "applicability" with None => Some None | Some k => option_map Some (fn_of k) end;
  do d <- law_of g;
  Some (d, f).
(** product.py:163-164: [cls(particle)], and the setter 107-111. *)
Definition particle_of (s : string) : option bool := if String.eqb s "neutron" then Some true else if String.eqb s "photon" then Some false else None.
Definition mode_of (s : string) : option mode :=
  if String.eqb s "prompt" then Some Prompt else if String.eqb s "delayed" then Some Delayed else if String.eqb s "total" then Some Total else None.
(** product.py:149-187 with the setter 95-99. *)
Definition product_of (n : node) : option prod :=
  do s <- str (attr n "particle"); do neutron <- particle_of s;
  do m <- str (attr n "emission_mode"); do m <- mode_of m;
  do rate <- match attr n "decay_rate" with None => Some 0%Qc | Some v => num (Some v) end;
  if qltb rate 0 then None else
  do k <- kid n "yield"; do y <- yield_of k;
  do c <- integer (attr n "n_distribution");
  do l <- all_some (map (read_dist n) (seq 0 (Z.to_nat c)));
  Some (mkProduct neutron m rate y (flat_map (fun d => match snd d with Some f => [f] | None => [] end) l) (map fst l)).
