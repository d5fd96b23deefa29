(** Reading an ACE table: cross sections, neutron and photon yields, probability tables.
    Source: /repo/ASAPy/data/neutron.py:571-705, 841-869 (IncidentNeutron.from_ace);
            /repo/ASAPy/data/reaction.py:188-322, 554-649, 958-1092 (Reaction.from_ace);
            /repo/ASAPy/data/function.py:154-210, 357-400; data/product.py:42-48;
            /repo/ASAPy/data/urr.py:172-215.
    Simplifications: an exception is [None]; warnings are left out; one temperature (the
    dictionaries keyed by temperature have one entry); metadata (name, masses, temperature)
    is left out; numbers are exact.  The NXS and JXS arrays always have their 16 and 32
    entries (data/ace.py:290-320, 378-411), so they are functions of the 1-based index.
    How a secondary distribution or an angular distribution is read is an argument (parts
    of it are modelled in Cont_Model.v and Ang_Model.v); so is the value of a tabulated
    function in a segment with a logarithmic scheme. *)
From Coq Require Import ZArith QArith Qcanon List Bool Arith.
From Verif Require Import Num.
From Verif Require Sums_Model AceEdit_Model Chi_Model.
Import ListNotations.
Local Open Scope Z_scope.

Local Notation "'do' x <- e ; k" :=
  (match e with Some x => k | None => None end) (at level 60, x pattern, e at level 59, k at level 60).

(** data/ace.py:452-464: the arrays of a table.  [xss] carries a leading 0
    (ace.py:322, 411), so that indices are 1-based. *)
Record ace := mkAce { nxs : nat -> Z; jxs : nat -> Z; xss : list Qc }.
(** data/data.py:373. *)
Definition EV_PER_MEV : Qc := qz 1000000.

(** ** numpy *)
(** [l[i]]: a negative index counts from the end; [None] is IndexError. *)
Definition at_ {A} (l : list A) (i : Z) : option A :=
  let n := Z.of_nat (length l) in
  if 0 <=? i then nth_error l (Z.to_nat i) else if - n <=? i then nth_error l (Z.to_nat (i + n)) else None.
(** The bounds of [l[a:b]]: negative ones count from the end, then both are clipped. *)
Definition bound {A} (l : list A) (i : Z) : nat :=
  let n := Z.of_nat (length l) in Z.to_nat (Z.min n (if i <? 0 then i + n else i)).
(** [l[a:b]]. *)
Definition slice {A} (l : list A) (a b : Z) : list A := firstn (bound l b - bound l a)%nat (skipn (bound l a) l).
(** [int(v)] and [astype(int)]: towards zero. *)
Definition int (v : Qc) : Z := Z.quot (Qnum (this v)) (Zpos (Qden (this v))).
(** [int(xss[i])]. *)
Definition int_at (x : list Qc) (i : Z) : option Z := option_map int (at_ x i).
(** [a * EV_PER_MEV] on an array. *)
Definition mega (l : list Qc) : list Qc := map (fun v => v * EV_PER_MEV)%Qc l.
(** [range(n)]. *)
Definition range (n : Z) : list Z := map Z.of_nat (seq 0 (Z.to_nat n)).
(** A list of results, [None] if one of them raises. *)
Fixpoint all_some {A} (l : list (option A)) : option (list A) :=
  match l with
  | [] => Some []
  | None :: _ => None
  | Some a :: r => option_map (cons a) (all_some r)
  end.

(** A numpy array that is a view of XSS between two bounds, or has its own memory. *)
Inductive array := View (a b : Z) | Own (l : list Qc).
(** Its elements, given the present contents of XSS. *)
Definition elements (x : list Qc) (v : array) : list Qc := match v with View a b => slice x a b | Own l => l end.
(** reaction.py:987-991 and 1050-1053: [v[v < 0.0] = 0.0] on the view [x[a:b]] writes into XSS. *)
Definition clear_negative (x : list Qc) (a b : Z) : list Qc :=
  let i := bound x a in
  let old := slice x a b in
  firstn i x ++ map (fun v => if qltb v 0%Qc then 0%Qc else v) old ++ skipn (i + length old) x.

(** ** Tabulated functions *)
(** function.py:142-152. *)
Record fn := mkFn { fx : list Qc; fy : list Qc; fbp : list Z; fint : list Z }.
(** function.py:144-146: without breakpoints, one linear-linear region. *)
Definition linear (x y : list Qc) : fn := mkFn x y [Z.of_nat (length x)] [2].
(** function.py:357-400, with [convert_units] left at True. *)
Definition fn_from_ace (x : list Qc) (idx : Z) : option fn :=
  do n_regions <- int_at x idx;
  do n_pairs <- int_at x (idx + 1 + 2 * n_regions);
  let idx := idx + 1 in
  let '(bp, it) := if 0 <? n_regions
                   then (map int (slice x idx (idx + n_regions)), map int (slice x (idx + n_regions) (idx + 2 * n_regions)))
                   else ([n_pairs], [2]) in
  let idx := idx + 2 * n_regions + 1 in
  Some (mkFn (mega (slice x idx (idx + n_pairs))) (slice x (idx + n_pairs) (idx + 2 * n_pairs)) bp it).

(** What is not modelled here.
    - [logarithmic]: the value in a logarithmic segment (function.py:192-203), of scheme,
      abscissa and two points;
    - [dist_at]: angle_energy.py:36-103, [AngleEnergy.from_ace(ace, location_dist,
      location_start, rx)]; of the reaction only the Q value is used;
    - [plain]: [isinstance(d, UncorrelatedAngleEnergy)];
    - [elastic_dist]: [UncorrelatedAngleEnergy()];
    - [ang_at]: angle_distribution.py, [AngleDistribution.from_ace(ace, location_dist,
      location_start)];
    - [isotropic]: reaction.py:637-640, isotropic between two energies;
    - [spectrum]: AceIO.py:117-131, what the editor can use of an energy distribution. *)
Record readers (D A : Type) := mkReaders {
  logarithmic : Z -> Qc -> Qc -> Qc -> Qc -> Qc -> Qc;
  dist_at : list Qc -> Z -> Z -> option Qc -> option D;
  plain : D -> bool;
  elastic_dist : D;
  ang_at : list Qc -> Z -> Z -> option A;
  isotropic : Qc -> Qc -> A;
  spectrum : D -> option (list Chi_Model.dist) }.
Arguments logarithmic {D A} _.
Arguments dist_at {D A} _.
Arguments plain {D A} _.
Arguments elastic_dist {D A} _.
Arguments ang_at {D A} _.
Arguments isotropic {D A} _.
Arguments spectrum {D A} _.

Section Reading.
Context {D A : Type} (R : readers D A).

(** function.py:184-203: any other scheme number leaves the output as it was. *)
Definition segment (s : Z) (old e x0 x1 y0 y1 : Qc) : Qc :=
  if s =? 1 then y0
  else if s =? 2 then (y0 + (e - x0) / (x1 - x0) * (y1 - y0))%Qc
  else if (3 <=? s) && (s <=? 5) then logarithmic R s e x0 x1 y0 y1
  else old.
(** function.py:170-203 for one abscissa, region by region. *)
Fixpoint regions (t : fn) (e : Qc) (idx prev : Z) (bs ss : list Z) (y : Qc) : option Qc :=
  match bs, ss with
  | [], _ => Some y
  | _ :: _, [] => None
  | b :: bs', s :: ss' =>
      do y' <- (if (prev - 1 <=? idx) && (idx <? b - 1) then
                  do x0 <- at_ (fx t) idx; do x1 <- at_ (fx t) (idx + 1);
                  do y0 <- at_ (fy t) idx; do y1 <- at_ (fy t) (idx + 1);
                  Some (segment s y e x0 x1 y0 y1)
                else Some y);
      regions t e idx b bs' ss' y'
  end.
(** function.py:154-210 for one abscissa; [np.searchsorted] and [np.isclose] as in
    AceEdit_Model.v. *)
Definition call_at (t : fn) (e : Qc) : option Qc :=
  let idx := Z.of_nat (AceEdit_Model.ssright (fx t) e) - 1 in
  do y <- regions t e idx 1 (fbp t) (fint t) 0%Qc;
  do x0 <- at_ (fx t) 0; do xn <- at_ (fx t) (-1);
  do y0 <- at_ (fy t) 0; do yn <- at_ (fy t) (-1);
  Some (if AceEdit_Model.isclose e xn then yn else if AceEdit_Model.isclose e x0 then y0 else y).
(** function.py:154-210 for an array. *)
Definition call (t : fn) (es : list Qc) : option (list Qc) :=
  match fx t with [] => None | _ => all_some (map (call_at t) es) end.

(** ** Products *)
(** product.py:103-106. *)
Inductive mode := Prompt | Total | Delayed.
(** function.py:403 (Polynomial, by its coefficients) and 98 (Tabulated1D). *)
Inductive yield := Poly (c : list Qc) | Tabd (t : fn).
(** product.py:42-48; [p_neutron]: the particle is a neutron, else a photon.  Each
    distribution comes with its [angle] attribute. *)
Record product := mkProduct {
  p_neutron : bool; p_mode : mode; p_rate : Qc; p_yield : yield; p_app : list fn; p_dist : list (D * option A) }.
(** product.py:42-48. *)
Definition new_product (neutron : bool) : product := mkProduct neutron Prompt 0%Qc (Poly [1%Qc]) [] [].
(** Assigning the emission mode, yield. *)
Definition with_yield (m : mode) (y : yield) : product := mkProduct true m 0%Qc y [] [].

(** reaction.py:223-225: [coefficients[i] *= EV_PER_MEV**(-i)]. *)
Fixpoint descale (i : nat) (l : list Qc) : list Qc :=
  match l with [] => [] | c :: r => (c / Qcpower EV_PER_MEV i)%Qc :: descale (S i) r end.
(** reaction.py:218-229, 240-251, 260-270: nu in either form; any other LNU leaves the
    yield a new product has. *)
Definition nu_at (x : list Qc) (idx : Z) : option yield :=
  do LNU <- int_at x idx;
  if LNU =? 1 then
    do NC <- int_at x (idx + 1);
    match descale 0 (slice x (idx + 2) (idx + 2 + NC)) with
    | [] => None  (* numpy: coefficient array is empty *)
    | c => Some (Poly c)
    end
  else if LNU =? 2 then option_map Tabd (fn_from_ace x (idx + 1))
  else Some (Poly [1%Qc]).

(** [np.union1d]: sorted, without repetition. *)
Fixpoint insert (v : Qc) (l : list Qc) : list Qc :=
  match l with
  | [] => [v]
  | w :: r => if qeqb v w then l else if qltb v w then v :: l else w :: insert v r
  end.
Definition union1d (a b : list Qc) : list Qc := fold_right insert [] (a ++ b).
(** reaction.py:286-303: the yield of one group of precursors, and what is added to the
    total probability. *)
Definition group_yield (yield_delayed prob : fn) : option (fn * Qc) :=
  match fy prob with
  | [] => None
  | p :: _ =>
      if forallb (fun v => qeqb v p) (fy prob) then
        Some (mkFn (fx yield_delayed) (map (fun v => v * p)%Qc (fy yield_delayed)) (fbp yield_delayed) (fint yield_delayed), p)
      else
        do a <- at_ (fx yield_delayed) (-1); do b <- at_ (fx prob) (-1);
        let max_energy := if qleb a b then a else b in
        let energy := filter (fun e => qleb e max_energy) (union1d (fx yield_delayed) (fx prob)) in
        do u <- call yield_delayed energy; do v <- call prob energy;
        Some (linear energy (map (fun q => fst q * snd q)%Qc (combine u v)), 0%Qc)
  end.
(** reaction.py:278-314: the groups from number [group] on, [n] of them. *)
Fixpoint groups (a : ace) (yield_delayed : fn) (n : nat) (group idx : Z) : option (list product * Qc) :=
  match n with
  | O => Some ([], 0%Qc)
  | S n' =>
      let x := xss a in
      do w <- at_ x idx;
      let rate := (w * qz 100000000)%Qc in
      if qltb rate 0%Qc then None (* product.py:98 *) else
      do prob <- fn_from_ace x (idx + 1);
      do yp <- group_yield yield_delayed prob;
      do nr <- int_at x (idx + 1);
      do ne <- int_at x (idx + 2 + 2 * nr);
      do start <- int_at x (jxs a 26 + group);
      do d <- dist_at R x (jxs a 27) start None;
      do rest <- groups a yield_delayed n' (group + 1) (idx + 3 + 2 * nr + 2 * ne);
      Some (mkProduct true Delayed rate (Tabd (fst yp)) [] [(d, None)] :: fst rest, (snd yp + snd rest)%Qc)
  end.
(** reaction.py:320: [product.yield_.y /= total_group_probability]. *)
Definition divide (t : Qc) (p : product) : product :=
  match p_yield p with
  | Tabd f => mkProduct (p_neutron p) (p_mode p) (p_rate p)
                (Tabd (mkFn (fx f) (map (fun v => v / t)%Qc (fy f)) (fbp f) (fint f))) (p_app p) (p_dist p)
  | Poly _ => p
  end.
(** reaction.py:318-320: all but the first product (those are tables). *)
Definition renormalize (t : Qc) (ps : list product) : list product :=
  if qltb 0%Qc t then match ps with [] => [] | p :: r => p :: map (divide t) r end else ps.
(** reaction.py:188-322; without a NU block (None, None) is returned, which the setter
    refuses (reaction.py:855-857). *)
Definition fission_products (a : ace) : option (list product * list product) :=
  let x := xss a in
  if jxs a 2 =? 0 then None else
  do w <- at_ x (jxs a 2);
  do pd <- (if qltb 0%Qc w then
              do y <- nu_at x (jxs a 2);
              Some ([with_yield (if 0 <? jxs a 24 then Prompt else Total) y], [])
            else if qltb w 0%Qc then
              do y <- nu_at x (jxs a 2 + 1);
              do z <- nu_at x (jxs a 2 + int (qabs w) + 1);
              Some ([with_yield Prompt y], [with_yield Total z])
            else Some ([], []));
  if 0 <? jxs a 24 then
    do yd <- fn_from_ace x (jxs a 24 + 1);
    do g <- groups a yd (Z.to_nat (nxs a 8)) 0 (jxs a 25);
    Some (renormalize (snd g) (fst pd ++ fst g), snd pd)
  else Some pd.

(** reaction.py:1029-1038: the chain of distributions.  A chain longer than XSS comes back
    to an earlier entry: the loop never ends ([None]). *)
Fixpoint laws (fuel : nat) (x : list Qc) (j11 : Z) (q : Qc) (lnw : Z) : option (list (fn * D)) :=
  if lnw <=? 0 then Some []
  else match fuel with
       | O => None
       | S k => do t <- fn_from_ace x (j11 + lnw + 2);
                do d <- dist_at R x j11 lnw (Some q);
                do next <- int_at x (j11 + lnw - 1);
                do r <- laws k x j11 q next;
                Some ((t, d) :: r)
       end.

(** reaction.py:763-805: a reaction; [r_idx] is the attribute [_threshold_idx] of its cross
    section, if it has one. *)
Record reaction := mkRx {
  r_mt : Z; r_q : Qc; r_cm : bool; r_redundant : bool;
  r_energy : list Qc; r_xs : array; r_idx : option Z;
  r_products : list product; r_derived : list product }.
(** The cross section as a tabulated function, given the present contents of XSS. *)
Definition xs_of (x : list Qc) (r : reaction) : AceEdit_Model.tab := AceEdit_Model.mkTab (r_energy r) (elements x (r_xs r)).

(** reaction.py:1018-1027: [neutron] is the first product emitted promptly or in total;
    what is done to it later is done to that element. *)
Definition main_neutron (p : product) : bool := match p_mode p with Delayed => false | _ => true end.
Fixpoint change_first (P : product -> bool) (f : product -> product) (l : list product) : list product :=
  match l with [] => [] | p :: r => if P p then f p :: r else p :: change_first P f r end.
(** reaction.py:1032-1036: append the distributions with their applicability. *)
Definition add_laws (ls : list (fn * D)) (p : product) : product :=
  mkProduct (p_neutron p) (p_mode p) (p_rate p) (p_yield p) (p_app p ++ map fst ls) (p_dist p ++ map (fun l => (snd l, None)) ls).
(** reaction.py:1083-1085: [d.angle = angle_dist] for each distribution. *)
Definition set_angle (g : A) (p : product) : product :=
  mkProduct (p_neutron p) (p_mode p) (p_rate p) (p_yield p) (p_app p) (map (fun d => (fst d, Some g)) (p_dist p)).
(** reaction.py:1068-1085. *)
Definition angles (a : ace) (i : Z) (ps : list product) : option (list product) :=
  if i <? nxs a 5 + 1 then
    do loc <- int_at (xss a) (jxs a 8 + i);
    if loc <=? 0 then Some ps
    else do g <- ang_at R (xss a) (jxs a 9) loc; Some (change_first main_neutron (set_angle g) ps)
  else Some ps.
(** reaction.py:1001-1038: multiplicity, fission neutrons and energy distributions of
    reaction [i], for reactions that emit neutrons. *)
Definition neutrons (a : ace) (i mt ty : Z) (q : Qc) : option (list product * list product) :=
  let x := xss a in
  if i <? nxs a 5 + 1 then
    do pd <- (if negb (ty =? 19) then
                do y <- (if 100 <? Z.abs ty then option_map Tabd (fn_from_ace x (jxs a 11 + Z.abs ty - 101))
                         else Some (Poly [qz (Z.abs ty)]));
                Some ([with_yield Prompt y], [])
              else if existsb (Z.eqb mt) [18; 19; 20; 21; 38] then
                do pd <- fission_products a;
                if existsb main_neutron (fst pd) then Some pd else None
              else None);
    do lnw <- int_at x (jxs a 10 + i - 1);
    do ls <- laws (length x) x (jxs a 11) q lnw;
    Some (change_first main_neutron (add_laws ls) (fst pd), snd pd)
  else Some ([], []).

(** reaction.py:571-573: photon MTs, thousandfold the neutron MTs. *)
Definition photon_mts (a : ace) : list Z := map int (slice (xss a) (jxs a 13) (jxs a 13 + nxs a 6)).
(** reaction.py:610-625: a yield from a production cross section; where the cross section
    of the reaction is not positive the yield stays 0. *)
Definition quotients (prod xs : list Qc) : list Qc :=
  map (fun t => if qltb 0%Qc (snd t) then (fst t / snd t)%Qc else 0%Qc) (combine prod xs).
(** reaction.py:586-629: the yield of photon reaction [i]. *)
Definition photon_yield (a : ace) (i mt : Z) (xs : AceEdit_Model.tab) : option fn :=
  let x := xss a in
  do loca <- int_at x (jxs a 14 + i);
  let idx := jxs a 15 + loca - 1 in
  do mftype <- int_at x idx;
  let idx := idx + 1 in
  if (mftype =? 12) || (mftype =? 16) then
    do mtmult <- int_at x idx;
    if mtmult =? mt then fn_from_ace x (idx + 1) else None
  else if mftype =? 13 then
    do t <- int_at x idx;
    let threshold_idx := t - 1 in
    do n_energy <- int_at x (idx + 1);
    let energy := mega (slice x (jxs a 1 + threshold_idx) (jxs a 1 + threshold_idx + n_energy)) in
    let production := slice x (idx + 2) (idx + 2 + n_energy) in
    do neutron_xs <- AceEdit_Model.tab_call xs energy;
    Some (linear energy (quotients production neutron_xs))
  else None.
(** reaction.py:586-647: photon product [i]. *)
Definition photon (a : ace) (i mt : Z) (xs : AceEdit_Model.tab) : option product :=
  let x := xss a in
  do y <- photon_yield a i mt xs;
  do start <- int_at x (jxs a 18 + i);
  do d <- dist_at R x (jxs a 19) start None;
  if plain R d then
    do loc <- int_at x (jxs a 16 + i);
    do g <- (if loc =? 0 then do e0 <- at_ (fx y) 0; do en <- at_ (fx y) (-1); Some (isotropic R e0 en)
             else ang_at R x (jxs a 17) loc);
    Some (mkProduct false Prompt 0%Qc (Tabd y) [] [(d, Some g)])
  else None.
(** reaction.py:554-649: the photons of the reaction with this MT and cross section. *)
Fixpoint photons_from (a : ace) (mt : Z) (xs : AceEdit_Model.tab) (is : list Z) : option (list product) :=
  match is with
  | [] => Some []
  | i :: r =>
      do m <- at_ (photon_mts a) i;
      if negb (m / 1000 =? mt) then photons_from a mt xs r
      else do p <- photon a i mt xs; do ps <- photons_from a mt xs r; Some (p :: ps)
  end.
Definition photons (a : ace) (mt : Z) (xs : AceEdit_Model.tab) : option (list product) :=
  photons_from a mt xs (range (nxs a 6)).

(** reaction.py:960-962. *)
Definition grid (a : ace) : list Qc := mega (slice (xss a) (jxs a 1) (jxs a 1 + nxs a 3)).
(** The table after its XSS has been written into. *)
Definition put (a : ace) (x : list Qc) : ace := mkAce (nxs a) (jxs a) x.
(** reaction.py:958-1092: the reaction, and the table as it is left. *)
Definition reaction_from_ace (a : ace) (i : Z) : option (reaction * ace) :=
  let x := xss a in
  let n_grid := nxs a 3 in
  if 0 <? i then
    do mt <- int_at x (jxs a 3 + i - 1);
    do q <- at_ x (jxs a 4 + i - 1);
    let q := (q * EV_PER_MEV)%Qc in
    do loc <- int_at x (jxs a 6 + i - 1);
    do t <- int_at x (jxs a 7 + loc - 1);
    let threshold_idx := t - 1 in
    do n_energy <- int_at x (jxs a 7 + loc);
    let energy := slice (grid a) threshold_idx (threshold_idx + n_energy) in
    let lo := jxs a 7 + loc + 1 in
    let a := put a (clear_negative x lo (lo + n_energy)) in
    do ty <- int_at (xss a) (jxs a 5 + i - 1);
    do pd <- neutrons a i mt ty q;
    do ps <- angles a i (fst pd);
    do gs <- photons a mt (AceEdit_Model.mkTab energy (slice (xss a) lo (lo + n_energy)));
    Some (mkRx mt q (ty <? 0) false energy (View lo (lo + n_energy)) (Some threshold_idx) (ps ++ gs) (snd pd), a)
  else
    let energy := grid a in
    let lo := jxs a 1 + 3 * n_grid in
    let hi := jxs a 1 + 4 * n_grid in
    let a := put a (clear_negative x lo hi) in
    let neutron := mkProduct true Prompt 0%Qc (Poly [1%Qc]) [] [(elastic_dist R, None)] in
    do ps <- angles a i [neutron];
    do gs <- photons a 2 (AceEdit_Model.mkTab energy (slice (xss a) lo hi));
    Some (mkRx 2 0%Qc true false energy (View lo hi) (Some 0) (ps ++ gs) [], a).

(** ** The whole table *)
(** Assigning [d[k] = v] in an ordered dictionary. *)
Fixpoint assign {V} (k : Z) (v : V) (l : list (Z * V)) : list (Z * V) :=
  match l with
  | [] => [(k, v)]
  | (k', v') :: r => if k =? k' then (k, v) :: r else (k', v') :: assign k v r
  end.
(** [mt in data], neutron.py:114-115. *)
Definition present {V} (l : list (Z * V)) (mt : Z) : bool := existsb (fun e => fst e =? mt) l.
(** neutron.py:642: gas production and damage are left out. *)
Definition left_out (mt : Z) : bool := ((200 <? mt) && (mt <? 219)) || (mt =? 444).
(** neutron.py:638-644: the loop over reactions. *)
Fixpoint read_reactions (a : ace) (is : list Z) (data : list (Z * reaction)) : option (list (Z * reaction) * ace) :=
  match is with
  | [] => Some (data, a)
  | i :: r =>
      do ra <- reaction_from_ace a i;
      read_reactions (snd ra) r (if left_out (r_mt (fst ra)) then data else assign (r_mt (fst ra)) (fst ra) data)
  end.
(** neutron.py:618-634: total and absorption; absorption only if some value is not 0. *)
Definition redundant_xs (mt : Z) (energy : list Qc) (v : array) : reaction := mkRx mt 0%Qc true true energy v None [] [].
Definition absorption_of (a : ace) : option reaction :=
  let n := nxs a 3 in
  let v := View (jxs a 1 + 2 * n) (jxs a 1 + 3 * n) in
  if existsb (fun q => negb (qeqb q 0%Qc)) (elements (xss a) v) then Some (redundant_xs 101 (grid a) v) else None.
Definition start (a : ace) : list (Z * reaction) :=
  let n := nxs a 3 in
  (1, redundant_xs 1 (grid a) (View (jxs a 1 + n) (jxs a 1 + 2 * n)))
    :: match absorption_of a with Some r => [(101, r)] | None => [] end.

(** [min(l)] of the thresholds. *)
Definition least (l : list Z) : option Z := match l with [] => None | v :: r => Some (fold_left Z.min r v) end.
(** Adding arrays element by element. *)
Definition add_arrays (u v : list Qc) : list Qc := map (fun q => fst q + snd q)%Qc (combine u v).
(** neutron.py:841-869: the sum of the cross sections [mts], on the grid from the lowest of
    their thresholds on. *)
Definition redundant_reaction (x : list Qc) (energy : list Qc) (data : list (Z * reaction)) (mt : Z) (mts : list Z) : option reaction :=
  do rs <- all_some (map (fun m => AceEdit_Model.lookup m data) mts);
  do idx <- least (map (fun r => match r_idx r with Some i => i | None => 0 end) rs);
  let es := slice energy idx (Z.of_nat (length energy)) in
  do vs <- all_some (map (fun r => AceEdit_Model.tab_call (xs_of x r) es) rs);
  Some (mkRx mt 0%Qc true true es (Own (fold_left add_arrays vs (map (fun _ => 0%Qc) es))) (Some idx) [] []).

(** [np.unique]: sorted, without repetition. *)
Fixpoint zinsert (v : Z) (l : list Z) : list Z :=
  match l with
  | [] => [v]
  | w :: r => if v =? w then l else if v <? w then v :: l else w :: zinsert v r
  end.
Definition unique (l : list Z) : list Z := fold_right zinsert [] l.
(** neutron.py:653-679: photons of a reaction that is not in the file.  [absorption] is
    unbound ([None]: UnboundLocalError) if no absorption was read. *)
Definition photon_reaction (a : ace) (energy : list Qc) (absorption : option reaction) (data : list (Z * reaction)) (mt : Z) : option (list (Z * reaction)) :=
  if present data mt then Some data
  else if negb (existsb (fun e => fst e =? mt) Sums_Model.sum_rules) then Some data
  else
    do mts <- Sums_Model.get_reaction_components (present data) mt;
    match mts with
    | [] => Some data
    | _ =>
        do r <- redundant_reaction (xss a) energy data mt mts;
        do gs <- photons a mt (xs_of (xss a) r);
        if mt =? 3 then do b <- absorption; Some (assign 101 b data)
        else Some (assign mt (mkRx mt 0%Qc true true (r_energy r) (r_xs r) (r_idx r) gs []) data)
    end.
(** neutron.py:681-697: sums over levels. *)
Definition level_sum (x energy : list Qc) (data : list (Z * reaction)) (mt : Z) : option (list (Z * reaction)) :=
  if present data mt then Some data
  else
    do mts <- Sums_Model.get_reaction_components (present data) mt;
    match mts with
    | [] => Some data
    | _ => do r <- redundant_reaction x energy data mt mts; Some (assign mt r data)
    end.
(** A loop that stops at the first exception. *)
Fixpoint loop {S I} (f : S -> I -> option S) (is : list I) (s : S) : option S :=
  match is with [] => Some s | i :: r => do s' <- f s i; loop f r s' end.
(** neutron.py:699-704: a reaction whose components are not just itself is redundant. *)
Definition flag (r : reaction) : reaction :=
  mkRx (r_mt r) (r_q r) (r_cm r) true (r_energy r) (r_xs r) (r_idx r) (r_products r) (r_derived r).
Definition same (l : list Z) (mt : Z) : bool := match l with [m] => m =? mt | _ => false end.
Definition mark (data : list (Z * reaction)) : option (list (Z * reaction)) :=
  all_some (map (fun e =>
    do mts <- Sums_Model.get_reaction_components (present data) (r_mt (snd e));
    Some (if same mts (r_mt (snd e)) then e else (fst e, flag (snd e)))) data).

(** urr.py:69-77. *)
Record urr := mkUrr { u_energy : list Qc; u_table : list (list (list Qc)); u_interp : Z; u_inelastic : Z; u_absorption : Z; u_smooth : bool }.
(** The first [n] pieces of length [m]. *)
Fixpoint pieces {B} (n m : nat) (l : list B) : list (list B) :=
  match n with O => [] | S k => firstn m l :: pieces k m (skipn m l) end.
(** urr.py:211: [table[:,5,:] *= EV_PER_MEV]. *)
Definition heat (rows : list (list Qc)) : list (list Qc) :=
  match rows with [a; b; c; d; e; f] => [a; b; c; d; e; mega f] | _ => rows end.
(** urr.py:172-215: [Some None] without tables.  Simplification: a negative number of energies or
    bands raises (numpy would take -1 in a shape as a number to be worked out). *)
Definition urr_from_ace (a : ace) : option (option urr) :=
  let x := xss a in
  let idx := jxs a 23 in
  if idx =? 0 then Some None else
  do N <- int_at x idx; do M <- int_at x (idx + 1); do interpolation <- int_at x (idx + 2);
  do inelastic <- int_at x (idx + 3); do absorption <- int_at x (idx + 4); do smooth <- int_at x (idx + 5);
  let idx := idx + 6 in
  let energy := mega (slice x idx (idx + N)) in
  let idx := idx + N in
  let table := slice x idx (idx + N * 6 * M) in
  if (0 <=? N) && (0 <=? M) && (Z.of_nat (length table) =? N * 6 * M) && ((interpolation =? 2) || (interpolation =? 5)) then
    let n := Z.to_nat N in let m := Z.to_nat M in
    Some (Some (mkUrr energy (map heat (map (pieces 6 m) (pieces n (6 * m) table))) interpolation inelastic absorption (smooth =? 1)))
  else None.

(** neutron.py:60-95: what is kept of the data. *)
Record neutron := mkNeutron { n_energy : list Qc; n_reactions : list (Z * reaction); n_urr : option urr }.
(** neutron.py:571-705: the data, and XSS as it is left (the cross sections are views of it). *)
Definition from_ace (a : ace) : option (neutron * list Qc) :=
  let energy := grid a in
  let absorption := absorption_of a in
  do da <- read_reactions a (range (nxs a 4 + 1)) (start a);
  let a := snd da in
  do data <- loop (photon_reaction a energy absorption) (unique (map (fun m => m / 1000) (photon_mts a))) (fst da);
  do data <- loop (level_sum (xss a) energy) [16; 103; 104; 105; 106; 107] data;
  do data <- mark data;
  do u <- urr_from_ace a;
  Some (mkNeutron energy data u, xss a).

(** ** What the editor holds (AceIO.py:21-55) *)
(** product.py:50-63: the label says 'tabulated' only if the values are not all equal. *)
Definition says_tabulated (y : yield) : bool :=
  match y with Tabd f => match fy f with [] => false | v :: _ => negb (forallb (fun w => qeqb w v) (fy f)) end | Poly _ => false end.
(** AceIO.py:189-229: [derived_products[0].yield_] of fission, if its label says so. *)
Definition nu_of (rs : list (Z * reaction)) : option AceEdit_Model.tab :=
  do r <- AceEdit_Model.lookup 18 rs;
  do p <- nth_error (r_derived r) 0;
  match p_yield p with
  | Tabd f => if says_tabulated (Tabd f) then Some (AceEdit_Model.mkTab (fx f) (fy f)) else None
  | Poly _ => None
  end.
(** AceIO.py:84-136: the prompt spectrum, [distribution[0].energy] of the first product of
    fission, if its label says so. *)
Definition chi_of (rs : list (Z * reaction)) : option (list Chi_Model.dist) :=
  do r <- AceEdit_Model.lookup 18 rs;
  do p <- nth_error (r_products r) 0;
  do d <- nth_error (p_dist p) 0;
  match p_mode p with Prompt => spectrum R (fst d) | _ => None end.
(** AceIO.py:25: the table of the editor. *)
Definition editor_table (n : neutron) (x : list Qc) : AceEdit_Model.table :=
  AceEdit_Model.mkTable (map (fun e => (fst e, xs_of x (snd e))) (n_reactions n)) (nu_of (n_reactions n)) (chi_of (n_reactions n)).
End Reading.
