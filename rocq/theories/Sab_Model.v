(** Thermal scattering data.
    Source: /repo/ASAPy/data/thermal.py:26-113 (names), 116-201 (CoherentElastic), 242-644
            (ThermalScattering); /repo/ASAPy/data/data.py:13-111 (NATURAL_ABUNDANCE); /repo/ASAPy/data/__init__.py:2-4 (the version of the format).
    Simplifications: an exception is [None] (a file keeps what was written before it);
    warnings are left out; numbers are exact; texts are ASCII; values come back from HDF5 as
    written; slices of fewer numbers than asked for raise at once (numpy clips at the end
    of XSS, and most then fail in a shape); numbers of points are not negative; arrays do not share memory;
    an export without secondary mode is not described ([None]). *)
From Coq Require Import ZArith QArith Qcanon List Bool Arith String Ascii.
From Verif Require Import Num Neut_Model Law_Model Hdf_Model Nuc_Model.
From Verif Require Cont_Model Dec Name_Model Sampler_Model.
Import ListNotations.
Local Open Scope string_scope.
Local Open Scope list_scope.
Local Open Scope Z_scope.

Local Notation "'do' x <- e ; k" :=
  (match e with Some x => k | None => None end) (at level 60, x pattern, e at level 59, k at level 60).

(** ** Names *)
(** thermal.py:26-65. *)
Definition thermal_names : list (string * list string) :=
  [("c_Al27", ["al"; "al27"; "al-27"]);
   ("c_Be", ["be"; "be-metal"; "be-met"]);
   ("c_BeO", ["beo"]);
   ("c_Be_in_BeO", ["bebeo"; "be-beo"; "be-o"; "be/o"]);
   ("c_C6H6", ["benz"; "c6h6"]);
   ("c_C_in_SiC", ["csic"; "c-sic"]);
   ("c_Ca_in_CaH2", ["cah"]);
   ("c_D_in_D2O", ["dd2o"; "d-d2o"; "hwtr"; "hw"]);
   ("c_Fe56", ["fe"; "fe56"; "fe-56"]);
   ("c_Graphite", ["graph"; "grph"; "gr"]);
   ("c_Graphite_10p", ["grph10"]);
   ("c_Graphite_30p", ["grph30"]);
   ("c_H_in_CaH2", ["hcah2"]);
   ("c_H_in_CH2", ["hch2"; "poly"; "pol"; "h-poly"]);
   ("c_H_in_CH4_liquid", ["lch4"; "lmeth"]);
   ("c_H_in_CH4_solid", ["sch4"; "smeth"]);
   ("c_H_in_H2O", ["hh2o"; "h-h2o"; "lwtr"; "lw"]);
   ("c_H_in_H2O_solid", ["hice"; "h-ice"]);
   ("c_H_in_C5O2H8", ["lucite"; "c5o2h8"; "h-luci"]);
   ("c_H_in_YH2", ["hyh2"; "h-yh2"]);
   ("c_H_in_ZrH", ["hzrh"; "h-zrh"; "h-zr"; "h/zr"; "hzr"]);
   ("c_Mg24", ["mg"; "mg24"]);
   ("c_O_in_BeO", ["obeo"; "o-beo"; "o-be"; "o/be"]);
   ("c_O_in_D2O", ["od2o"; "o-d2o"]);
   ("c_O_in_H2O_ice", ["oice"; "o-ice"]);
   ("c_O_in_UO2", ["ouo2"; "o-uo2"; "o2-u"; "o2/u"]);
   ("c_N_in_UN", ["n-un"]);
   ("c_ortho_D", ["orthod"; "orthoD"; "dortho"]);
   ("c_ortho_H", ["orthoh"; "orthoH"; "hortho"]);
   ("c_Si_in_SiC", ["sisic"; "si-sic"]);
   ("c_SiO2_alpha", ["sio2"; "sio2a"]);
   ("c_SiO2_beta", ["sio2b"]);
   ("c_para_D", ["parad"; "paraD"; "dpara"]);
   ("c_para_H", ["parah"; "paraH"; "hpara"]);
   ("c_U_in_UN", ["u-un"]);
   ("c_U_in_UO2", ["uuo2"; "u-uo2"; "u-o2"; "u/o2"]);
   ("c_Y_in_YH2", ["yyh2"; "y-yh2"]);
   ("c_Zr_in_ZrH", ["zrzrh"; "zr-zrh"; "zr-h"; "zr/h"])].
(** [name.lower()] of thermal.py:86. *)
Definition lower (s : string) : string := string_of_list_ascii (Sampler_Model.lower (list_ascii_of_string s)).
(** [s in l]: thermal.py:82, 86, 102, 104, 343, 596-603. *)
Definition mem (s : string) (l : list string) : bool := existsb (String.eqb s) l.
(** thermal.py:85-87, 103-106: the first entry with the name. *)
Definition owner (s : string) : option string := option_map fst (find (fun e => mem s (snd e)) thermal_names).
(** thermal.py:95-96. *)
Definition all_names : list string := map fst thermal_names ++ flat_map snd thermal_names.
(** thermal.py:68-113; [close] is [difflib.get_close_matches] with cutoff 0.5. *)
Definition get_thermal_name (close : string -> list string -> list string) (name : string) : string :=
  if mem name (map fst thermal_names) then name
  else match owner (lower name) with
       | Some p => p
       | None => match close name all_names with
                 | m :: _ => if mem m (map fst thermal_names) then m else match owner m with Some k => k | None => m end
                 | [] => String.append "c_" name
                 end
       end.

(** ** Coherent elastic scattering *)
(** thermal.py:116-145 and function.py:98: edges with sums of structure factors, or a table. *)
Inductive elastic := Bragg (edges factors : list Qc) | Incoherent (f : fn).
(** [np.searchsorted(edges, e)] of thermal.py:144, of an ascending array: how many are below. *)
Fixpoint below (edges : list Qc) (e : Qc) : nat :=
  match edges with [] => O | v :: r => if qltb v e then S (below r e) else O end.
(** thermal.py:141-145 at one energy, not 0; [None]: IndexError. *)
Definition bragg_at (edges factors : list Qc) (e : Qc) : option Qc :=
  do v <- nth_error factors (below edges e); Some (v / e)%Qc.
(** thermal.py:141-145 at several. *)
Definition bragg_call (edges factors : list Qc) (es : list Qc) : option (list Qc) := all_some (map (bragg_at edges factors) es).

(** ** Data *)
(** thermal.py:242-253; data by temperature.  Distributions: law and angles as in
    Hdf_Model.v. *)
Record thermal := mkThermal {
  t_name : string; t_awr : Qc; t_kts : list Qc;
  t_elastic : list (string * elastic); t_elastic_mu : list (string * list (list Qc));
  t_inelastic : list (string * fn); t_e_out : list (string * list (list Qc)); t_mu_out : list (string * list (list (list Qc)));
  t_dist : list (string * law); t_mode : option string; t_nuclides : list string }.
(** thermal.py:261-263. *)
Definition t_temperatures (d : thermal) : list string := map kelvin (t_kts d).

(** ** From an ACE table *)
(** data.py:13-111, in the order given. *)
Definition natural_abundance : list (string * Q) :=
  [("H1", 99984426#100000000); ("H2", 15574#100000000); ("He3", 2#1000000); ("He4", 999998#1000000);
   ("Li6", 7589#100000); ("Li7", 92411#100000); ("Be9", 10#10); ("B10", 1982#10000); ("B11", 8018#10000);
   ("C12", 988922#1000000); ("C13", 11078#1000000); ("N14", 996337#1000000); ("N15", 3663#1000000);
   ("O16", 9976206#10000000); ("O17", 379#1000000); ("O18", 20004#10000000); ("F19", 10#10); ("Ne20", 9048#10000);
   ("Ne21", 27#10000); ("Ne22", 925#10000); ("Na23", 10#10); ("Mg24", 78951#100000); ("Mg25", 1002#10000);
   ("Mg26", 11029#100000); ("Al27", 10#10); ("Si28", 9222968#10000000); ("Si29", 468316#10000000);
   ("Si30", 308716#10000000); ("P31", 10#10); ("S32", 9504074#10000000); ("S33", 74869#10000000);
   ("S34", 419599#10000000); ("S36", 1458#10000000); ("Cl35", 757647#1000000); ("Cl37", 242353#1000000);
   ("Ar36", 3336#1000000); ("Ar38", 629#1000000); ("Ar40", 996035#1000000); ("K39", 932581#1000000);
   ("K40", 117#1000000); ("K41", 67302#1000000); ("Ca40", 96941#100000); ("Ca42", 647#100000); ("Ca43", 135#100000);
   ("Ca44", 2086#100000); ("Ca46", 4#100000); ("Ca48", 187#100000); ("Sc45", 10#10); ("Ti46", 825#10000);
   ("Ti47", 744#10000); ("Ti48", 7372#10000); ("Ti49", 541#10000); ("Ti50", 518#10000); ("V50", 25#10000);
   ("V51", 9975#10000); ("Cr50", 4345#100000); ("Cr52", 83789#100000); ("Cr53", 9501#100000); ("Cr54", 2365#100000);
   ("Mn55", 10#10); ("Fe54", 5845#100000); ("Fe56", 91754#100000); ("Fe57", 2119#100000); ("Fe58", 282#100000);
   ("Co59", 10#10); ("Ni58", 680769#1000000); ("Ni60", 262231#1000000); ("Ni61", 11399#1000000);
   ("Ni62", 36345#1000000); ("Ni64", 9256#1000000); ("Cu63", 6915#10000); ("Cu65", 3085#10000); ("Zn64", 4917#10000);
   ("Zn66", 2773#10000); ("Zn67", 404#10000); ("Zn68", 1845#10000); ("Zn70", 61#10000); ("Ga69", 60108#100000);
   ("Ga71", 39892#100000); ("Ge70", 2052#10000); ("Ge72", 2745#10000); ("Ge73", 776#10000); ("Ge74", 3652#10000);
   ("Ge76", 775#10000); ("As75", 10#10); ("Se74", 86#10000); ("Se76", 923#10000); ("Se77", 76#1000);
   ("Se78", 2369#10000); ("Se80", 498#1000); ("Se82", 882#10000); ("Br79", 50686#100000); ("Br81", 49314#100000);
   ("Kr78", 355#100000); ("Kr80", 2286#100000); ("Kr82", 11593#100000); ("Kr83", 115#1000); ("Kr84", 56987#100000);
   ("Kr86", 17279#100000); ("Rb85", 7217#10000); ("Rb87", 2783#10000); ("Sr84", 56#10000); ("Sr86", 986#10000);
   ("Sr87", 7#100); ("Sr88", 8258#10000); ("Y89", 10#10); ("Zr90", 5145#10000); ("Zr91", 1122#10000);
   ("Zr92", 1715#10000); ("Zr94", 1738#10000); ("Zr96", 28#1000); ("Nb93", 10#10); ("Mo92", 14649#100000);
   ("Mo94", 9187#100000); ("Mo95", 15873#100000); ("Mo96", 16673#100000); ("Mo97", 9582#100000);
   ("Mo98", 24292#100000); ("Mo100", 9744#100000); ("Ru96", 554#10000); ("Ru98", 187#10000); ("Ru99", 1276#10000);
   ("Ru100", 126#1000); ("Ru101", 1706#10000); ("Ru102", 3155#10000); ("Ru104", 1862#10000); ("Rh103", 10#10);
   ("Pd102", 102#10000); ("Pd104", 1114#10000); ("Pd105", 2233#10000); ("Pd106", 2733#10000); ("Pd108", 2646#10000);
   ("Pd110", 1172#10000); ("Ag107", 51839#100000); ("Ag109", 48161#100000); ("Cd106", 1245#100000);
   ("Cd108", 888#100000); ("Cd110", 1247#10000); ("Cd111", 12795#100000); ("Cd112", 24109#100000);
   ("Cd113", 12227#100000); ("Cd114", 28754#100000); ("Cd116", 7512#100000); ("In113", 4281#100000);
   ("In115", 95719#100000); ("Sn112", 97#10000); ("Sn114", 66#10000); ("Sn115", 34#10000); ("Sn116", 1454#10000);
   ("Sn117", 768#10000); ("Sn118", 2422#10000); ("Sn119", 859#10000); ("Sn120", 3258#10000); ("Sn122", 463#10000);
   ("Sn124", 579#10000); ("Sb121", 5721#10000); ("Sb123", 4279#10000); ("Te120", 9#10000); ("Te122", 255#10000);
   ("Te123", 89#10000); ("Te124", 474#10000); ("Te125", 707#10000); ("Te126", 1884#10000); ("Te128", 3174#10000);
   ("Te130", 3408#10000); ("I127", 10#10); ("Xe124", 95#100000); ("Xe126", 89#100000); ("Xe128", 191#10000);
   ("Xe129", 26401#100000); ("Xe130", 4071#100000); ("Xe131", 21232#100000); ("Xe132", 26909#100000);
   ("Xe134", 10436#100000); ("Xe136", 8857#100000); ("Cs133", 10#10); ("Ba130", 11#10000); ("Ba132", 1#1000);
   ("Ba134", 242#10000); ("Ba135", 659#10000); ("Ba136", 785#10000); ("Ba137", 1123#10000); ("Ba138", 717#1000);
   ("La138", 8881#10000000); ("La139", 9991119#10000000); ("Ce136", 186#100000); ("Ce138", 251#100000);
   ("Ce140", 88449#100000); ("Ce142", 11114#100000); ("Pr141", 10#10); ("Nd142", 27153#100000);
   ("Nd143", 12173#100000); ("Nd144", 23798#100000); ("Nd145", 8293#100000); ("Nd146", 17189#100000);
   ("Nd148", 5756#100000); ("Nd150", 5638#100000); ("Sm144", 308#10000); ("Sm147", 15#100); ("Sm148", 1125#10000);
   ("Sm149", 1382#10000); ("Sm150", 737#10000); ("Sm152", 2674#10000); ("Sm154", 2274#10000); ("Eu151", 4781#10000);
   ("Eu153", 5219#10000); ("Gd152", 2#1000); ("Gd154", 218#10000); ("Gd155", 148#1000); ("Gd156", 2047#10000);
   ("Gd157", 1565#10000); ("Gd158", 2484#10000); ("Gd160", 2186#10000); ("Tb159", 10#10); ("Dy156", 56#100000);
   ("Dy158", 95#100000); ("Dy160", 2329#100000); ("Dy161", 18889#100000); ("Dy162", 25475#100000);
   ("Dy163", 24896#100000); ("Dy164", 2826#10000); ("Ho165", 10#10); ("Er162", 139#100000); ("Er164", 1601#100000);
   ("Er166", 33503#100000); ("Er167", 22869#100000); ("Er168", 26978#100000); ("Er170", 1491#10000);
   ("Tm169", 10#10); ("Yb168", 123#100000); ("Yb170", 2982#100000); ("Yb171", 14086#100000); ("Yb172", 21686#100000);
   ("Yb173", 16103#100000); ("Yb174", 32025#100000); ("Yb176", 12995#100000); ("Lu175", 97401#100000);
   ("Lu176", 2599#100000); ("Hf174", 16#10000); ("Hf176", 526#10000); ("Hf177", 186#1000); ("Hf178", 2728#10000);
   ("Hf179", 1362#10000); ("Hf180", 3508#10000); ("Ta180", 1201#10000000); ("Ta181", 9998799#10000000);
   ("W180", 12#10000); ("W182", 265#1000); ("W183", 1431#10000); ("W184", 3064#10000); ("W186", 2843#10000);
   ("Re185", 374#1000); ("Re187", 626#1000); ("Os184", 2#10000); ("Os186", 159#10000); ("Os187", 196#10000);
   ("Os188", 1324#10000); ("Os189", 1615#10000); ("Os190", 2626#10000); ("Os192", 4078#10000); ("Ir191", 373#1000);
   ("Ir193", 627#1000); ("Pt190", 12#100000); ("Pt192", 782#100000); ("Pt194", 32864#100000);
   ("Pt195", 33775#100000); ("Pt196", 25211#100000); ("Pt198", 7356#100000); ("Au197", 10#10); ("Hg196", 15#10000);
   ("Hg198", 1004#10000); ("Hg199", 1694#10000); ("Hg200", 2314#10000); ("Hg201", 1317#10000); ("Hg202", 2974#10000);
   ("Hg204", 682#10000); ("Tl203", 29524#100000); ("Tl205", 70476#100000); ("Pb204", 14#1000); ("Pb206", 241#1000);
   ("Pb207", 221#1000); ("Pb208", 524#1000); ("Bi209", 10#10); ("Th230", 2#10000); ("Th232", 9998#10000);
   ("Pa231", 10#10); ("U234", 54#1000000); ("U235", 7204#1000000); ("U238", 992742#1000000)]%Q.
(** An ACE table as far as it is used: ace.py:457-468. *)
Record table := mkTable { a_name : string; a_awr : Qc; a_temperature : Qc; a_pairs : list (Z * Qc); a_arrays : ace }.
(** [ace.name.split('.')], two parts: the first (thermal.py:479). *)
Fixpoint cut_dot (s : string) : string * option string :=
  match s with
  | EmptyString => (EmptyString, None)
  | String c r => if Ascii.eqb c "." then (EmptyString, Some r) else let (a, b) := cut_dot r in (String c a, b)
  end.
(** thermal.py:479, [None] unless there are two parts. *)
Definition before_dot (s : string) : option string :=
  match cut_dot s with (a, Some b) => match snd (cut_dot b) with None => Some a | Some _ => None end | (_, None) => None end.
(** [l[::k]] for positive [k], [c] to be left out first (thermal.py:508-509, 531-536). *)
Fixpoint every (k c : nat) (l : list Qc) : list Qc :=
  match l with [] => [] | v :: r => match c with O => v :: every k (k - 1) r | S c' => every k c' r end end.
(** thermal.py:508-509, 531-536: [xss[a:a + n*k:k]], [n] numbers; [None]: step 0, or past the end. *)
Definition strided (x : list Qc) (a n k : Z) : option (list Qc) :=
  if (0 <? k) && (0 <=? n) then
    let l := every (Z.to_nat k) 0 (slice x a (a + n * k)) in
    if Z.of_nat (length l) =? n then Some l else None
  else None.
(** thermal.py:492-493, 514, 522-524, 544, 566-567, 584: [xss[a:a + n]], [n] numbers; [None]: past the end. *)
Definition stretch (x : list Qc) (a n : Z) : option (list Qc) :=
  let l := slice x a (a + n) in
  if (0 <=? n) && (Z.of_nat (length l) =? n) then Some l else None.
(** thermal.py:496-501. *)
Definition secondary_mode (k : Z) : option string :=
  if k =? 0 then Some "equal" else if k =? 1 then Some "skewed" else if k =? 2 then Some "continuous" else None.
(** ['equal', 'skewed'] of thermal.py:309, 444, 504. *)
Definition in_bins (m : option string) : bool := match m with Some s => mem s ["equal"; "skewed"] | None => false end.
(** thermal.py:503-518: outgoing energies and cosines. *)
Definition bins (x : list Qc) (idx n_energy n_energy_out n_mu : Z) : option (list (list Qc) * list (list (list Qc))) :=
  if (0 <=? n_energy) && (0 <=? n_energy_out) && (0 <=? n_mu) then
    let n := Z.to_nat n_energy in let m := Z.to_nat n_energy_out in let k := Z.to_nat (n_mu + 2) in
    do e <- strided x idx (n_energy * n_energy_out) (n_mu + 2);
    do mu <- stretch x idx (n_energy * n_energy_out * (n_mu + 2));
    Some (pieces n m (mega e), map (fun block => map (@tl Qc) (pieces m k block)) (pieces n (m * k) mu))
  else None.
(** [1. / n * np.ones(n)] and its [cumsum], with the cosines (thermal.py:545-547). *)
Definition equally (n_mu : Z) (mu : list Qc) : list Cont_Model.point :=
  map (fun t => (snd t, (1 / qz n_mu)%Qc, (qz (Z.of_nat (S (fst t))) / qz n_mu)%Qc)) (combine (seq 0 (length mu)) mu).
(** thermal.py:543-549: cosine [j] of the spectrum at [idx]. *)
Definition cosine_bin (x : list Qc) (n_mu idx j : Z) : option cosine :=
  if 0 <? n_mu then do mu <- stretch x (idx + j * (3 + n_mu) + 4) n_mu; Some (Lines (equally n_mu mu)) else None.
(** thermal.py:528-552: the spectrum at [idx], of [n] energies, with its cosines. *)
Definition continuous_bin (x : list Qc) (n_mu idx n : Z) : option (Cont_Model.dist * list cosine) :=
  do e <- strided x (idx + 1) n (n_mu + 3);
  do p <- strided x (idx + 2) n (n_mu + 3);
  do c <- strided x (idx + 3) n (n_mu + 3);
  do mu <- all_some (map (cosine_bin x n_mu idx) (range n));
  Some (Cont_Model.Tab Cont_Model.LinLin (triples (mega e) (map (fun v => v / EV_PER_MEV)%Qc p) c), mu).
(** thermal.py:520-559. *)
Definition continuous (x : list Qc) (idx n_energy n_mu : Z) (energy : list Qc) : option law :=
  do locc <- option_map (map int) (stretch x idx n_energy);
  do n_out <- option_map (map int) (stretch x (idx + n_energy) n_energy);
  do out <- all_some (map (fun t => continuous_bin x n_mu (fst t) (snd t)) (combine locc n_out));
  Some (Correlated [n_energy] [2] energy (map fst out) (map snd out)).
(** thermal.py:561-586: cross section, and cosines if it is incoherent; [None] inside: there
    is no elastic scattering. *)
Definition elastic_from_ace (a : ace) : option (option (elastic * option (list (list Qc)))) :=
  let x := xss a in
  let idx := jxs a 4 in
  let n_mu := nxs a 6 + 1 in
  if idx =? 0 then Some None
  else
    do n_energy <- int_at x idx;
    do e <- stretch x (idx + 1) n_energy; do p <- stretch x (idx + 1 + n_energy) n_energy;
    if nxs a 5 =? 4 then
      if n_mu =? 0 then Some (Some (Bragg (mega e) (mega p), None)) else None
    else
      if 0 <? n_mu then
        do mu <- stretch x (jxs a 6) (n_energy * n_mu);
        Some (Some (Incoherent (linear (mega e) p), Some (pieces (Z.to_nat n_energy) (Z.to_nat n_mu) mu)))
      else None.
(** [re.match(r'{}\d+'.format(element), isotope)]: thermal.py:602, data.py:209. *)
Fixpoint is_isotope (element isotope : string) : bool :=
  match element, isotope with
  | EmptyString, String d _ => Dec.is_digit d
  | String c r, String d s => Ascii.eqb c d && is_isotope r s
  | _, EmptyString => false
  end.
(** thermal.py:599-600, 603-604: appended unless there. *)
Definition add_new (l : list string) (s : string) : list string := if mem s l then l else l ++ [s].
(** [sorted(NATURAL_ABUNDANCE)] of thermal.py:601. *)
Definition isotopes : list string := map fst (ordered natural_abundance).
(** thermal.py:592-604: one pair; [None]: KeyError. *)
Definition add_nuclides (l : list string) (pair : Z * Qc) : option (list string) :=
  let zaid := fst pair in
  if 0 <? zaid then
    do s <- Name_Model.symbol (zaid / 1000);
    let element := string_of_list_ascii s in
    if mem element ["H"; "Fe"] then Some (l ++ [String.append element (digits (Z.to_nat (zaid mod 1000)))])
    else Some (fold_left add_new (filter (is_isotope element) isotopes) (add_new l (String.append element "0")))
  else Some l.
(** thermal.py:454-606.  The argument [name] is overwritten at line 480. *)
Definition t_from_ace (close : string -> list string -> list string) (a : table) (name : option string) : option thermal :=
  do ace_name <- before_dot (a_name a);
  let name := get_thermal_name close ace_name in
  let kt := (a_temperature a * EV_PER_MEV)%Qc in
  let t := kelvin kt in
  let c := a_arrays a in
  let x := xss c in
  let idx := jxs c 1 in
  do n_energy <- int_at x idx;
  do e <- stretch x (idx + 1) n_energy; do xs <- stretch x (idx + 1 + n_energy) n_energy;
  let energy := mega e in
  let mode := secondary_mode (nxs c 7) in
  do (e_out, mu_out, dist) <-
    (if in_bins mode
     then do (e, mu) <- bins x (jxs c 3) n_energy (nxs c 4) (nxs c 3); Some ([(t, e)], [(t, mu)], [])
     else do d <- continuous x (jxs c 3) n_energy (nxs c 3 - 1) energy; Some ([], [], [(t, d)]));
  do el <- elastic_from_ace c;
  do nuclides <- loop add_nuclides (a_pairs a) [];
  Some (mkThermal name (a_awr a) [kt]
          (match el with Some (e, _) => [(t, e)] | None => [] end)
          (match el with Some (_, Some mu) => [(t, mu)] | _ => [] end)
          [(t, linear energy xs)] e_out mu_out dist mode nuclides).
(** [d[k] = v]: thermal.py:356-368, 429-448. *)
Fixpoint set_at {A} (k : string) (v : A) (l : list (string * A)) : list (string * A) :=
  match l with [] => [(k, v)] | (k', v') :: r => if String.eqb k k' then (k, v) :: r else (k', v') :: set_at k v r end.
(** [if strT in data.d: self.d[strT] = data.d[strT]]: thermal.py:355-368. *)
Definition take_over {A} (t : string) (from self : list (string * A)) : list (string * A) :=
  match look t from with Some v => set_at t v self | None => self end.
(** thermal.py:342-368, [data] being what was read from the table. *)
Definition add_data (self data : thermal) : option thermal :=
  do t <- hd_error (t_temperatures data);
  if mem t (t_temperatures self) then Some self
  else if negb (String.eqb (t_name data) (t_name self)) then None
  else Some (mkThermal (t_name self) (t_awr self) (t_kts self ++ t_kts data)
               (take_over t (t_elastic data) (t_elastic self)) (take_over t (t_elastic_mu data) (t_elastic_mu self))
               (take_over t (t_inelastic data) (t_inelastic self)) (take_over t (t_e_out data) (t_e_out self)) (take_over t (t_mu_out data) (t_mu_out self))
               (take_over t (t_dist data) (t_dist self)) (t_mode self) (t_nuclides self)).
(** thermal.py:319-368. *)
Definition add_temperature_from_ace (close : string -> list string -> list string) (self : thermal) (a : table) (name : option string) : option thermal :=
  do data <- t_from_ace close a name; add_data self data.
(** thermal.py:639-644: the tables of a library. *)
Definition from_tables (close : string -> list string -> list string) (tables : list table) : option thermal :=
  match tables with
  | [] => None
  | a :: r => do d <- t_from_ace close a None; loop (fun d a => add_temperature_from_ace close d a None) r d
  end.

(** ** HDF5 *)
(** data/__init__.py:2-4. *)
Definition version_major : Z := 2.
(** thermal.py:169-182 and function.py:315-330; [np.vstack] refuses rows of different
    lengths. *)
Definition elastic_node (e : elastic) : option node :=
  match e with
  | Bragg x f => if (length x =? length f)%nat then Some (Node [("type", VStr "bragg")] (Some (VRows [x; f])) []) else None
  | Incoherent f => fn_node f
  end.
(** thermal.py:427-433, 199-201: [Some None]: another type, nothing is read. *)
Definition elastic_of (n : node) : option (option elastic) :=
  do t <- str (attr n "type");
  if String.eqb t "Tabulated1D" then option_map (fun f => Some (Incoherent f)) (fn_of n)
  else if String.eqb t "bragg" then do r <- rows (value n); do x <- nth_error r 0; do f <- nth_error r 1; Some (Some (Bragg x f))
  else Some None.
(** thermal.py:297-303. *)
Definition write_elastic (d : thermal) (t : string) (n : node) : option node :=
  match t_elastic d with
  | [] => Some n
  | _ =>
      do e <- look t (t_elastic d); do x <- elastic_node e;
      do g <- create "xs" x group;
      do g <- match t_elastic_mu d with [] => Some g | _ => do mu <- look t (t_elastic_mu d); create "mu_out" (dataset (VRows mu)) g end;
      create "elastic" g n
  end.
(** thermal.py:306-315. *)
Definition write_inelastic (d : thermal) (mode : string) (t : string) (n : node) : option node :=
  match t_inelastic d with
  | [] => Some n
  | _ =>
      do f <- look t (t_inelastic d); do x <- fn_node f;
      do g <- create "xs" x group;
      do g <- (if in_bins (Some mode) then
                 do e <- look t (t_e_out d); do g <- create "energy_out" (dataset (VRows e)) g;
                 do mu <- look t (t_mu_out d); create "mu_out" (dataset (VCube mu)) g
               else if String.eqb mode "continuous" then do l <- look t (t_dist d); law_node (l, None) g
               else Some g);
      create "inelastic" g n
  end.
(** thermal.py:294-315. *)
Fixpoint write_temperatures (d : thermal) (mode : string) (ts : list string) (n : node) : option node :=
  match ts with
  | [] => Some n
  | t :: r =>
      do g <- write_elastic d t group; do g <- write_inelastic d mode t g;
      do n <- create t g n; write_temperatures d mode r n
  end.
(** thermal.py:286-315. *)
Definition thermal_node (d : thermal) : option node :=
  do mode <- t_mode d;
  let g := Node [("atomic_weight_ratio", VNum (t_awr d)); ("nuclides", VStrs (t_nuclides d)); ("secondary_mode", VStr mode)] None [] in
  do k <- write_all (fun q => Some (dataset (VNum q))) (combine (t_temperatures d) (t_kts d)) group;
  do g <- create "kTs" k g;
  write_temperatures d mode (t_temperatures d) g.
(** A file: its version (thermal.py:283), its groups. *)
Record tfile := mkFile { f_version : option Z; f_groups : list (string * node) }.
(** thermal.py:281-317, the file opened with mode 'a'. *)
Definition t_export (d : thermal) (f : tfile) : option tfile :=
  match look (t_name d) (f_groups f) with
  | Some _ => None
  | None => do g <- thermal_node d; Some (mkFile (Some version_major) (f_groups f ++ [(t_name d, g)]))
  end.
(** [group.attrs['nuclides']] of thermal.py:417. *)
Definition strs (v : option val) : option (list string) := match v with Some (VStrs l) => Some l | _ => None end.
(** [elastic_group['mu_out'].value] and the like: thermal.py:437, 445-446. *)
Definition cube_at (n : node) (k : string) : option (list (list (list Qc))) := do c <- kid n k; cube (value c).
Definition rows_at (n : node) (k : string) : option (list (list Qc)) := do c <- kid n k; rows (value c).
(** thermal.py:421-449: what there is at one temperature. *)
Record entry := mkEntry {
  r_elastic : option elastic; r_elastic_mu : option (list (list Qc)); r_inelastic : option fn;
  r_e_out : option (list (list Qc)); r_mu_out : option (list (list (list Qc))); r_dist : option law }.
(** thermal.py:423-437. *)
Definition read_elastic (g : node) : option (option elastic * option (list (list Qc))) :=
  match kid g "elastic" with
  | None => Some (None, None)
  | Some eg =>
      do x <- kid eg "xs"; do e <- elastic_of x;
      do mu <- match kid eg "mu_out" with None => Some None | Some m => option_map Some (rows (value m)) end;
      Some (e, mu)
  end.
(** thermal.py:440-449. *)
Definition read_inelastic (mode : string) (g : node) : option (option fn * option (list (list Qc)) * option (list (list (list Qc))) * option law) :=
  match kid g "inelastic" with
  | None => Some (None, None, None, None)
  | Some ig =>
      do x <- kid ig "xs"; do f <- fn_of x;
      if in_bins (Some mode) then do e <- rows_at ig "energy_out"; do mu <- cube_at ig "mu_out"; Some (Some f, Some e, Some mu, None)
      else if String.eqb mode "continuous" then do l <- law_of ig; Some (Some f, None, None, Some (fst l))
      else Some (Some f, None, None, None)
  end.
(** thermal.py:421-449. *)
Definition read_entry (mode : string) (g : node) (t : string) : option (string * entry) :=
  do tg <- kid g t;
  do (e, mu) <- read_elastic tg;
  do (f, eo, mo, l) <- read_inelastic mode tg;
  Some (t, mkEntry e mu f eo mo l).
(** The entries with something for one of the dictionaries; the keys are in the order of
    reading, a key read again keeps the later value (thermal.py:429, 432, 437, 442, 445, 446, 448). *)
Fixpoint collect {A} (f : entry -> option A) (l : list (string * entry)) (acc : list (string * A)) : list (string * A) :=
  match l with [] => acc | (t, e) :: r => collect f r (match f e with Some v => set_at t v acc | None => acc end) end.
(** thermal.py:408-451. *)
Definition thermal_of (name : string) (g : node) : option thermal :=
  do awr <- num (attr g "atomic_weight_ratio");
  do kg <- kid g "kTs"; do kts <- read_all (fun n => num (value n)) kg;
  let kts := map snd kts in
  do nuclides <- strs (attr g "nuclides"); do mode <- str (attr g "secondary_mode");
  do es <- all_some (map (read_entry mode g) (map kelvin kts));
  Some (mkThermal name awr kts (collect r_elastic es []) (collect r_elastic_mu es []) (collect r_inelastic es [])
          (collect r_e_out es []) (collect r_mu_out es []) (collect r_dist es []) (Some mode) nuclides).
(** thermal.py:390-406: the version, then the first group. *)
Definition t_from_hdf5 (f : tfile) : option thermal :=
  do v <- f_version f;
  if v =? version_major then match ordered (f_groups f) with [] => None | (name, g) :: _ => thermal_of name g end
  else None.
