(** The command line of the covariance generator.
    Source: /repo/ASAPy/EndfToCov.py:397-461 (parse_args), 524-533 (the groups);
    /repo/ASAPy/njoy.py:82-94 (the tables of groups).
    The parser is that of Cli_Model.v; paths are those of posixpath (CPython).
    Simplifications: as in Cli_Model.v; numbers are exact (the table of 44 groups is
    multiplied by 1e6 in floating point); the working directory is an argument. *)
From Verif Require Import Num Text Dec PyNum Cli_Model.
From Coq Require Import ZArith QArith.Qcanon.
Local Open Scope list_scope.

(** *** posixpath *)
Definition slash : ascii := "/"%char.
(** [p.split('/')]. *)
Fixpoint split (p : text) : list text :=
  match p with
  | [] => [[]]
  | c :: r => if eqc c slash then [] :: split r else cons_head c (split r)
  end.
(** ['/'.join(l)]. *)
Fixpoint joined (l : list text) : text :=
  match l with [] => [] | [w] => w | w :: r => w ++ slash :: joined r end.
(** posixpath.isabs, join of two paths. *)
Definition isabs (p : text) : bool := match p with c :: _ => eqc c slash | [] => false end.
Definition ends_slash (p : text) : bool := match rev p with c :: _ => eqc c slash | [] => true end.
Definition join_path (a b : text) : text :=
  if isabs b then b else if ends_slash a then a ++ b else a ++ slash :: b.
(** posixpath.normpath: leading slashes kept (two stay two). *)
Definition slashes (p : text) : nat :=
  match p with
  | a :: b :: c :: _ => if eqc a slash then if eqc b slash && negb (eqc c slash) then 2 else 1 else 0
  | [a; b] => if eqc a slash then if eqc b slash then 2 else 1 else 0
  | [a] => if eqc a slash then 1 else 0
  | [] => 0
  end.
Definition dot : text := str ".".
Definition dotdot : text := str "..".
(** One component; [acc] is reversed. *)
Definition keep (rooted : bool) (acc : list text) (c : text) : list text :=
  if eqt c [] || eqt c dot then acc
  else if negb (eqt c dotdot) || (negb rooted && match acc with [] => true | _ => false end) || eqt (hd [] acc) dotdot then c :: acc
  else tl acc.
Definition normpath (p : text) : text :=
  match p with
  | [] => dot
  | _ =>
      let n := slashes p in
      match repeat slash n ++ joined (rev (fold_left (keep (0 <? n)) (split p) [])) with
      | [] => dot
      | r => r
      end
  end.
(** os.path.abspath, [cwd] being os.getcwd(). *)
Definition abspath (cwd p : text) : text := normpath (if isabs p then p else join_path cwd p).

(** *** Options *)
(** Lines 416-418. *)
Definition structures : list text := map str ["SCALE_3"; "SCALE_44"; "SCALE_56"; "SCALE_238"; "SCALE_252"]%string.
(** EndfToCov.py:412-452. *)
Definition generator : parser :=
  mkParser
    [any "endf_file" One false]
    [mkArg (str "-energy_bin_structure") One false (map Str structures);
     any "-output_path" One false; any "-output_store" One false;
     mkArg (str "-njoy_spectrum_weighting") One true (map Int [2; 3; 4; 5; 6; 7; 8; 9; 10; 11; 12]%Z);
     any "-mts" Many true; any "-temperature" One true; any "-njoy_exec" One false; any "-boxer_exec" One false].
(** The result ([v_mts] empty: not given). *)
Record covargs := mkCov {
  v_endf : text; v_bins : text; v_path : text; v_store : option text; v_weight : Z; v_mts : list Z;
  v_temp : Z; v_njoy : text; v_boxer : text }.
(** EndfToCov.py:397-461. *)
Definition read_cov (cwd : text) (s : namespace) : covargs :=
  let f (n : string) := get (str n) s in
  mkCov (abspath cwd (hd [] (texts (f "endf_file"%string)))) (hd (str "SCALE_252") (texts (f "-energy_bin_structure"%string)))
        (match hd [] (texts (f "-output_path"%string)) with [] => str "./" | p => abspath cwd p end)
        (hd_error (texts (f "-output_store"%string))) (hd 6%Z (ints (f "-njoy_spectrum_weighting"%string))) (ints (f "-mts"%string))
        (hd 300%Z (ints (f "-temperature"%string))) (hd (str "njoy") (texts (f "-njoy_exec"%string)))
        (hd (str "boxer2mat") (texts (f "-boxer_exec"%string))).
Definition parse_args (cwd : text) (ts : list text) : option covargs := option_map (read_cov cwd) (parse generator ts).

(** *** Energy groups *)
(** A number of the source text. *)
Definition lit (s : string) : Qc := match py_float (str s) with Some q => q | None => 0%Qc end.
(** Line 83. *)
Definition literals_238 : list string :=
  [
    "2.0000E7"; "1.7333E7"; "1.5683E7"; "1.4550E7"; "1.3840E7"; "1.2840E7"; "1.0000E7"; "8.1873E6";
    "6.4340E6"; "4.8000E6"; "4.3040E6"; "3.0000E6"; "2.4790E6"; "2.3540E6"; "1.8500E6"; "1.5000E6";
    "1.4000E6"; "1.3560E6"; "1.3170E6"; "1.2500E6"; "1.2000E6"; "1.1000E6"; "1.0100E6"; "9.2000E5";
    "9.0000E5"; "8.7500E5"; "8.6110E5"; "8.2000E5"; "7.5000E5"; "6.7900E5"; "6.7000E5"; "6.0000E5";
    "5.7300E5"; "5.5000E5"; "4.9952E5"; "4.7000E5"; "4.4000E5"; "4.2000E5"; "4.0000E5"; "3.3000E5";
    "2.7000E5"; "2.0000E5"; "1.5000E5"; "1.2830E5"; "1.0000E5"; "8.5000E4"; "8.2000E4"; "7.5000E4";
    "7.3000E4"; "6.0000E4"; "5.2000E4"; "5.0000E4"; "4.5000E4"; "3.0000E4"; "2.5000E4"; "1.7000E4";
    "1.3000E4"; "9.5000E3"; "8.0300E3"; "6.0000E3"; "3.9000E3"; "3.7400E3"; "3.0000E3"; "2.5800E3";
    "2.2900E3"; "2.2000E3"; "1.8000E3"; "1.5500E3"; "1.5000E3"; "1.1500E3"; "9.5000E2"; "6.8300E2";
    "6.7000E2"; "5.5000E2"; "3.0500E2"; "2.8500E2"; "2.4000E2"; "2.1000E2"; "2.0750E2"; "1.9250E2";
    "1.8600E2"; "1.2200E2"; "1.1900E2"; "1.1500E2"; "1.0800E2"; "1.0000E2"; "9.0000E1"; "8.2000E1";
    "8.0000E1"; "7.6000E1"; "7.2000E1"; "6.7500E1"; "6.5000E1"; "6.1000E1"; "5.9000E1"; "5.3400E1";
    "5.2000E1"; "5.0600E1"; "4.9200E1"; "4.8300E1"; "4.7000E1"; "4.5200E1"; "4.4000E1"; "4.2400E1";
    "4.1000E1"; "3.9600E1"; "3.9100E1"; "3.8000E1"; "3.7000E1"; "3.5500E1"; "3.4600E1"; "3.3750E1";
    "3.3250E1"; "3.1750E1"; "3.1250E1"; "3.0000E1"; "2.7500E1"; "2.5000E1"; "2.2500E1"; "2.1000E1";
    "2.0000E1"; "1.9000E1"; "1.8500E1"; "1.7000E1"; "1.6000E1"; "1.5100E1"; "1.4400E1"; "1.3750E1";
    "1.2900E1"; "1.1900E1"; "1.1500E1"; "1.0000E1"; "9.1000E0"; "8.1000E0"; "7.1500E0"; "7.0000E0";
    "6.7500E0"; "6.5000E0"; "6.2500E0"; "6.0000E0"; "5.4000E0"; "5.0000E0"; "4.7500E0"; "4.0000E0";
    "3.7300E0"; "3.5000E0"; "3.1500E0"; "3.0500E0"; "3.0000E0"; "2.9700E0"; "2.8700E0"; "2.7700E0";
    "2.6700E0"; "2.5700E0"; "2.4700E0"; "2.3800E0"; "2.3000E0"; "2.2100E0"; "2.1200E0"; "2.0000E0";
    "1.9400E0"; "1.8600E0"; "1.7700E0"; "1.6800E0"; "1.5900E0"; "1.5000E0"; "1.4500E0"; "1.4000E0";
    "1.3500E0"; "1.3000E0"; "1.2500E0"; "1.2250E0"; "1.2000E0"; "1.1750E0"; "1.1500E0"; "1.1400E0";
    "1.1300E0"; "1.1200E0"; "1.1100E0"; "1.1000E0"; "1.0900E0"; "1.0800E0"; "1.0700E0"; "1.0600E0";
    "1.0500E0"; "1.0400E0"; "1.0300E0"; "1.0200E0"; "1.0100E0"; "1.0000E0"; "9.7500E-1";
    "9.5000E-1"; "9.2500E-1"; "9.0000E-1"; "8.5000E-1"; "8.0000E-1"; "7.5000E-1"; "7.0000E-1";
    "6.5000E-1"; "6.2500E-1"; "6.0000E-1"; "5.5000E-1"; "5.0000E-1"; "4.5000E-1"; "4.0000E-1";
    "3.7500E-1"; "3.5000E-1"; "3.2500E-1"; "3.0000E-1"; "2.7500E-1"; "2.5000E-1"; "2.2500E-1";
    "2.0000E-1"; "1.7500E-1"; "1.5000E-1"; "1.2500E-1"; "1.0000E-1"; "9.0000E-2"; "8.0000E-2";
    "7.0000E-2"; "6.0000E-2"; "5.0000E-2"; "4.0000E-2"; "3.0000E-2"; "2.5300E-2"; "1.0000E-2";
    "7.5000E-3"; "5.0000E-3"; "4.0000E-3"; "3.0000E-3"; "2.5000E-3"; "2.0000E-3"; "1.5000E-3";
    "1.2000E-3"; "1.0000E-3"; "7.5000E-4"; "5.0000E-4"; "1.0000E-4"; "1.0000E-5"]%string.

(** Line 86. *)
Definition literals_44 : list string :=
  [
    "1.000000e-11"; "3.000000e-09"; "7.500000e-09"; "1.000000e-08"; "2.530000e-08"; "3.000000e-08";
    "4.000000e-08"; "5.000000e-08"; "7.000000e-08"; "1.000000e-07"; "1.500000e-07"; "2.000000e-07";
    "2.250000e-07"; "2.500000e-07"; "2.750000e-07"; "3.250000e-07"; "3.500000e-07"; "3.750000e-07";
    "4.000000e-07"; "6.250000e-07"; "1.000000e-06"; "1.770000e-06"; "3.000000e-06"; "4.750000e-06";
    "6.000000e-06"; "8.100000e-06"; "1.000000e-05"; "3.000000e-05"; "1.000000e-04"; "5.500000e-04";
    "3.000000e-03"; "1.700000e-02"; "2.500000e-02"; "1.000000e-01"; "4.000000e-01"; "9.000000e-01";
    "1.400000e+00"; "1.850000e+00"; "2.354000e+00"; "2.479000e+00"; "3.000000e+00"; "4.800000e+00";
    "6.434000e+00"; "8.187300e+00"; "2.000000e+01"]%string.

(** Line 89. *)
Definition literals_56 : list string :=
  [
    "1.000000e-05"; "4.000000e-03"; "1.000000e-02"; "2.530000e-02"; "4.000000e-02"; "5.000000e-02";
    "6.000000e-02"; "8.000000e-02"; "1.000000e-01"; "1.500000e-01"; "2.000000e-01"; "2.500000e-01";
    "3.250000e-01"; "3.500000e-01"; "3.750000e-01"; "4.500000e-01"; "6.250000e-01"; "1.010000e+00";
    "1.080000e+00"; "1.130000e+00"; "5.000000e+00"; "6.250000e+00"; "6.500000e+00"; "6.875000e+00";
    "7.000000e+00"; "2.050000e+01"; "2.120000e+01"; "2.175000e+01"; "3.600000e+01"; "3.713000e+01";
    "6.500000e+01"; "6.750000e+01"; "1.012000e+02"; "1.050000e+02"; "1.160000e+02"; "1.175000e+02";
    "1.877000e+02"; "1.915000e+02"; "2.250000e+03"; "3.740000e+03"; "1.700000e+04"; "2.000000e+04";
    "5.000000e+04"; "2.000000e+05"; "2.700000e+05"; "3.300000e+05"; "4.700000e+05"; "6.000000e+05";
    "7.500000e+05"; "8.611000e+05"; "1.200000e+06"; "1.500000e+06"; "1.850000e+06"; "3.000000e+06";
    "4.304000e+06"; "6.434000e+06"; "2.000000e+07"]%string.

(** Line 91. *)
Definition literals_252 : list string :=
  [
    "2.000e+07"; "1.733e+07"; "1.568e+07"; "1.455e+07"; "1.384e+07"; "1.284e+07"; "1.000e+07";
    "8.187e+06"; "6.434e+06"; "4.800e+06"; "4.304e+06"; "3.000e+06"; "2.479e+06"; "2.354e+06";
    "1.850e+06"; "1.500e+06"; "1.400e+06"; "1.356e+06"; "1.317e+06"; "1.250e+06"; "1.200e+06";
    "1.100e+06"; "1.010e+06"; "9.200e+05"; "9.000e+05"; "8.750e+05"; "8.611e+05"; "8.200e+05";
    "7.500e+05"; "6.790e+05"; "6.700e+05"; "6.000e+05"; "5.730e+05"; "5.500e+05"; "4.920e+05";
    "4.700e+05"; "4.400e+05"; "4.200e+05"; "4.000e+05"; "3.300e+05"; "2.700e+05"; "2.000e+05";
    "1.490e+05"; "1.283e+05"; "1.000e+05"; "8.500e+04"; "8.200e+04"; "7.500e+04"; "7.300e+04";
    "6.000e+04"; "5.200e+04"; "5.000e+04"; "4.500e+04"; "3.000e+04"; "2.000e+04"; "1.700e+04";
    "1.300e+04"; "9.500e+03"; "8.030e+03"; "5.700e+03"; "3.900e+03"; "3.740e+03"; "3.000e+03";
    "2.500e+03"; "2.250e+03"; "2.200e+03"; "1.800e+03"; "1.550e+03"; "1.500e+03"; "1.150e+03";
    "9.500e+02"; "6.830e+02"; "6.700e+02"; "5.500e+02"; "3.050e+02"; "2.850e+02"; "2.400e+02";
    "2.200e+02"; "2.095e+02"; "2.074e+02"; "2.020e+02"; "1.930e+02"; "1.915e+02"; "1.885e+02";
    "1.877e+02"; "1.800e+02"; "1.700e+02"; "1.430e+02"; "1.220e+02"; "1.190e+02"; "1.175e+02";
    "1.160e+02"; "1.130e+02"; "1.080e+02"; "1.050e+02"; "1.012e+02"; "9.700e+01"; "9.000e+01";
    "8.170e+01"; "8.000e+01"; "7.600e+01"; "7.200e+01"; "6.750e+01"; "6.500e+01"; "6.300e+01";
    "6.100e+01"; "5.800e+01"; "5.340e+01"; "5.060e+01"; "4.830e+01"; "4.520e+01"; "4.400e+01";
    "4.240e+01"; "4.100e+01"; "3.960e+01"; "3.910e+01"; "3.800e+01"; "3.763e+01"; "3.727e+01";
    "3.713e+01"; "3.700e+01"; "3.600e+01"; "3.550e+01"; "3.500e+01"; "3.375e+01"; "3.325e+01";
    "3.175e+01"; "3.125e+01"; "3.000e+01"; "2.750e+01"; "2.500e+01"; "2.250e+01"; "2.175e+01";
    "2.120e+01"; "2.050e+01"; "2.000e+01"; "1.940e+01"; "1.850e+01"; "1.700e+01"; "1.600e+01";
    "1.440e+01"; "1.290e+01"; "1.190e+01"; "1.150e+01"; "1.000e+01"; "9.100e+00"; "8.100e+00";
    "7.150e+00"; "7.000e+00"; "6.875e+00"; "6.750e+00"; "6.500e+00"; "6.250e+00"; "6.000e+00";
    "5.400e+00"; "5.000e+00"; "4.700e+00"; "4.100e+00"; "3.730e+00"; "3.500e+00"; "3.200e+00";
    "3.100e+00"; "3.000e+00"; "2.970e+00"; "2.870e+00"; "2.770e+00"; "2.670e+00"; "2.570e+00";
    "2.470e+00"; "2.380e+00"; "2.300e+00"; "2.210e+00"; "2.120e+00"; "2.000e+00"; "1.940e+00";
    "1.860e+00"; "1.770e+00"; "1.680e+00"; "1.590e+00"; "1.500e+00"; "1.450e+00"; "1.400e+00";
    "1.350e+00"; "1.300e+00"; "1.250e+00"; "1.225e+00"; "1.200e+00"; "1.175e+00"; "1.150e+00";
    "1.140e+00"; "1.130e+00"; "1.120e+00"; "1.110e+00"; "1.100e+00"; "1.090e+00"; "1.080e+00";
    "1.070e+00"; "1.060e+00"; "1.050e+00"; "1.040e+00"; "1.030e+00"; "1.020e+00"; "1.010e+00";
    "1.000e+00"; "9.750e-01"; "9.500e-01"; "9.250e-01"; "9.000e-01"; "8.500e-01"; "8.000e-01";
    "7.500e-01"; "7.000e-01"; "6.500e-01"; "6.250e-01"; "6.000e-01"; "5.500e-01"; "5.000e-01";
    "4.500e-01"; "4.000e-01"; "3.750e-01"; "3.500e-01"; "3.250e-01"; "3.000e-01"; "2.750e-01";
    "2.500e-01"; "2.250e-01"; "2.000e-01"; "1.750e-01"; "1.500e-01"; "1.250e-01"; "1.000e-01";
    "9.000e-02"; "8.000e-02"; "7.000e-02"; "6.000e-02"; "5.000e-02"; "4.000e-02"; "3.000e-02";
    "2.530e-02"; "1.000e-02"; "7.500e-03"; "5.000e-03"; "4.000e-03"; "3.000e-03"; "2.500e-03";
    "2.000e-03"; "1.500e-03"; "1.200e-03"; "1.000e-03"; "7.500e-04"; "5.000e-04"; "1.000e-04";
    "1.000e-05"]%string.

(** Line 94. *)
Definition literals_3 : list string :=
  [
    "1e-5"; "0.625"; "5500"; "2.0e7"]%string.

(** njoy.py:82-94. *)
Definition energy_groups_238 : list Qc := rev (map lit literals_238).
Definition energy_groups_44 : list Qc := map (fun e => e * lit "1e6")%Qc (map lit literals_44).
Definition energy_groups_56 : list Qc := map lit literals_56.
Definition energy_groups_252 : list Qc := rev (map lit literals_252).
Definition energy_groups_3 : list Qc := map lit literals_3.
(** EndfToCov.py:524-533; [None]: no name bound. *)
Definition cov_groups (a : covargs) : option (list Qc) :=
  if eqt (v_bins a) (str "SCALE_3") then Some energy_groups_3
  else if eqt (v_bins a) (str "SCALE_44") then Some energy_groups_44
  else if eqt (v_bins a) (str "SCALE_56") then Some energy_groups_56
  else if eqt (v_bins a) (str "SCALE_238") then Some energy_groups_238
  else if eqt (v_bins a) (str "SCALE_252") then Some energy_groups_252
  else None.
