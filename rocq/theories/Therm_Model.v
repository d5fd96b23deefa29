(** Thermal ACE files, and running NJOY.
    Source: /repo/ASAPy/njoy.py:42-80 (_THERMAL_DATA), 330-393 (run), 705-827
    (make_ace_thermal); templates as in Deck_Model.v.
    Simplifications: what is read from the two ENDF files is an argument (their MAT, the
    names, the records of MF 7); numbers that are only printed are their texts; files
    have names and texts, the temporary directory is apart from them and starts empty;
    NJOY is a function of its input and its directory, it reads all of the input, and
    ends; what it prints is dropped; a file can always be written. *)
From Coq Require Import List Bool Arith ZArith Ascii String.
From Verif Require Import Text Dec Deck_Model.
From Verif Require Njoy_Model.
Import ListNotations.
Local Open Scope nat_scope.
Local Open Scope list_scope.

(** *** Running NJOY *)
Definition dir := text -> option text.
Definition empty : dir := fun _ => None.
Definition write (k v : text) (d : dir) : dir := fun n => if eqt n k then Some v else d n.
Definition delete (k : text) (d : dir) : dir := fun n => if eqt n k then None else d n.
(** Exit code and directory afterwards; [None]: it cannot be started. *)
Definition program := text -> dir -> option (Z * dir).
Inductive error := NoFile (n : text) | NoProgram | Failed (c : Z).
(** njoy.py:363. *)
Definition tape (n : nat) : text := str "tape" ++ num n.
(** njoy.py:360-364. *)
Fixpoint copies (fs : dir) (tapein : list (nat * text)) (d : dir) : dir + error :=
  match tapein with
  | [] => inl d
  | (n, f) :: r => match fs f with Some c => copies fs r (write (tape n) c d) | None => inr (NoFile f) end
  end.
(** njoy.py:389-393: the files, and what is left in the temporary directory. *)
Fixpoint moves (tapeout : list (nat * text)) (d fs : dir) : dir :=
  match tapeout with
  | [] => fs
  | (n, f) :: r => match d (tape n) with Some c => moves r (delete (tape n) d) (write f c fs) | None => moves r d fs end
  end.
(** njoy.py:330-393. *)
Definition run (njoy : program) (commands : text) (tapein tapeout : list (nat * text)) (input_filename : option text) (fs : dir) : dir * option error :=
  let fs := match input_filename with Some f => write f commands fs | None => fs end in
  match copies fs tapein empty with
  | inr e => (fs, Some e)
  | inl d =>
      match njoy commands d with
      | None => (fs, Some NoProgram)
      | Some (c, d') => if Z.eqb c 0 then (moves tapeout d' fs, None) else (fs, Some (Failed c))
      end
  end.

(** *** Thermal scattering *)
(** njoy.py:42-80. *)
Record material := { name : text; zaids : list Z; nmix : nat }.
Definition thermal_data : list (Z * material) :=
  [(1%Z, {| name := str "hh2o"; zaids := [1001]%Z; nmix := 1 |});
   (2%Z, {| name := str "parah"; zaids := [1001]%Z; nmix := 1 |});
   (3%Z, {| name := str "orthoh"; zaids := [1001]%Z; nmix := 1 |});
   (5%Z, {| name := str "hyh2"; zaids := [1001]%Z; nmix := 1 |});
   (7%Z, {| name := str "hzrh"; zaids := [1001]%Z; nmix := 1 |});
   (8%Z, {| name := str "hcah2"; zaids := [1001]%Z; nmix := 1 |});
   (10%Z, {| name := str "hice"; zaids := [1001]%Z; nmix := 1 |});
   (11%Z, {| name := str "dd2o"; zaids := [1002]%Z; nmix := 1 |});
   (12%Z, {| name := str "parad"; zaids := [1002]%Z; nmix := 1 |});
   (13%Z, {| name := str "orthod"; zaids := [1002]%Z; nmix := 1 |});
   (26%Z, {| name := str "be"; zaids := [4009]%Z; nmix := 1 |});
   (27%Z, {| name := str "bebeo"; zaids := [4009]%Z; nmix := 1 |});
   (31%Z, {| name := str "graph"; zaids := [6000; 6012; 6013]%Z; nmix := 1 |});
   (33%Z, {| name := str "lch4"; zaids := [1001]%Z; nmix := 1 |});
   (34%Z, {| name := str "sch4"; zaids := [1001]%Z; nmix := 1 |});
   (37%Z, {| name := str "hch2"; zaids := [1001]%Z; nmix := 1 |});
   (39%Z, {| name := str "lucite"; zaids := [1001]%Z; nmix := 1 |});
   (40%Z, {| name := str "benz"; zaids := [1001; 6000; 6012]%Z; nmix := 2 |});
   (41%Z, {| name := str "od2o"; zaids := [8016; 8017; 8018]%Z; nmix := 1 |});
   (43%Z, {| name := str "sisic"; zaids := [14028; 14029; 14030]%Z; nmix := 1 |});
   (44%Z, {| name := str "csic"; zaids := [6000; 6012; 6013]%Z; nmix := 1 |});
   (46%Z, {| name := str "obeo"; zaids := [8016; 8017; 8018]%Z; nmix := 1 |});
   (47%Z, {| name := str "sio2-a"; zaids := [8016; 8017; 8018; 14028; 14029; 14030]%Z; nmix := 3 |});
   (48%Z, {| name := str "uuo2"; zaids := [92238]%Z; nmix := 1 |});
   (49%Z, {| name := str "sio2-b"; zaids := [8016; 8017; 8018; 14028; 14029; 14030]%Z; nmix := 3 |});
   (50%Z, {| name := str "oice"; zaids := [8016; 8017; 8018]%Z; nmix := 1 |});
   (52%Z, {| name := str "mg24"; zaids := [12024]%Z; nmix := 1 |});
   (53%Z, {| name := str "al27"; zaids := [13027]%Z; nmix := 1 |});
   (55%Z, {| name := str "yyh2"; zaids := [39089]%Z; nmix := 1 |});
   (56%Z, {| name := str "fe56"; zaids := [26056]%Z; nmix := 1 |});
   (58%Z, {| name := str "zrzrh"; zaids := [40000; 40090; 40091; 40092; 40094; 40096]%Z; nmix := 1 |});
   (59%Z, {| name := str "cacah2"; zaids := [20040; 20042; 20043; 20044; 20046; 20048]%Z; nmix := 1 |});
   (75%Z, {| name := str "ouo2"; zaids := [8016; 8017; 8018]%Z; nmix := 1 |})].
Fixpoint lookup (k : Z) (l : list (Z * material)) : option material :=
  match l with [] => None | (k', m) :: r => if (k =? k')%Z then Some m else lookup k r end.
(** What is read: njoy.py:733-739, 745, 748-754 ([coherence]: the third entry of the
    head of MF 7, MT 2), 760-764 ([list_values] of MT 4), 773-781 (the temperature of
    its first TAB1 record, the number of further ones, those of the LIST records). *)
Record inputs := { neutron_file : text; thermal_file : text; mat : Z; zsymam : text; mat_thermal : Z; zsymam_thermal : text; lib : text * Z * Z;
  coherence : option Z; list_values : list text; atoms : Z; first_temp : temperature; further : nat; list_temps : list temperature }.
Inductive failure := KeyError | IndexError | Exhausted | NotRun (e : error).
(** njoy.py:772-781; a LIST record beyond the section cannot be read. *)
Definition temps_of (x : inputs) (given : option (list temperature)) : option (list temperature) :=
  match given with
  | Some l => Some l
  | None => if further x <=? List.length (list_temps x) then Some (first_temp x :: firstn (further x) (list_temps x)) else None
  end.
(** njoy.py:741-806: everything set before the commands are formatted; [m] are the data
    of the material, [emax] is [values[3]]. *)
Definition prepared (x : inputs) (m : material) (emax : text) (l : list temperature) (error : text) : st :=
  let s := {| env := none; cmds := []; outs := []; nlast := 22 |} in
  let s := put "zsymam" (zsymam x) (put "mat" (decZ (mat x)) (put "error" error s)) in
  let s := put "zsymam_thermal" (zsymam_thermal x) (put "mat_thermal" (decZ (mat_thermal x)) s) in
  let s := put "data.nmix" (num (nmix m)) (put "data.name" (name m) s) in
  let s := put "library" (library (lib x)) (put "zaids" (joined [sp] (map decZ (firstn 3 (zaids m)))) s) in
  let s := match coherence x with
           | Some h => put "elastic_type" (decZ (h - 1)) (put "mt_elastic" (num 223) (put "elastic" (num 1) s))
           | None => put "elastic_type" (num 0) (put "mt_elastic" (num 0) (put "elastic" (num 0) s))
           end in
  let s := put "natom" (decZ (atoms x)) (put "energy_max" emax s) in
  let s := put "inelastic" (num 2) (put "iform" (num 0) s) in
  let s := put "temps" (joined [sp] (map shown l)) (put "num_temp" (num (List.length l)) s) in
  let s := put "npendf" (num 22) (put "nthermal_endf" (num 21) (put "nendf" (num 20) s)) in
  let s := say T_RECONR s in
  let s := up 23 (say T_BROADR (put "nbroadr" (num 23) s)) in
  let s := put "nthermr1" (num 24) (put "nthermr1_in" (num 23) s) in
  let s := put "nthermr2" (num 25) (put "nthermr2_in" (num 24) s) in
  up 25 (say T_THERMR s).
(** njoy.py:733-826: commands, tapein and tapeout. *)
Definition thermal_deck (x : inputs) (given : option (list temperature)) (ace xsdir error : text) : (text * list (nat * text) * list (nat * text)) + failure :=
  match lookup (mat_thermal x) thermal_data with
  | None => inr KeyError
  | Some m =>
      match nth_error (list_values x) 3, nth_error (list_values x) 5 with
      | Some emax, Some _ =>
          match temps_of x given with
          | None => inr Exhausted
          | Some l =>
              match (do s <- reformat (prepared x m emax l error);
                     acers T_THERMAL_ACER 25 ace xsdir 0 l (put "nthermal_acer_in" (num 25) s)) with
              | None => inr KeyError
              | Some s => inl (cmds s ++ str "stop" ++ [nl], [(20, neutron_file x); (21, thermal_file x)], outs s)
              end
          end
      | _, _ => inr IndexError
      end
  end.
(** njoy.py:705-827. *)
Definition make_ace_thermal (njoy : program) (x : inputs) (given : option (list temperature)) (ace xsdir error : text) (input_filename : option text) (fs : dir) : dir * option failure :=
  match thermal_deck x given ace xsdir error with
  | inr f => (fs, Some f)
  | inl (commands, tapein, tapeout) =>
      match run njoy commands tapein tapeout input_filename fs with
      | (fs, None) => (fs, None)
      | (fs, Some e) => (fs, Some (NotRun e))
      end
  end.
