(** Decay data and fission product yields.
    Source: /repo/ASAPy/data/decay.py:19-63, 101-154, 206-284, 314-465.
    Simplifications: exact rationals; [str] of a float is its shortest decimal,
    which for numbers of at most sixteen decimals is the number itself; a number
    with uncertainty is a pair; [ufloat] with fewer than two values and with a
    negative uncertainty raises; the target of an evaluation is not kept; dictionaries
    are lists of entries in the order of insertion; [None] is an exception. *)
From Verif Require Import Num Text Dec PyNum Endf_Model Name_Model.
From Coq Require Import ZArith NArith.
Local Open Scope list_scope.

Local Notation "'do' x <- e ; k" :=
  (match e with Some x => k | None => None end) (at level 60, x pattern, e at level 59, k at level 60).

(** decay.py:19-31: names and changes of A and Z, from key 0 on. *)
Definition decay_modes : list (text * option (Z * Z)) :=
  [(str "gamma", Some (0, 0)); (str "beta-", Some (0, 1)); (str "ec/beta+", Some (0, -1)); (str "IT", Some (0, 0));
   (str "alpha", Some (-4, -2)); (str "n", Some (-1, 0)); (str "sf", None); (str "p", Some (-1, -1));
   (str "e-", Some (0, 0)); (str "xray", Some (0, 0)); (str "unknown", None)]%Z.
(** decay.py:33-45. *)
Definition radiation_types : list (Z * text) :=
  [(0, str "gamma"); (1, str "beta-"); (2, str "ec/beta+"); (4, str "alpha"); (5, str "n"); (6, str "sf");
   (7, str "p"); (8, str "e-"); (9, str "xray"); (10, str "anti-neutrino"); (11, str "neutrino")]%Z.

(** *** Modes *)
(** The number of decimals of [q], at most [fuel] more than [k]. *)
Fixpoint decimals (fuel k : nat) (q : Qc) : option nat :=
  if Pos.eqb (Qden (this (q * pow10 (Z.of_nat k))%Qc)) 1 then Some k
  else match fuel with O => None | S f => decimals f (S k) q end.
(** Python's [str] of a float without exponent: below 10^16, not below 10^-4. *)
Definition zeros_to (n : nat) (t : text) : text := repeat "0"%char (n - length t) ++ t.
Definition py_str (q : Qc) : option text :=
  if negb (qeqb q 0%Qc) && (negb (qleb (pow10 (-4)) q) || qleb (pow10 16) q) then None
  else
    do k <- decimals 16 0 q;
    let m := Z.to_N (Qnum (this (q * pow10 (Z.of_nat k))%Qc)) in
    let p := (10 ^ N.of_nat k)%N in
    Some (decN (m / p)%N ++ "."%char :: match k with O => str "0" | _ => zeros_to k (decN (m mod p)%N) end).
(** [s.strip('0')]. *)
Fixpoint lstrip0 (t : text) : text :=
  match t with c :: r => if eqc c "0" then lstrip0 r else t | [] => [] end.
Definition strip0 (t : text) : text := rev (lstrip0 (rev (lstrip0 t))).
(** [int(x)] of one character and its entry; a digit is always a key. *)
Definition mode_of (c : ascii) : option (text * option (Z * Z)) :=
  if is_digit c then nth_error decay_modes (N.to_nat (digit c)) else None.
Fixpoint each_some {A B} (f : A -> option B) (l : list A) : option (list B) :=
  match l with [] => Some [] | a :: r => do b <- f a; do bs <- each_some f r; Some (b :: bs) end.
(** decay.py:48-63.  A text with an exponent or a sign raises as well. *)
Definition get_decay_modes (q : Qc) : option (list text) :=
  do t <- py_str q;
  do ms <- each_some mode_of (filter (fun c => negb (eqc c ".")) (strip0 t));
  Some (map fst ms).

(** *** Numbers with uncertainty *)
Definition unum := (Qc * Qc)%type.
(** decay.py:124, 350, 386: a number and its uncertainty. *)
Definition ufloat (l : list Qc) : option unum :=
  match l with [v; s] => if qltb s 0%Qc then None else Some (v, s) | _ => None end.
(** decay.py:386-387, 407-409, 419-431: [values[a:b]]. *)
Definition part (a b : nat) (l : list Qc) : list Qc := firstn (b - a) (skipn a l).

(** *** Yields *)
Definition dict (A : Type) := list (text * A).
(** decay.py:125, 354-371, 450: [d[k] = v]. *)
Fixpoint set_key {A} (k : text) (v : A) (d : dict A) : dict A :=
  match d with
  | [] => [(k, v)]
  | (k', v') :: r => if eqt k k' then (k, v) :: r else (k', v') :: set_key k v r
  end.
(** [d.get(k)]. *)
Fixpoint lookup {A} (k : text) (d : dict A) : option A :=
  match d with [] => None | (k', v) :: r => if eqt k k' then Some v else lookup k r end.
(** decay.py:120-124, 335-339: the name. *)
Definition nuclide_name (z a m : Z) : option text :=
  do s <- symbol z;
  Some (if (0 <? m)%Z then (s ++ decZ a) ++ str "_m" ++ decZ m else s ++ decZ a).
(** decay.py:118-125: product [j]. *)
Definition product (values : list Qc) (j : nat) : option (text * unum) :=
  do za <- nth_error values (4 * j);
  do st <- nth_error values (4 * j + 1);
  do name <- nuclide_name (trunc za / 1000) (trunc za mod 1000) (trunc st);
  do y <- ufloat (part (4 * j + 2) (4 * j + 4) values);
  Some (name, y).
(** decay.py:116-125. *)
Fixpoint products (n j : nat) (values : list Qc) (d : dict unum) : option (dict unum) :=
  match n with
  | O => Some d
  | S k => do (name, y) <- product values j; products k (S j) values (set_key name y d)
  end.
(** decay.py:110-127: the loop over the energies. *)
Fixpoint energy_yields (n : nat) (f : file) : option (list Qc * list (dict unum)) :=
  match n with
  | O => Some ([], [])
  | S k =>
      do (items, values, f') <- get_list_record f;
      do e <- c1 items;
      do d <- products (Z.to_nat (n2 items)) 0 values [];
      do (es, ds) <- energy_yields k f';
      Some (e :: es, d :: ds)
  end.
(** decay.py:104-129. *)
Definition get_yields (f : file) : option (list Qc * list (dict unum)) :=
  do (_, _, n, _, _, _, f') <- get_head_record f;
  if (n <? 0)%Z then None else energy_yields (Z.to_nat n) f'.
(** The attributes, [None] if not set. *)
Record yields := mkYields { y_energies : option (list Qc); y_independent : option (list (dict unum)); y_cumulative : option (list (dict unum)) }.
(** decay.py:145-154; arrays of other lengths are not equal (NumPy: False, or an array of one against any). *)
Fixpoint all_equal (a b : list Qc) : bool :=
  match a, b with [], [] => true | x :: a', y :: b' => qeqb x y && all_equal a' b' | _, _ => false end.
Definition same_energy (a b : list Qc) : bool :=
  if Nat.eqb (length a) (length b) then all_equal a b
  else match a, b with
       | [x], _ => forallb (qeqb x) b
       | _, [y] => forallb (qeqb y) a
       | _, _ => false
       end.
Definition fission_yields (s454 s459 : option file) : option yields :=
  do y <- match s454 with
          | None => Some (mkYields None None None)
          | Some f => do (es, d) <- get_yields f; Some (mkYields (Some es) (Some d) None)
          end;
  match s459 with
  | None => Some y
  | Some f =>
      do (es, d) <- get_yields f;
      do es0 <- y_energies y;
      if same_energy es es0 then Some (mkYields (y_energies y) (y_independent y) (Some d)) else None
  end.

(** *** Decay modes *)
Record mode := mkMode { m_parent : text; m_modes : list text; m_state : Z; m_energy : unum; m_ratio : unum }.
(** decay.py:206-212, 256-284: negative values raise. *)
Definition make_mode (parent : text) (modes : list text) (state : Z) (energy ratio : unum) : option mode :=
  if qltb (fst energy) 0%Qc || qltb (snd energy) 0%Qc || qltb (fst ratio) 0%Qc || qltb (snd ratio) 0%Qc then None
  else Some (mkMode parent modes state energy ratio).
(** decay.py:230-237: the entries of that name, each applied. *)
Definition apply_mode (za : Z * Z) (m : text) : Z * Z :=
  fold_left (fun za e => if eqt (fst e) m then match snd e with Some (da, dz) => (fst za + dz, snd za + da)%Z | None => za end else za) decay_modes za.
(** decay.py:223-242; the pattern's two groups are those of data.py:138 (Name_Model). *)
Definition daughter (d : mode) : option text :=
  do (s, a, _) <- matched (m_parent d);
  do z <- number s;
  let (z', a') := fold_left apply_mode (m_modes d) (z, Z.of_N (dval a)) in
  do s' <- symbol z';
  Some (if (0 <? m_state d)%Z then s' ++ decZ a' ++ str "_m" ++ decZ (m_state d) else s' ++ decZ a').

(** *** Decay *)
(** decay.py:351-371: keys of the average energies. *)
Definition short_keys : list text := map str ["light"; "electromagnetic"; "heavy"]%string.
Definition long_keys : list text := map str
  ["beta-"; "beta+"; "auger"; "conversion"; "gamma"; "xray"; "Bremsstrahlung"; "annihilation"; "alpha"; "recoil"; "SF"; "neutron"; "proton"; "neutrino"]%string.
Fixpoint put_all (ks : list text) (i : nat) (values : list Qc) (d : dict unum) : option (dict unum) :=
  match ks with
  | [] => Some d
  | k :: r => do u <- ufloat (part (2 * i) (2 * i + 2) values); put_all r (S i) values (set_key k u d)
  end.
Definition averages (npl : Z) (values : list Qc) : option (dict unum) :=
  do d <- put_all short_keys 0 values [];
  if (npl / 2 =? 17)%Z then put_all long_keys 3 values d else Some d.
(** decay.py:374-378; [None] inside: unknown. *)
Definition spin_of (q : Qc) : option Qc := if qeqb q (decimal true 77777 3 0) then None else Some q.
(** decay.py:383-391. *)
Definition read_mode (name : text) (values : list Qc) (i : nat) : option mode :=
  do r <- nth_error values (6 * i);
  do ms <- get_decay_modes r;
  do st <- nth_error values (6 * i + 1);
  do e <- ufloat (part (6 * i + 2) (6 * i + 4) values);
  do b <- ufloat (part (6 * i + 4) (6 * i + 6) values);
  make_mode name ms (trunc st) e b.

(** A discrete line and a continuous part. *)
Record dline := mkLine { d_energy : unum; d_from : list text; d_type : option text; d_intensity : unum;
  d_positron : option unum; d_pair : option unum; d_total : option unum; d_k : option unum; d_l : option unum }.
Record cpart := mkCPart { c_from : list text; c_regions : list (Z * Z); c_points : list (Qc * Qc); c_cov : option (Z * list (Qc * Qc)) }.
Record spectrum := mkSpec { s_type : text; s_flag : Z; s_dnorm : unum; s_eavg : unum; s_cnorm : unum;
  s_discrete : option (list dline); s_cont : option cpart }.
(** A value found by a number among integer keys. *)
Fixpoint by_number {A} (q : Qc) (l : list (Z * A)) : option A :=
  match l with [] => None | (z, a) :: r => if qeqb q (qz z) then Some a else by_number q r end.
(** decay.py:393-395. *)
Definition discrete_types : list (Z * option text) :=
  [(0, None); (1, Some (str "allowed")); (2, Some (str "first-forbidden")); (3, Some (str "second-forbidden"));
   (4, Some (str "third-forbidden")); (5, Some (str "fourth-forbidden")); (6, Some (str "fifth-forbidden"))]%Z.
Definition opt {A} (b : bool) (o : option A) : option (option A) := if b then do a <- o; Some (Some a) else Some None.
(** decay.py:417-432. *)
Definition read_line (ty : text) (f : file) : option (dline * file) :=
  do (items, values, f') <- get_list_record f;
  do a <- c1 items; do b <- c2 items;
  do e <- ufloat [a; b];
  do r <- nth_error values 0;
  do ms <- get_decay_modes r;
  do t <- nth_error values 1;
  do kind <- by_number t discrete_types;
  do i <- ufloat (part 2 4 values);
  let ec := eqt ty (str "ec/beta+") in
  let ga := eqt ty (str "gamma") in
  do pos <- opt ec (ufloat (part 4 6 values));
  do ip <- opt ga (ufloat (part 4 6 values));
  do tot <- opt (ga && (8 <=? length values)%nat) (ufloat (part 6 8 values));
  do k <- opt (ga && (length values =? 12)%nat) (ufloat (part 8 10 values));
  do l <- opt (ga && (length values =? 12)%nat) (ufloat (part 10 12 values));
  Some (mkLine e ms kind i pos ip tot k l, f').
Fixpoint read_lines (n : nat) (ty : text) (f : file) : option (list dline * file) :=
  match n with
  | O => Some ([], f)
  | S k => do (d, f') <- read_line ty f; do (ds, f'') <- read_lines k ty f'; Some (d :: ds, f'')
  end.
(** [zip(values[0::2], values[1::2])]. *)
Fixpoint pairs_of (l : list Qc) : list (Qc * Qc) :=
  match l with a :: b :: r => (a, b) :: pairs_of r | _ => [] end.
(** decay.py:434-447. *)
Definition read_continuous (f : file) : option (cpart * file) :=
  do (a, _, _, lcov, rg, ps, f') <- get_tab1_record f;
  do ms <- get_decay_modes a;
  if (lcov =? 0)%Z then Some (mkCPart ms rg ps None, f')
  else
    do (items, values, f'') <- get_list_record f';
    Some (mkCPart ms rg ps (Some (l2 items, pairs_of values)), f'').
(** decay.py:398-450: one spectrum. *)
Definition read_spectrum (f : file) : option (spectrum * file) :=
  do (items, values, f1) <- get_list_record f;
  do c <- c2 items;
  do ty <- by_number c radiation_types;
  if negb ((l1 items =? 0)%Z || (l1 items =? 1)%Z || (l1 items =? 2)%Z) then None
  else
    do dn <- ufloat (part 0 2 values);
    do ea <- ufloat (part 2 4 values);
    do cn <- ufloat (part 4 6 values);
    do (ds, f2) <- (if (l1 items =? 1)%Z then Some (None, f1)
                    else do (l, f2) <- read_lines (Z.to_nat (n2 items)) ty f1; Some (Some l, f2));
    do (ci, f3) <- (if (l1 items =? 0)%Z then Some (None, f2)
                    else do (c, f3) <- read_continuous f2; Some (Some c, f3));
    Some (mkSpec ty (l1 items) dn ea cn ds ci, f3).
Fixpoint read_spectra (n : nat) (f : file) (d : dict spectrum) : option (dict spectrum) :=
  match n with
  | O => Some d
  | S k => do (s, f') <- read_spectrum f; read_spectra k f' (set_key (s_type s) s d)
  end.

(** The result; [v_half] [None]: infinite; [v_spin] [None]: unknown. *)
Record decay := mkDecay { v_z : Z; v_a : Z; v_m : Z; v_name : text; v_mass : Qc; v_excited : Z; v_stable : bool;
  v_half : option unum; v_spin : option Qc; v_parity : option Qc;
  v_averages : dict unum; v_modes : list mode; v_spectra : dict spectrum }.
(** decay.py:314-457. *)
Definition read_decay (f : file) : option decay :=
  do (za, awr, lis, liso, nst, nsp, f0) <- get_head_record f;
  let z := (za / 1000)%Z in
  let a := (za mod 1000)%Z in
  do name <- nuclide_name z a liso;
  if (nst =? 1)%Z then
    do (_, _, f1) <- get_list_record f0;
    do (items, _, _) <- get_list_record f1;
    Some (mkDecay z a liso name awr lis true None (c1 items) (c2 items) [] [] [])
  else
    do (items, values, f1) <- get_list_record f0;
    do h <- c1 items; do dh <- c2 items;
    do half <- ufloat [h; dh];
    do av <- averages (n1 items) values;
    do (items2, values2, f2) <- get_list_record f1;
    do sp <- c1 items2;
    do ms <- each_some (read_mode name values2) (seq 0 (Z.to_nat (n2 items2)));
    do ss <- read_spectra (Z.to_nat nsp) f2 [];
    Some (mkDecay z a liso name awr lis false (Some half) (spin_of sp) (c2 items2) av ms ss).

(** decay.py:459-465, by the rules of uncertainties: [ln2] is log(2.). *)
Definition decay_constant (ln2 : Qc) (h : unum) : option unum :=
  if qeqb (fst h) 0%Qc then None else Some (ln2 / fst h, ln2 / (fst h * fst h) * snd h)%Qc.
